-Q theories Verif
theories/Base.v
theories/States_Model.v
theories/States_Spec.v
theories/States_Proofs.v
theories/States_Props.v
theories/Scan_Model.v
theories/Scan_Spec.v
theories/Scan_Proofs.v
theories/Validate_Model.v
theories/Validate_Proofs.v
theories/Scan_Props.v
theories/Seq_Model.v
theories/Seq_Spec.v
theories/Seq_Proofs.v
theories/Seq_Props.v
theories/Panda_Model.v
theories/Panda_Spec.v
theories/Panda_Proofs.v
theories/Panda_Props.v
theories/Pmac_Model.v
theories/Pmac_Spec.v
theories/Pmac_Proofs.v
theories/PmacScan_Proofs.v
theories/PmacScan2_Proofs.v
theories/Pmac_Props.v
theories/Notify_Model.v
theories/Notify_Spec.v
theories/Notify_Proofs.v
theories/Notify2_Proofs.v
theories/Notify3_Proofs.v
theories/Notify4_Proofs.v
theories/Notify5_Proofs.v
theories/Notify_Props.v
theories/Meta_Model.v
theories/Meta_Spec.v
theories/Meta_Proofs.v
theories/Meta_Props.v
theories/Ctx_Model.v
theories/Ctx_Spec.v
theories/Ctx_Proofs.v
theories/Ctx2_Proofs.v
theories/Ctx_Props.v
theories/Hook_Model.v
theories/Hook_Spec.v
theories/Hook_Proofs.v
theories/Hook_Props.v
theories/Req_Model.v
theories/Req_Spec.v
theories/Req_Props.v
theories/Reg_Model.v
theories/Reg_Props.v
theories/Mgr_Model.v
theories/Mgr_Spec.v
theories/Mgr_Proofs.v
theories/MgrInv_Proofs.v
theories/Mgr_Props.v
theories/MgrSever_Props.v
theories/Web_Model.v
theories/Web_Spec.v
theories/Web_Props.v
theories/WebClient_Props.v
theories/Expo_Model.v
theories/Expo_Props.v
theories/Det_Model.v
theories/Det_Props.v
theories/Twin_Model.v
theories/Twin_Props.v
theories/Runner_Model.v
theories/Runner_Props.v
theories/Bus_Model.v
theories/Bus_Spec.v
theories/Bus_Proofs.v
theories/Bus_Props.v
theories/Tree_Model.v
theories/Tree_Spec.v
theories/Tree_Proofs.v
theories/Tree2_Proofs.v
theories/Tree3_Proofs.v
theories/Tree4_Proofs.v
theories/Tree_Props.v
theories/Hdf_Model.v
theories/Hdf_Spec.v
theories/Hdf_Proofs.v
theories/Hdf_Props.v
theories/Odin_Model.v
theories/Odin_Spec.v
theories/Odin_Proofs.v
theories/Odin2_Proofs.v
theories/Odin3_Proofs.v
theories/Odin_Props.v
theories/Count_Model.v
theories/Count_Props.v
theories/Motion_Model.v
theories/Motion_Props.v
theories/Turn_Spec.v
theories/Turn_Proofs.v
theories/Turn_Props.v
theories/Blind_Props.v
theories/Proxy_Model.v
theories/Proxy_Spec.v
theories/Proxy_Proofs.v
theories/Proxy_Props.v
theories/Yaml_Model.v
theories/Yaml_Spec.v
theories/Yaml_Proofs.v
theories/Yaml_Props.v
theories/Savu_Model.v
theories/Savu_Spec.v
theories/Savu_Proofs.v
theories/Savu_Props.v
theories/Beam_Model.v
theories/Beam_Props.v
theories/Traj_Model.v
theories/Traj_Props.v
theories/Ports_Model.v
theories/Ports_Props.v
theories/PField_Model.v
theories/PField_Spec.v
theories/PField_Proofs.v
theories/PField_Names.v
theories/PField_Props.v
theories/PPoll_Model.v
theories/PPoll_Props.v
theories/Proc_Model.v
theories/Proc_Proofs.v
theories/Proc_Props.v
theories/Dval_Model.v
theories/Dval_Spec.v
theories/Dval_Proofs.v
theories/Dval_Props.v
theories/Trans_Model.v
theories/Trans_Props.v
theories/Pulse_Model.v
theories/Pulse_Props.v
theories/Drv_Model.v
theories/Drv_Props.v
theories/PLay_Model.v
theories/PLay_Props.v
theories/PName_Model.v
theories/PName_Props.v
theories/Pva_Model.v
theories/Pva_Spec.v
theories/Pva_Proofs.v
theories/Pva_Props.v
theories/Pva2_Model.v
theories/Pva2_Props.v
theories/PvaC_Model.v
theories/PvaC_Spec.v
theories/PvaC_Proofs.v
theories/PvaC_Props.v
theories/Lut_Model.v
theories/Lut_Props.v
theories/Dmul_Props.v
theories/Ca_Model.v
theories/Ca_Props.v
theories/Cfg_Model.v
theories/Cfg_Props.v
theories/Unroll_Model.v
theories/Unroll_Props.v
theories/Thr_Model.v
theories/Thr_Spec.v
theories/Thr_Proofs.v
theories/Thr_Props.v
theories/Xport_Model.v
theories/Xport_Props.v
theories/Thr_Live.v
theories/Ioc_Model.v
theories/Ioc_Props.v
theories/SeqT_Model.v
theories/SeqT_Props.v
theories/Demo_Model.v
theories/Demo_Props.v
theories/View_Model.v
theories/View_Props.v
theories/Hlife_Model.v
theories/Hlife_Props.v
theories/Stall_Model.v
theories/Stall_Props.v
theories/Xml_Model.v
theories/Xml_Spec.v
theories/Xml_Props.v
theories/Arm_Model.v
theories/Arm_Props.v
theories/Pq_Model.v
theories/Pq_Spec.v
theories/Pq_Props.v
theories/Whole_Model.v
theories/Whole_Props.v
theories/Trio_Model.v
theories/Trio_Props.v
theories/Fly_Model.v
theories/Fly_Proofs.v
theories/Fly_Props.v
theories/Cs_Model.v
theories/Cs_Props.v
theories/Puts_Model.v
theories/Puts_Props.v
theories/PTime_Props.v
theories/Sparse_Model.v
theories/Sparse_Props.v
theories/Rest_Model.v
theories/Rest_Props.v
