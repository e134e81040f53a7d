(** C66: the kinematics datasets that are announced are made; C67: what Savu gets to work with. *)
From Coq Require Import String Ascii Bool QArith Lia List.
From Verif Require Import Base Hdf_Model Odin_Model Hdf_Proofs Odin2_Proofs Savu_Model Savu_Spec Savu_Proofs.
From Verif Require Pmac_Model Pmac_Spec Pmac_Proofs.
Import ListNotations.
Local Open Scope nat_scope.
Local Open Scope string_scope.
Local Open Scope list_scope.

(** When a scan is accepted: all its axes are in one coordinate system, and each motor of the
    coordinate system on the port of the part (the one that it was given or found first) is captured
    in a row of the positions table other than the first. *)
Theorem C66_accepted : forall s w dir t g axes layout pos,
  dget (w_pmac w) (w_layout w) = Some layout -> dget (w_panda w) (w_positions w) = Some pos -> NoDup (map m_name layout) ->
  (exists r, on_configure s w dir t g axes = Ok r) <->
  exists port letter p, moved layout axes port letter /\
    (s_cs_port s = Some p \/ (s_cs_port s = None /\ p = port /\ axes <> [])) /\ p <> "" /\
    forall a n, raw_axis layout p a n -> exists r, In r (tl pos) /\ captured a r.
Proof.
  intros s w dir t g axes layout pos L P N. split.
  - intros ([s1 ds] & H). apply configure_inv in H.
    destruct H as (layout' & pos' & m & p & use & port & letter & L' & P' & _ & M & Po & Np & C & _).
    rewrite L in L'. injection L' as <-. rewrite P in P'. injection P' as <-.
    exists port, letter, p. split; [exact M|]. split; [exact Po|]. split; [exact Np|]. intros a n R.
    apply (proj1 (check_ok (cs_axis_numbers layout p []) pos true) (ex_intro _ use C) a n). now apply numbers_In.
  - intros (port & letter & p & M & Po & Np & R). apply moved_iff in M.
    destruct (Pmac_Proofs.mapping_complete (cs_rows layout) axes port letter) as (m & Hm); [now rewrite layout_names|exact M|].
    unfold on_configure. rewrite L, Hm, P.
    assert (E : match s_cs_port s with Some p => Some p | None => match m with [] => None | (_, (p, _)) :: _ => Some p end end = Some p).
    { destruct Po as [->|(-> & -> & A)]; [reflexivity|]. destruct (mapping_q _ _ _ Hm) as (port' & letter' & O' & D & I & _).
      destruct axes as [|a axes]; [congruence|]. destruct m as [|[b [p' l]] m].
      - exfalso. assert (X : In a (a :: axes)) by now left. apply D in X. discriminate.
      - destruct (I p' l b (or_introl eq_refl)) as (-> & _ & X). f_equal.
        destruct (moved_fun layout (a :: axes) port letter port' letter' N) with (a := b) as [E _]; [now apply moved_iff|now apply moved_iff|exact X|congruence]. }
    rewrite E. destruct p as [|c p]; [congruence|].
    destruct (proj2 (check_ok (cs_axis_numbers layout (String c p) []) pos true)) as (u & ->); [|eauto].
    intros a n I. apply (R a n). now apply numbers_In.
Qed.
Print Assumptions C66_accepted.

(** What is announced: the mean of each axis of the scan, and the minimum and maximum of it if no motor
    is captured by its mean or value alone. *)
Theorem C66_announced : forall s w dir t g axes s1 ds layout pos p port letter, NoDup (map m_name layout) ->
  dget (w_pmac w) (w_layout w) = Some layout -> dget (w_panda w) (w_positions w) = Some pos ->
  on_configure s w dir t g axes = Ok (s1, ds) -> s_cs_port s1 = Some p -> moved layout axes port letter ->
  forall d, In d ds <->
  exists a what, In a axes /\ In (what, p_type d) kinds /\
    (what <> "mean" -> forall b n r, raw_axis layout p b n -> In r pos -> ~ only_mean b r) /\
    d = mkP (a +++ "." +++ what) (subst (splitext t) "kinematics-vds" +++ ".nxs") (p_type d) (length (g_dims g))
            ("/entry/" +++ a +++ "." +++ what) "".
Proof.
  intros s w dir t g axes s1 ds layout pos p port letter N L P H Sp M d. apply configure_inv in H.
  destruct H as (layout' & pos' & m & p' & use & port' & letter' & L' & P' & _ & M' & Po & Np & C & -> & -> & Nq & Q).
  rewrite L in L'. injection L' as <-. rewrite P in P'. injection P' as <-. cbn [s_cs_port] in Sp. injection Sp as ->.
  pose proof (check_use _ _ _ _ C) as U.
  assert (U' : use = true <-> forall b n r, raw_axis layout p b n -> In r pos -> ~ only_mean b r).
  { rewrite U. split.
    - intros [_ A] b n r R. apply (A b n r). now apply numbers_In.
    - intro A. split; [reflexivity|]. intros b n r I. apply (A b n r). now apply numbers_In in I. }
  rewrite produced_In. split.
  - intros (k & a & what & I & K & W & E). apply Q in I. destruct I as (i & -> & A & _). exists a, what.
    split; [exact A|]. split; [exact K|]. split; [intro X; exact (proj1 U' (W X))|exact E].
  - intros (a & what & A & K & W & E). destruct M' as (_ & M' & _). destruct (M' a A) as [Lt _].
    apply In_nth_error in Lt. destruct Lt as (i & Lt). exists (S i), a, what.
    split; [apply Q; exists i; auto|]. split; [exact K|]. split; [intro X; exact (proj2 U' (W X))|exact E].
Qed.
Print Assumptions C66_announced.

(** Each dataset that is announced is in the VDS file, for the right Q variable of the right result of
    Savu, if there are a minimum and a maximum for each motor that was captured with them. *)
Theorem C66_made : forall s w dir t g axes s1 ds w' infos s2 f layout p port letter, NoDup (map m_name layout) ->
  dget (w_pmac w) (w_layout w) = Some layout -> on_configure s w dir t g axes = Ok (s1, ds) ->
  on_post_configure s1 w' infos = Ok (s2, f) -> s_cs_port s1 = Some p -> moved layout axes port letter ->
  (forall a n, raw_axis layout p a n -> exists i j, In i infos /\ In j infos /\ of_axis a POSITION_MIN i /\ of_axis a POSITION_MAX j) ->
  forall d, In d ds -> fst (f_vds f) = dir +++ "/" +++ p_file d /\
  exists a what i, In a axes /\ In (what, p_type d) kinds /\ p_name d = a +++ "." +++ what /\ nth_error letters i = Some (letter a) /\
    In (p_path d, Virtual (dir +++ "/" +++ subst (splitext t) "savuproc" +++ "/" +++ subst (splitext t) "savu_processed" +++ ".nxs")
                          ("/entry/final_result_q" +++ what +++ "/data") i) (snd (f_vds f)).
Proof.
  intros s w dir t g axes s1 ds w' infos s2 f layout p port letter N L H H' Sp M B d D. apply configure_inv in H.
  destruct H as (layout' & pos' & m & p' & use & port' & letter' & L' & _ & _ & M' & Po & Np & C & E1 & -> & Nq & Q).
  rewrite L in L'. injection L' as <-. apply post_inv in H'.
  destruct H' as (links & use' & iv & pv & mv & kin & qv & vars & Lk & _ & _ & _ & _ & _ & ->).
  subst s1. cbn [s_cs_port s_axes s_p s_min_max s_q s_savu s_gen s_vds] in *. injection Sp as ->.
  apply link_ok in Lk. destruct Lk as (_ & U & _).
  assert (U' : use = true -> use' = true).
  { intro X. apply U. split; [exact X|]. intros a n I. apply numbers_In in I; [|exact N]. destruct (B a n I) as (i & j & ? & ? & ? & ?).
    split; [exists i|exists j]; auto. }
  apply produced_In in D. destruct D as (k & a & what & I & K & W & ->). apply Q in I. destruct I as (i & -> & A & Lt).
  cbn [p_file p_path p_name p_type f_vds fst snd] in *. split; [reflexivity|]. exists a, what, i.
  destruct (moved_fun _ _ _ _ _ _ N M M' a A) as [_ El]. split; [exact A|]. split; [exact K|]. split; [reflexivity|].
  split; [congruence|]. apply vds_In. left. exists what, i.
  split. { assert (X : i < length letters) by (apply nth_error_Some; congruence). exact X. }
  split. { cbn in K. cbn. intuition congruence. }
  split; [intro X; apply U'; auto|]. split; [|reflexivity].
  unfold q_name. replace (nget (i + 1) (q_mapping m)) with (Some a); [reflexivity|]. symmetry.
  apply (nget_In _ _ _ Nq). apply Q. exists i. split; [lia|auto].
Qed.
Print Assumptions C66_made.

(** What else is in the VDS file: a Q variable that no axis of the scan uses, by its number, and the
    demand positions. *)
Theorem C66_rest : forall s w dir t g axes s1 ds w' infos s2 f layout port letter, NoDup (map m_name layout) ->
  dget (w_pmac w) (w_layout w) = Some layout -> on_configure s w dir t g axes = Ok (s1, ds) ->
  on_post_configure s1 w' infos = Ok (s2, f) -> moved layout axes port letter ->
  NoDup (map fst (snd (f_vds f))) /\
  forall path x, In (path, x) (snd (f_vds f)) ->
  (exists d, In d ds /\ p_path d = path) \/
  (exists i l d savu what, nth_error letters i = Some l /\ (forall a, In a axes -> letter a <> l) /\ two_digits (S i) d /\
     In what ["mean"; "min"; "max"] /\ path = "/entry/rawQ" +++ d +++ "." +++ what /\
     x = Virtual savu ("/entry/final_result_q" +++ what +++ "/data") i) \/
  (exists dm a, In dm (g_dims g) /\ In a (d_axes dm) /\ path = "/entry/" +++ a +++ "_set/" +++ a +++ ".value_set" /\ x = SetPoints (d_pos dm a)).
Proof.
  intros s w dir t g axes s1 ds w' infos s2 f layout port letter N L H H' M. apply configure_inv in H.
  destruct H as (layout' & pos' & m & p' & use & port' & letter' & L' & _ & _ & M' & Po & Np & C & E1 & -> & Nq & Q).
  rewrite L in L'. injection L' as <-. apply post_inv in H'.
  destruct H' as (links & use' & iv & pv & mv & kin & qv & vars & Lk & _ & _ & _ & _ & Nd & ->).
  subst s1. cbn [s_cs_port s_axes s_p s_min_max s_q s_savu s_gen s_vds f_vds snd] in *.
  split; [exact Nd|]. intros path x I. apply link_ok in Lk. destruct Lk as (_ & U & _).
  apply vds_In in I. destruct I as [(what & i & Hi & W & X & -> & ->)|I]; [|right; right; exact I].
  unfold q_name. destruct (nget (i + 1) (q_mapping m)) as [a|] eqn:G.
  - left. apply (nget_In _ _ _ Nq) in G.
    assert (T : exists ty, In (what, ty) kinds).
    { cbn in W. destruct W as [<-|[<-|[<-|[]]]]; eexists; cbn; intuition. }
    destruct T as (ty & T).
    exists (mkP (a +++ "." +++ what) (file_name t "kinematics-vds") ty (length (g_dims g)) ("/entry/" +++ a +++ "." +++ what) ""). split; [apply produced_In; exists (i + 1), a, what|].
    + split; [exact G|]. split; [exact T|]. split; [intro Y; exact (proj1 (proj1 U (X Y)))|reflexivity].
    + reflexivity.
  - right. left. destruct (nth_error letters i) as [l|] eqn:El; [|apply nth_error_None in El; cbn in El; lia].
    exists i, l, (two (S i)). eexists. exists what. split; [exact El|]. split; [|split; [apply two_spec; reflexivity|]].
    + intros a A E. assert (J : In (i + 1, a) (q_mapping m)).
      { apply Q. exists i. split; [lia|]. split; [exact A|]. destruct (moved_fun _ _ _ _ _ _ N M M' a A) as [_ <-]. congruence. }
      apply (nget_In _ _ _ Nq) in J. congruence.
    + split; [exact W|]. split; [|reflexivity]. replace (S i) with (i + 1) by lia. reflexivity.
Qed.
Print Assumptions C66_rest.

(** A PMAC with x on A and y on X of CS1, and z on A of CS2, and a PandA that has x and y. *)
Definition ex_layout := [mkMotor "x" (Some "CS1,A") (Some 1); mkMotor "y" (Some "CS1,X") (Some 23);
                         mkMotor "z" (Some "CS2,A") (Some 4); mkMotor "c" (Some "CS3,A") None].
(** See above. *)
Definition ex_pos := [mkRow "I0" CMinMaxMean 1 0; mkRow "x" CMinMaxMean (-1 # 1000) 0; mkRow "y" CMinMaxMean 1 (1 # 2);
                      mkRow "z" CMean 1 0].
(** See above. *)
Definition ex_world (pos : list prow) : world :=
  mkW "PMAC" "PANDA" [("PMAC", ex_layout)] [("PANDA", pos)]
      [("PMAC:STATUS", ("I12=3 I13=$ff", "P4801=0.5 P4901=7 P4823=2 P4923=8", ""))] [("PMAC:CS1", ("Q1=P1+10" +++ String (ascii_of_nat 10) "RET", "Q22=12345"))].
(** A scan of 2 by 3 points. *)
Definition ex_gen : gen := mkGen [mkDim ["y"] 2 (fun _ => [0; 1]%Q); mkDim ["x"] 3 (fun _ => [0; 1; 2]%Q)] ["y"; "x"] (fun _ => "mm").
(** The datasets of the PandA. *)
Definition ex_infos : list produced :=
  flat_map (fun a => map (fun k => mkP (a +++ "." +++ fst k) "panda.h5" (snd k) 2 ("/entry/" +++ a +++ "/" +++ fst k) "/uid") kinds) ["x"; "y"].

Example C66_ex :
  match on_configure (init None "CS1") (ex_world ex_pos) "/tmp" "scan-%s.h5" ex_gen ["x"; "y"] with
  | Ok (s1, ds) =>
    map (fun d => (p_name d, p_file d)) ds
      = [("x.mean", "scan-kinematics-vds.nxs"); ("x.min", "scan-kinematics-vds.nxs"); ("x.max", "scan-kinematics-vds.nxs");
         ("y.mean", "scan-kinematics-vds.nxs"); ("y.min", "scan-kinematics-vds.nxs"); ("y.max", "scan-kinematics-vds.nxs")] /\
    match on_post_configure s1 (ex_world ex_pos) ex_infos with
    | Ok (_, f) =>
      map fst (filter (fun px => match snd px with Virtual _ "/entry/final_result_qmin/data" _ => true | _ => false end) (snd (f_vds f)))
      = ["/entry/x.min"; "/entry/rawQ02.min"; "/entry/rawQ03.min"; "/entry/rawQ04.min"; "/entry/rawQ05.min"; "/entry/rawQ06.min";
         "/entry/y.min"; "/entry/rawQ08.min"; "/entry/rawQ09.min"]
    | Err _ => False
    end
  | Err _ => False
  end.
Proof. vm_compute. split; reflexivity. Qed.
Example C66_ex_moved : moved ex_layout ["x"; "y"] "CS1" (fun a => if String.eqb a "x" then "A" else "X").
Proof.
  split; [intro I; cbn in I; intuition discriminate|]. split.
  - intros a [<-|[<-|[]]]; (split; [cbn; tauto|]); [exists (Some 1)|exists (Some 23)]; cbn; tauto.
  - intros a b [<-|[<-|[]]] [<-|[<-|[]]] E; cbn in E; congruence.
Qed.

(** A motor that is captured in the first row of the table: the scan is refused. *)
Theorem C66_first_row_refuted : exists s w dir t g axes layout pos port letter,
  dget (w_pmac w) (w_layout w) = Some layout /\ dget (w_panda w) (w_positions w) = Some pos /\ NoDup (map m_name layout) /\
  moved layout axes port letter /\ s_cs_port s = Some port /\
  (forall a n, raw_axis layout port a n -> exists r, In r pos /\ captured a r) /\
  on_configure s w dir t g axes = Err (NoDataset "x").
Proof.
  exists (init (Some "CS1") "CS1"), (ex_world (tl ex_pos)), "/tmp", "scan-%s.h5", ex_gen, ["x"; "y"], ex_layout, (tl ex_pos), "CS1",
    (fun a => if String.eqb a "x" then "A" else "X").
  split; [reflexivity|]. split; [reflexivity|]. split; [apply Pmac_Proofs.has_dup_iff; reflexivity|]. split; [exact C66_ex_moved|].
  split; [reflexivity|]. split; [|vm_compute; reflexivity]. intros a n R. apply raw_axis_row in R. destruct R as (cs & I & _ & _ & E).
  cbn in I. destruct I as [I|[I|[I|[I|[]]]]]; try discriminate; injection I as <- <- <-; cbn in E; try discriminate.
  - exists (mkRow "x" CMinMaxMean (-1 # 1000) 0). split; [now left|]. split; cbn; tauto.
  - exists (mkRow "y" CMinMaxMean 1 (1 # 2)). split; [right; now left|]. split; cbn; tauto.
Qed.
Print Assumptions C66_first_row_refuted.

(** Without the minimum and maximum of the PandA, they are announced and not made. *)
Theorem C66_lost_refuted : exists s w dir t g axes s1 ds infos s2 f d,
  on_configure s w dir t g axes = Ok (s1, ds) /\ on_post_configure s1 w infos = Ok (s2, f) /\ In d ds /\
  ~ In (p_path d) (map fst (snd (f_vds f))).
Proof.
  exists (init None "CS1"), (ex_world ex_pos), "/tmp", "scan-%s.h5", ex_gen, ["x"; "y"].
  eexists. eexists. exists (filter (fun i => same_type (p_type i) POSITION_VALUE) ex_infos). eexists. eexists.
  exists (mkP "x.min" "scan-kinematics-vds.nxs" POSITION_MIN 2 "/entry/x.min" "").
  split; [vm_compute; reflexivity|]. split; [vm_compute; reflexivity|]. split; [right; now left|].
  rewrite <- smem_In. vm_compute. discriminate.
Qed.
Print Assumptions C66_lost_refuted.

(** The port is the one of the first scan from then on: after a scan of CS1, a scan of CS2 is about the
    motors of CS1. *)
Theorem C66_port_refuted : exists s w dir t g axes s1 ds axes' s2 ds' port letter,
  s_cs_port s = None /\ on_configure s w dir t g axes = Ok (s1, ds) /\ on_configure s1 w dir t g axes' = Ok (s2, ds') /\
  moved ex_layout axes' port letter /\ s_cs_port s2 <> Some port /\ s_axes s2 = s_axes s1 /\ raw_axis ex_layout port "z" 4 /\ ~ In "z" (dkeys (s_axes s2)).
Proof.
  exists (init None "CS1"), (ex_world ex_pos), "/tmp", "scan-%s.h5", ex_gen, ["x"; "y"]. eexists. eexists. exists ["z"]. eexists. eexists.
  exists "CS2", (fun _ => "A"). split; [reflexivity|]. split; [vm_compute; reflexivity|]. split; [vm_compute; reflexivity|].
  split.
  { split; [intro I; cbn in I; intuition discriminate|]. split.
    - intros a [<-|[]]. split; [now left|]. exists (Some 4). cbn. tauto.
    - intros a b [<-|[]] [<-|[]] _. reflexivity. }
  split; [cbn; discriminate|]. split; [reflexivity|]. split.
  - exists "CS2,A", "A". cbn. repeat split; try tauto; try discriminate. intuition discriminate.
  - cbn. intros [E|[E|[]]]; discriminate.
Qed.
Print Assumptions C66_port_refuted.

(** C67: the positions that Savu gets are for each motor of the coordinate system the last dataset that
    was announced of its value, and of its minimum and maximum if there are both. *)
Theorem C67_links : forall s w dir t g axes s1 ds w' infos s2 f layout p, NoDup (map m_name layout) ->
  dget (w_pmac w) (w_layout w) = Some layout -> on_configure s w dir t g axes = Ok (s1, ds) ->
  on_post_configure s1 w' infos = Ok (s2, f) -> s_cs_port s1 = Some p ->
  NoDup (map v_number (i_links (snd (f_in f)))) /\
  forall v, In v (i_links (snd (f_in f))) <->
  exists a n what ty i, raw_axis layout p a n /\ In (what, ty) kinds /\ picked a ty infos i /\
    (what <> "mean" -> exists j k, In j infos /\ In k infos /\ of_axis a POSITION_MIN j /\ of_axis a POSITION_MAX k) /\
    v = mkPV (p_path i) (p_file i) ("p" +++ str n +++ what).
Proof.
  intros s w dir t g axes s1 ds w' infos s2 f layout p N L H H' Sp. apply configure_inv in H.
  destruct H as (layout' & pos' & m & p' & use & port' & letter' & L' & _ & _ & M' & Po & Np & C & E1 & -> & Nq & Q).
  rewrite L in L'. injection L' as <-. apply post_inv in H'.
  destruct H' as (links & use' & iv & pv & mv & kin & qv & vars & Lk & _ & _ & _ & Nl & _ & ->).
  subst s1. cbn [s_cs_port s_axes s_p s_min_max f_in snd i_links] in *. injection Sp as ->. split; [exact Nl|].
  apply link_ok in Lk. destruct Lk as (-> & _ & V). cbn [app] in *. intro v. rewrite in_flat_map. split.
  - intros ([a n] & I & K). apply numbers_In in I; [|exact N]. cbn [fst snd] in K. unfold axis_links in K.
    destruct (pick a POSITION_VALUE infos None) as [v0|] eqn:Ev; [|destruct K]. apply pick_iff in Ev; [|cbn; tauto].
    assert (MEAN : v = to_pvar v0 n "mean" -> exists a n what ty i, raw_axis layout p a n /\ In (what, ty) kinds /\ picked a ty infos i /\
      (what <> "mean" -> exists j k, In j infos /\ In k infos /\ of_axis a POSITION_MIN j /\ of_axis a POSITION_MAX k) /\
      v = mkPV (p_path i) (p_file i) ("p" +++ str n +++ what)).
    { intros ->. exists a, n, "mean", POSITION_VALUE, v0. split; [exact I|]. split; [cbn; tauto|]. split; [exact Ev|]. split; [congruence|reflexivity]. }
    destruct (pick a POSITION_MIN infos None) as [mn|] eqn:En; [destruct (pick a POSITION_MAX infos None) as [mx|] eqn:Ex|];
      [|destruct K as [K|[]]; auto|destruct K as [K|[]]; auto].
    apply pick_iff in En; [|cbn; tauto]. apply pick_iff in Ex; [|cbn; tauto].
    assert (B : exists j k, In j infos /\ In k infos /\ of_axis a POSITION_MIN j /\ of_axis a POSITION_MAX k).
    { apply picked_In in En, Ex. exists mn, mx. tauto. }
    destruct K as [K|[K|[K|[]]]]; [auto| |].
    + exists a, n, "min", POSITION_MIN, mn. split; [exact I|]. split; [cbn; tauto|]. split; [exact En|]. split; [auto|symmetry; exact K].
    + exists a, n, "max", POSITION_MAX, mx. split; [exact I|]. split; [cbn; tauto|]. split; [exact Ex|]. split; [auto|symmetry; exact K].
  - intros (a & n & what & ty & i & R & K & P & B & ->). exists (a, n). split; [now apply numbers_In|]. cbn [fst snd]. unfold axis_links.
    assert (In (a, n) (cs_axis_numbers layout p [])) as Ia by (now apply numbers_In).
    destruct (V a n Ia) as (v0 & Iv & Ov).
    destruct (proj2 (picked_ex a POSITION_VALUE infos (or_introl eq_refl)) (ex_intro _ v0 (conj Iv Ov))) as (v1 & Pv).
    rewrite (proj2 (pick_iff a POSITION_VALUE infos v1 (or_introl eq_refl)) Pv).
    cbn in K. destruct K as [K|[K|[K|[]]]]; injection K as <- <-.
    + rewrite (picked_fun _ _ _ _ _ P Pv).
      destruct (pick a POSITION_MIN infos None); [destruct (pick a POSITION_MAX infos None)|]; now left.
    + destruct B as (j & k & Ij & Ik & Oj & Ok'); [discriminate|].
      destruct (proj1 (both_pick infos a)) as (mn & mx & En & Ex); [split; [exists j|exists k]; auto|]. rewrite En, Ex.
      apply pick_iff in En; [|cbn; tauto]. rewrite (picked_fun _ _ _ _ _ P En). right. now left.
    + destruct B as (j & k & Ij & Ik & Oj & Ok'); [discriminate|].
      destruct (proj1 (both_pick infos a)) as (mn & mx & En & Ex); [split; [exists j|exists k]; auto|]. rewrite En, Ex.
      apply pick_iff in Ex; [|cbn; tauto]. rewrite (picked_fun _ _ _ _ _ P Ex). right. right. now left.
Qed.
Print Assumptions C67_links.

(** Savu is told to work with minimum and maximum, and gets the process list for it, if and only if it
    has them for each motor, and none is captured by its mean or value alone. *)
Theorem C67_min_max : forall s w dir t g axes s1 ds w' infos s2 f layout pos p, NoDup (map m_name layout) ->
  dget (w_pmac w) (w_layout w) = Some layout -> dget (w_panda w) (w_positions w) = Some pos ->
  on_configure s w dir t g axes = Ok (s1, ds) -> on_post_configure s1 w' infos = Ok (s2, f) -> s_cs_port s1 = Some p ->
  (i_min_max (snd (f_in f)) = true <->
   forall a n, raw_axis layout p a n -> (forall r, In r pos -> ~ only_mean a r) /\
     exists j k, In j infos /\ In k infos /\ of_axis a POSITION_MIN j /\ of_axis a POSITION_MAX k) /\
  f_pl f = (dir +++ "/" +++ subst (splitext t) "savu_pl" +++ ".nxs",
            if i_min_max (snd (f_in f)) then "min_mean_max.nxs" else "only_mean.nxs") /\
  fst (f_in f) = dir +++ "/" +++ subst (splitext t) "savu" +++ ".nxs".
Proof.
  intros s w dir t g axes s1 ds w' infos s2 f layout pos p N L P H H' Sp. apply configure_inv in H.
  destruct H as (layout' & pos' & m & p' & use & port' & letter' & L' & P' & _ & M' & Po & Np & C & E1 & -> & Nq & Q).
  rewrite L in L'. injection L' as <-. rewrite P in P'. injection P' as <-. apply post_inv in H'.
  destruct H' as (links & use' & iv & pv & mv & kin & qv & vars & Lk & _ & _ & _ & _ & _ & ->).
  subst s1. cbn [s_cs_port s_axes s_p s_min_max f_in f_pl snd fst i_min_max s_pl s_nxs] in *. injection Sp as ->.
  apply link_ok in Lk. destruct Lk as (_ & U & _). split; [|split; reflexivity]. rewrite U, (check_use _ _ _ _ C). split.
  - intros [[_ A] B] a n R. apply numbers_In in R; [|exact N]. split; [intros r I; now apply (A a n r)|].
    destruct (B a n R) as [(j & Ij & Oj) (k & Ik & Ok')]. exists j, k. auto.
  - intro A. split; [split; [reflexivity|]|].
    + intros a n r I Ir. apply numbers_In in I; [|exact N]. now apply (A a n I).
    + intros a n I. apply numbers_In in I; [|exact N]. destruct (A a n I) as [_ (j & k & ? & ? & ? & ?)]. split; [exists j|exists k]; auto.
Qed.
Print Assumptions C67_min_max.

(** The variables that Savu gets: of the I, P, M and Q variables each one with its last value that is
    not in hex, but with the resolution and the offset of a motor that the PandA has applied already
    put to 1.0 and 0.0. *)
Theorem C67_variables : forall s w dir t g axes s1 ds w' infos s2 f layout pos p iv pv mv qv kin, NoDup (map m_name layout) ->
  dget (w_pmac w) (w_layout w) = Some layout -> dget (w_panda w) (w_positions w) = Some pos ->
  on_configure s w dir t g axes = Ok (s1, ds) -> on_post_configure s1 w' infos = Ok (s2, f) -> s_cs_port s1 = Some p ->
  all_plain iv -> all_plain pv -> all_plain mv -> all_plain qv ->
  dget (w_pmac w +++ ":STATUS") (w_status w') = Some (text iv, text pv, text mv) ->
  dget (w_pmac w +++ ":" +++ s_suffix s) (w_cs w') = Some (kin, text qv) ->
  forall n v', dget n (i_vars (snd (f_in f))) = Some v' <->
    exists v, last_value (iv ++ pv ++ mv ++ qv) n v /\ adjusted layout p pos n v v'.
Proof.
  intros s w dir t g axes s1 ds w' infos s2 f layout pos p iv pv mv qv kin N L P H H' Sp A1 A2 A3 A4 S K n v'. apply configure_inv in H.
  destruct H as (layout' & pos' & m & p' & use & port' & letter' & L' & P' & _ & M' & Po & Np & C & E1 & -> & Nq & Q).
  rewrite L in L'. injection L' as <-. rewrite P in P'. injection P' as <-. apply post_inv in H'.
  destruct H' as (links & use' & iv' & pv' & mv' & kin' & qv' & vars & _ & S' & K' & V & _ & _ & ->).
  subst s1. cbn [s_cs_port s_axes s_p s_min_max f_in snd fst i_vars s_pos s_vars s_pmac s_suffix] in *. injection Sp as ->.
  rewrite S in S'. injection S' as <- <- <-. rewrite K in K'. injection K' as <- <-.
  rewrite parse_four in V by assumption. rewrite (assign_get _ _ n v' _ _ _ V). clear V.
  assert (SC : scaled' (cs_axis_numbers layout p []) pos n <-> scaled layout p pos n).
  { split.
    - intros (a & k & r & I & E & F & B). apply numbers_In in I; [|exact N]. exists a, k, r, (two k). split; [exact I|].
      split; [now apply two_spec|]. split; [exact E|]. split; [now apply first_row_spec|]. intro X. apply Qeq_bool_iff in X. congruence.
    - intros (a & k & r & d & I & T & E & F & B). apply two_spec in T. subst d. exists a, k, r. split; [now apply numbers_In|].
      split; [exact E|]. split; [now apply first_row_spec|]. destruct (Qeq_bool (r_scale r) 1) eqn:X; [|reflexivity]. apply Qeq_bool_iff in X. contradiction. }
  assert (SH : shifted' (cs_axis_numbers layout p []) pos n <-> shifted layout p pos n).
  { split.
    - intros (a & k & r & I & E & F & B). apply numbers_In in I; [|exact N]. exists a, k, r, (two k). split; [exact I|].
      split; [now apply two_spec|]. split; [exact E|]. split; [now apply first_row_spec|]. intro X. apply Qeq_bool_iff in X. congruence.
    - intros (a & k & r & d & I & T & E & F & B). apply two_spec in T. subst d. exists a, k, r. split; [now apply numbers_In|].
      split; [exact E|]. split; [now apply first_row_spec|]. destruct (Qeq_bool (r_offset r) 0) eqn:X; [|reflexivity]. apply Qeq_bool_iff in X. contradiction. }
  assert (ADJ : forall v, check_mres_and_pos (cs_axis_numbers layout p []) pos n v = Some v' <-> adjusted layout p pos n v v').
  { intro v. unfold adjusted. rewrite <- SC, <- SH. split; [apply check_mres_spec|]. intro X.
    destruct (check_mres_total (cs_axis_numbers layout p []) pos n) with (v := v) as (v'' & Y).
    { intros a k I. destruct (proj1 (check_ok (cs_axis_numbers layout p []) pos true) (ex_intro _ use C) a k I) as (r & Ir & Er & _).
      exists r. split; [|exact Er]. destruct pos; [destruct Ir|now right]. }
    rewrite Y. f_equal. apply check_mres_spec in Y.
    assert (EX : scaled' (cs_axis_numbers layout p []) pos n -> shifted' (cs_axis_numbers layout p []) pos n -> False).
    { intros (a & k & r & _ & E & _) (b & j & r' & _ & E' & _). exact (mres_offset _ _ _ E E'). }
    intuition congruence. }
  split.
  - intros [(v & X & Y)|[_ X]]; [|discriminate]. exists v. split; [exact X|now apply ADJ].
  - intros (v & X & Y). left. exists v. split; [exact X|now apply ADJ].
Qed.
Print Assumptions C67_variables.

(** A variable without a value stops it. *)
Theorem C67_bad_variable : forall s w infos iv pv mv qv kin l1 bad l2,
  dget (s_pmac s +++ ":STATUS") (w_status w) = Some (iv, pv, mv) ->
  dget (s_pmac s +++ ":" +++ s_suffix s) (w_cs w) = Some (kin, qv) ->
  iv +++ " " +++ pv +++ " " +++ mv +++ " " +++ qv = l1 +++ " " +++ bad +++ " " +++ l2 ->
  bad <> "" -> plain bad -> forall r, on_post_configure s w infos <> Ok r.
Proof.
  intros s w infos iv pv mv qv kin l1 bad l2 S K E N [P1 P2] [s' f] H. apply post_inv in H.
  destruct H as (links & use' & iv' & pv' & mv' & kin' & qv' & vars & _ & S' & K' & V & _). rewrite S in S'. injection S' as <- <- <-.
  rewrite K in K'. injection K' as <- <-. unfold parse_input_variables in V. rewrite E in V.
  change (l1 +++ " " +++ bad +++ " " +++ l2) with (l1 +++ String " " (bad +++ String " " l2)) in V.
  rewrite !split_app, parse_app in V. destruct (parse_words (s_axes s) (s_pos s) (split " " l1) (s_vars s)); [|discriminate].
  rewrite (split_plain _ bad P1) in V. cbn [app parse_words] in V. destruct (String.eqb_spec bad ""); [contradiction|].
  rewrite (split_plain _ bad P2) in V. discriminate.
Qed.
Print Assumptions C67_bad_variable.

(** The program is the forward kinematics, line by line. *)
Theorem C67_program : forall s w infos s' f st ls l qv, on_post_configure s w infos = Ok (s', f) ->
  dget (s_pmac s +++ ":STATUS") (w_status w) = Some st ->
  dget (s_pmac s +++ ":" +++ s_suffix s) (w_cs w) = Some (String.concat (String (ascii_of_nat 10) "") (ls ++ [l]), qv) ->
  (forall x, In x (ls ++ [l]) -> ~ In (ascii_of_nat 10) (list_ascii_of_string x)) -> l <> "" ->
  i_program (snd (f_in f)) = ls ++ [l].
Proof.
  intros s w infos s' f st ls l qv H S K P N. apply post_inv in H.
  destruct H as (links & use' & iv' & pv' & mv' & kin' & qv' & vars & _ & _ & K' & _ & _ & _ & ->). rewrite K in K'. injection K' as <- _.
  cbn [f_in snd i_program]. clear - P N.
  assert (ONE : forall x, x <> "" -> ~ In (ascii_of_nat 10) (list_ascii_of_string x) -> lines x = [x]).
  { induction x as [|c x IH]; intros X Y; [congruence|]. cbn [lines].
    destruct (Ascii.eqb_spec c (ascii_of_nat 10)) as [->|Z]; [exfalso; apply Y; now left|]. destruct x as [|d x]; [reflexivity|].
    rewrite IH; [reflexivity|discriminate|]. intro I. apply Y. now right. }
  assert (APP : forall x r, ~ In (ascii_of_nat 10) (list_ascii_of_string x) -> lines (x +++ String (ascii_of_nat 10) r) = x :: lines r).
  { induction x as [|c x IH]; intros r Y; [reflexivity|]. cbn [lines String.append].
    destruct (Ascii.eqb_spec c (ascii_of_nat 10)) as [->|Z]; [exfalso; apply Y; now left|].
    rewrite IH; [reflexivity|]. intro I. apply Y. now right. }
  induction ls as [|x ls IH]; [apply ONE; [exact N|apply P; now left]|].
  replace (String.concat (String (ascii_of_nat 10) "") ((x :: ls) ++ [l]))
    with (x +++ String (ascii_of_nat 10) (String.concat (String (ascii_of_nat 10) "") (ls ++ [l]))) by (destruct ls; reflexivity).
  rewrite APP; [|apply P; now left]. cbn [app]. f_equal. apply IH. intros y I. apply P. now right.
Qed.
Print Assumptions C67_program.

Example C67_ex :
  match on_configure (init None "CS1") (ex_world ex_pos) "/tmp" "scan-%s.h5" ex_gen ["x"; "y"] with
  | Ok (s1, ds) =>
    match on_post_configure s1 (ex_world ex_pos) ex_infos with
    | Ok (_, f) =>
      i_program (snd (f_in f)) = ["Q1=P1+10"; "RET"] /\
      i_vars (snd (f_in f)) = [("I12", "3"); ("P4801", "1.0"); ("P4901", "7"); ("P4823", "2"); ("P4923", "0.0"); ("Q22", "12345")] /\
      map (fun v => (v_number v, v_path v)) (i_links (snd (f_in f)))
      = [("p1mean", "/entry/x/mean"); ("p1min", "/entry/x/min"); ("p1max", "/entry/x/max");
         ("p23mean", "/entry/y/mean"); ("p23min", "/entry/y/min"); ("p23max", "/entry/y/max")] /\
      f_pl f = ("/tmp/scan-savu_pl.nxs", "min_mean_max.nxs")
    | Err _ => False
    end
  | Err _ => False
  end.
Proof. vm_compute. repeat split. Qed.

(** With no axis of the scan among the motors, no link is to a result of Savu itself. *)
Theorem C67_not_own : forall s w dir t g axes s1 ds w' infos s2 f layout p port letter others, NoDup (map m_name layout) ->
  dget (w_pmac w) (w_layout w) = Some layout -> on_configure s w dir t g axes = Ok (s1, ds) ->
  on_post_configure s1 w' infos = Ok (s2, f) -> s_cs_port s1 = Some p -> moved layout axes port letter ->
  (forall i, In i infos -> In i ds \/ In i others) ->
  (forall a, In a axes -> ~ In "."%char (list_ascii_of_string a)) ->
  (forall a n, raw_axis layout p a n -> ~ In a axes /\ ~ In "."%char (list_ascii_of_string a)) ->
  forall v, In v (i_links (snd (f_in f))) -> exists i, In i others /\ v_path v = p_path i /\ v_file v = p_file i.
Proof.
  intros s w dir t g axes s1 ds w' infos s2 f layout p port letter others N L H H' Sp M Split Dot Raw v I.
  apply (proj2 (C67_links _ _ _ _ _ _ _ _ _ _ _ _ _ _ N L H H' Sp)) in I. destruct I as (a & n & what & ty & i & R & K & P & _ & ->).
  apply picked_In in P. destruct P as [P [_ (suffix & E)]]. destruct (Split i P) as [D|D]; [|exists i; auto].
  exfalso. apply configure_inv in H.
  destruct H as (layout' & pos' & m & p' & use & port' & letter' & L' & _ & _ & M' & Po & Np & C & E1 & -> & Nq & Q).
  apply produced_In in D. destruct D as (k & b & what' & J & _ & _ & Ed). apply Q in J. destruct J as (_ & _ & B & _).
  rewrite Ed in E. cbn [p_name] in E. destruct (Raw a n R) as [NA DA]. pose proof (Dot b B) as DB. apply NA.
  assert (X : forall x y u v, ~ In "."%char (list_ascii_of_string x) -> ~ In "."%char (list_ascii_of_string y) ->
              x +++ "." +++ u = y +++ "." +++ v -> x = y).
  { clear. induction x as [|c x IH]; intros [|d y] u v X Y E; [reflexivity| | |].
    - exfalso. injection E as <- _. apply Y. now left.
    - exfalso. injection E as -> _. apply X. now left.
    - injection E as -> E. f_equal. eapply IH; [| |exact E]; intro I; [apply X|apply Y]; now right. }
  rewrite (X _ _ _ _ DA DB (eq_sym E)). exact B.
Qed.
Print Assumptions C67_not_own.

(** If the axes of the scan are motors of the coordinate system, what the part announces itself can be
    taken for the position of the motor: the input of Savu is its own result. *)
Theorem C67_own_refuted : exists s w dir t g axes s1 ds infos s2 f v,
  on_configure s w dir t g axes = Ok (s1, ds) /\ infos = ex_infos ++ ds /\
  on_post_configure s1 w infos = Ok (s2, f) /\ In v (i_links (snd (f_in f))) /\ v_number v = "p1mean" /\
  fst (f_vds f) = dir +++ "/" +++ v_file v /\
  In (v_path v, Virtual "/tmp/scan-savuproc/scan-savu_processed.nxs" "/entry/final_result_qmean/data" 0) (snd (f_vds f)).
Proof.
  exists (init None "CS1"), (ex_world ex_pos), "/tmp", "scan-%s.h5", ex_gen, ["x"; "y"]. eexists. eexists. eexists. eexists. eexists.
  exists (mkPV "/entry/x.mean" "scan-kinematics-vds.nxs" "p1mean").
  split; [vm_compute; reflexivity|]. split; [reflexivity|]. split; [vm_compute; reflexivity|].
  split; [left; reflexivity|]. split; [reflexivity|]. split; [reflexivity|]. cbn. do 9 right. now left.
Qed.
Print Assumptions C67_own_refuted.

(** With the default of the suffix, ":CS", the block that is asked for has two colons. *)
Theorem C67_default_suffix : forall port w infos s1 dir t g axes ds r, w_pmac w = "PMAC" -> ~ In "PMAC::CS" (dkeys (w_cs w)) ->
  on_configure (init port ":CS") w dir t g axes = Ok (s1, ds) -> on_post_configure s1 w infos <> Ok r.
Proof.
  intros port w infos s1 dir t g axes ds [s2 f] P N H H'. apply configure_inv in H.
  destruct H as (layout' & pos' & m & p' & use & port' & letter' & _ & _ & _ & _ & _ & _ & _ & -> & _). apply post_inv in H'.
  destruct H' as (links & use' & iv' & pv' & mv' & kin' & qv' & vars & _ & _ & K & _). cbn [s_pmac s_suffix init] in K. rewrite P in K.
  apply N. now apply dget_Some_key in K.
Qed.
Print Assumptions C67_default_suffix.

(** So a PMAC whose coordinate system is the block with the mri that the documentation gives,
    PMAC:CS, can not be used with the default. *)
Theorem C67_default_suffix_refuted : exists w dir t g axes infos s1 ds,
  dmem (w_pmac w +++ ":CS") (w_cs w) = true /\
  on_configure (init None ":CS") w dir t g axes = Ok (s1, ds) /\ on_post_configure s1 w infos = Err NoBlock /\
  exists s1' r, on_configure (init None "CS") w dir t g axes = Ok (s1', ds) /\ on_post_configure s1' w infos = Ok r.
Proof.
  exists (let w := ex_world ex_pos in mkW (w_pmac w) (w_panda w) (w_layout w) (w_positions w) (w_status w) [("PMAC:CS", ("RET", "Q22=12345"))]),
    "/tmp", "scan-%s.h5", ex_gen, ["x"; "y"], ex_infos. eexists. eexists.
  split; [reflexivity|]. split; [vm_compute; reflexivity|]. split; [vm_compute; reflexivity|].
  eexists. eexists. split; [vm_compute; reflexivity|]. vm_compute; reflexivity.
Qed.
Print Assumptions C67_default_suffix_refuted.
