(* A scan block with a detector and the HDF writer of its frames: Whole_Model and Count_Model together:
   scanning/controllers/runnablecontroller.py 430-742, ADCore/parts/detectordriverpart.py 105-493,
   ADCore/parts/hdfwriterpart.py 512-529, 618-711. *)
From Coq Require Import String Bool ZArith List.
From Verif Require Import Base Scan_Model Det_Model Arm_Model Whole_Model.
From Verif Require Count_Model.
Import ListNotations.
Local Open Scope Z_scope.
Local Open Scope list_scope.

(* The block with its detector; the numbers of the writer part (Count_Model); how many frames left the detector
   and are not captured yet: hdfwriterpart.py 618-711. *)
Record trio := mkTrio { t_whole : whole; t_hdf : Count_Model.st; t_flight : Z }.
(* Nothing was done yet: runnablecontroller.py 127-229, hdfwriterpart.py 427-434. *)
Definition new_trio : trio := mkTrio new_whole Count_Model.init 0.

(* What happens: something to the block and the detector; on_run of the writer, which waits for the first array, goes
   on (hdfwriterpart.py 638-645); some frames are captured (numCapturedReadback, 646, 698-711). *)
Inductive top := TBlock (o : wop) | THdfRun | TArrive (k : Z).

(* The hooks of the writer for what the parts are asked: hdfwriterpart.py 485-493. *)
Definition hdf_of_ask (a : ask) : list Count_Model.op :=
  match a with
  | APostRunArmed c n => [Count_Model.PostRunArmed c n]
  | ASeek c n => [Count_Model.Seek c n]
  | AConfigure _ _ | APostRunReady => []
  end.
(* on_configure, for a configure that is accepted, and the hooks of the end of a run and of pause():
   hdfwriterpart.py 485-493, runnablecontroller.py 490-510, 561-589, 696-721. *)
Definition hdf_hooks (o : wop) (before after : whole) : list Count_Model.op :=
  match o, w_block before, w_block after with
  | WConfigure _ _ _ _, (Ready | Scanning (mk_scan _ _ _ _ _ Finished _ _ _)), Scanning s =>
      match s_state s with Armed => [Count_Model.Configure 0 (s_configured s)] | _ => [] end
  | WScan (EndRun | Pause _), Scanning s, Scanning s' => flat_map hdf_of_ask (fresh s s')
  | _, _, _ => []
  end.
(* The run of the writer is stopped with those of all parts, and what is not captured is not any more:
   runnablecontroller.py 603-616, hdfwriterpart.py 700-703. *)
Definition hdf_stop (s : Count_Model.st) : Count_Model.st :=
  Count_Model.mkSt (Count_Model.s_done s) (Count_Model.s_offset s) (Count_Model.s_captured s) false false (Count_Model.s_reports s).
(* A call of the block, a report of a part or a trigger.  A run is over when it is over for the detector and for the
   writer (wait_hooks: runnablecontroller.py 561-568): on_run of hdfwriterpart.py 638-668. *)
Definition block_step (soft : list string) (t : trio) (o : wop) : trio :=
  let w := t_whole t in
  let w' := wstep soft w o in
  let h := fold_left (Count_Model.step Count_Model.Hdf) (hdf_hooks o w w') (t_hdf t) in
  match o with
  | WScan EndRun => if Count_Model.s_finished (t_hdf t) then mkTrio w' h (t_flight t) else t
  | WTrigger => mkTrio w' h (t_flight t + (m_counter (w_unit w') - m_counter (w_unit w)))
  | WAbort => mkTrio w' (hdf_stop h) 0
  | _ => mkTrio w' h (t_flight t)
  end.
(* What the writer reports is passed to the block: hdfwriterpart.py 705-711, runnablecontroller.py 591-600. *)
Definition hear (soft : list string) (w : whole) (before after : Count_Model.st) : whole :=
  match Count_Model.s_reports after with
  | n :: r => if Nat.eqb (length r) (length (Count_Model.s_reports before)) then wstep soft w (WScan (Report "HDF" n)) else w
  | [] => w
  end.
(* The writer does one thing: hdfwriterpart.py 638-668, 705-711. *)
Definition hdf_step (soft : list string) (t : trio) (o : Count_Model.op) (flight : Z) : trio :=
  let h := Count_Model.step Count_Model.Hdf (t_hdf t) o in
  mkTrio (hear soft (t_whole t) (t_hdf t) h) h flight.
(* One thing that happens; on_run of the writer is called once in a run: runnablecontroller.py 561-568,
   hdfwriterpart.py 638-668. *)
Definition tstep (soft : list string) (t : trio) (o : top) : trio :=
  match o with
  | TBlock o => block_step soft t o
  | THdfRun =>
      match w_block (t_whole t) with
      | Scanning (mk_scan _ _ _ _ _ Running _ _ _) =>
          if Count_Model.s_running (t_hdf t) || Count_Model.s_finished (t_hdf t) then t
          else hdf_step soft t Count_Model.Run (t_flight t)
      | _ => t
      end
  | TArrive k => if (1 <=? k) && (k <=? t_flight t) then hdf_step soft t (Count_Model.Frames k) (t_flight t - k) else t
  end.
(* A history: runnablecontroller.py 430-742. *)
Definition trun (soft : list string) (t : trio) (h : list top) : trio := fold_left (tstep soft) h t.
