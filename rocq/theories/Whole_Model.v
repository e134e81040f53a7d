(* A scan block and its detector together: what the calls of the block (Scan_Model) ask of the driver part
   (Arm_Model): scanning/controllers/runnablecontroller.py 430-742, ADCore/parts/detectordriverpart.py 337-493. *)
From Coq Require Import String Bool ZArith List.
From Verif Require Import Base Scan_Model Det_Model Arm_Model.
Import ListNotations.
Local Open Scope Z_scope.
Local Open Scope list_scope.

(* The states the block rests in: Ready, Aborted, or with a scan: scanning/util.py 168-210. *)
Inductive block := Ready | Aborted | Scanning (s : scan).
(* The block, the detector, and the run that its triggers are for: its first step, how many steps, how many
   triggers there were.  The triggers come from what moves, which is asked for the same steps:
   runnablecontroller.py 463-516, 545-589, 696-721. *)
Record whole := mkWhole { w_block : block; w_unit : unit_; w_from : Z; w_count : Z; w_shot : Z }.
(* Ready, with a detector that was never used: runnablecontroller.py 127-229. *)
Definition new_whole : whole := mkWhole Ready new_unit 0 0 0.

(* One thing is asked of the detector, or it is triggered: the hooks of runnablecontroller.py 490-510, 561-568,
   572-588, 615-616, 701-720. *)
Definition tell (soft : list string) (w : whole) (o : uop) : whole :=
  let u := ustep soft (w_unit w) o in
  match o with
  | UConfigure _ _ _ c n | USeek c n | UPostRunArmed c n => mkWhole (w_block w) u c n 0
  | URun => mkWhole (w_block w) u (w_from w) (w_count w) 0
  | UTrigger => mkWhole (w_block w) u (w_from w) (w_count w) (w_shot w + 1)
  | UPostRunReady | UStop => mkWhole (w_block w) u (w_from w) (w_count w) (w_shot w)
  end.
(* Some of them, in order: runnablecontroller.py 490-510, 561-568, 572-588, 701-720. *)
Definition tell_all (soft : list string) (ops : list uop) (w : whole) : whole := fold_left (tell soft) ops w.
(* The hooks for what the parts are asked; PauseHook is before SeekHook: runnablecontroller.py 572-588, 701-720;
   on_pause is on_abort: detectordriverpart.py 240-248. *)
Definition of_ask (a : ask) : list uop :=
  match a with
  | AConfigure _ _ => []
  | APostRunArmed c n => [UPostRunArmed c n]
  | ASeek c n => [UStop; USeek c n]
  | APostRunReady => [UPostRunReady]
  end.
(* What was asked by a call: it was put before what was asked until then (Scan_Model):
   runnablecontroller.py 561-589, 696-721. *)
Definition fresh (before after : scan) : list ask :=
  match s_asks after with
  | a :: r => if Nat.eqb (length r) (length (s_asks before)) then [a] else []
  | [] => []
  end.
(* The hooks of a call: run() 561-568 and resume() 532-541 run the RunHook; the end of a run 561-589 and pause()
   696-721 ask the parts; runnablecontroller.py. *)
Definition hooks_of (o : scan_op) (before after : scan) : list uop :=
  match o with
  | StartRun | Resume => [URun]
  | Report _ _ => []
  | EndRun | Pause _ => flat_map of_ask (fresh before after)
  end.

(* The calls of a user, the reports of other parts and the end of a run; the report of the detector; a trigger:
   runnablecontroller.py 430-742, detectordriverpart.py 160-184. *)
Inductive wop := WConfigure (dims : list dim) (axes : list string) (breakpoints : list Z) (mode : string)
  | WAbort | WReset | WScan (o : scan_op) | WReport (part : string) | WTrigger.

(* A call of a scan that is configured; a refused call changes nothing: runnablecontroller.py 519-742. *)
Definition call (soft : list string) (w : whole) (s : scan) (o : scan_op) : whole :=
  match scan_try s o with
  | Err _ => w
  | Ok s' => tell_all soft (hooks_of o s s') (mkWhole (Scanning s') (w_unit w) (w_from w) (w_count w) (w_shot w))
  end.
(* One thing that happens.  configure() from Ready and Finished (scanning/util.py 185, 190); a configure that is
   refused (it ends in Fault) is left out.  abort() from all but Aborted (196-209); reset() from Armed, Finished and
   Aborted (187, 190, 210), whose hook is on_abort: detectordriverpart.py 303-307.  The run of the parts is over
   when the detector says so, detectordriverpart.py 160-171; it reports and is triggered in a run only. *)
Definition wstep (soft : list string) (w : whole) (o : wop) : whole :=
  let stop b := tell soft (mkWhole b (w_unit w) (w_from w) (w_count w) (w_shot w)) UStop in
  match o, w_block w with
  | WConfigure dims axes bps mode, (Ready | Scanning (mk_scan _ _ _ _ _ Finished _ _ _)) =>
      match configure dims axes bps with
      | Err _ => w
      | Ok s => tell soft (mkWhole (Scanning s) (w_unit w) (w_from w) (w_count w) (w_shot w))
                     (UConfigure mode (match bps with [] => false | _ => true end) (s_total s) 0 (s_configured s))
      end
  | WAbort, (Ready | Scanning _) => stop Aborted
  | WReset, (Aborted | Scanning (mk_scan _ _ _ _ _ (Armed | Finished) _ _ _)) => stop Ready
  | WScan EndRun, Scanning s => if run_over (w_unit w) then call soft w s EndRun else w
  | WScan o, Scanning s => call soft w s o
  | WReport part, Scanning s =>
      match s_state s with
      | Running => call soft w s (Report part (det_completed (m_det (w_unit w)) (m_counter (w_unit w))))
      | _ => w
      end
  | WTrigger, Scanning s =>
      match s_state s with Running => if w_shot w <? w_count w then tell soft w UTrigger else w | _ => w end
  | _, _ => w
  end.
(* A history: runnablecontroller.py 430-742. *)
Definition wrun (soft : list string) (w : whole) (h : list wop) : whole := fold_left (wstep soft) h w.
