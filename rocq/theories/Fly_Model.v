(* A scan block with a PMAC that moves its axes: what the calls of the block (Scan_Model) ask of the PMAC part
   (Pmac_Model) and of the trajectory that it executes: scanning/controllers/runnablecontroller.py 430-721,
   pmac/parts/pmacchildpart.py 356-515, pmac/parts/pmactrajectorypart.py 94-191. *)
From Coq Require Import String Bool ZArith QArith List.
From Verif Require Import Base Scan_Model Pmac_Model.
From Verif Require Whole_Model.
Import ListNotations.
Local Open Scope string_scope.
Local Open Scope list_scope.
Local Open Scope nat_scope.

(* What is seen at the PMAC: a trajectory for n steps from step c on is built (pmacchildpart.py 403-419), it is
   executed (422-430), a point of it is passed and the user program of the point is started (pmactrajectorypart.py 158). *)
Inductive event := EBuild (c n : Z) | ERun | EPoint (program : Z).

(* The scan of the block, steps_up_to and the profile of the part, how many points of the trajectory were passed
   (pointsScanned), whether the PMAC stopped at the end of what it was sent, whether a hook failed (the block is in
   Fault), and what was seen, oldest first: pmacchildpart.py 70-101, pmactrajectorypart.py 65-76. *)
Record fly := mkFly { f_scan : scan; f_upto : nat; f_prof : prof; f_scanned : nat; f_stopped : bool; f_fault : bool;
                      f_log : list event }.

(* The calls of a user, the end of the run hooks and the reports of other parts; points are passed up to number k;
   the part gets the update of pointsScanned; the PMAC has no more points to do: runnablecontroller.py 519-742,
   pmacchildpart.py 440-479. *)
Inductive fop := FScan (o : scan_op) | FMove (k : nat) | FHear | FStop.

Section Fly.
  (* As in Pmac_Model: pmacchildpart.py 70-101. *)
  Variable axes : list (string * (string * motor)).
  Variable gen : list ppoint.
  Variables joined same : ppoint -> ppoint -> bool.
  Variable gap : ppoint -> ppoint -> list (Q * (string -> Q)).
  Variable trig : trigger.
  Variable interval : Q.
  Variables PP BATCH : nat.

  (* The user programs of the points that the PMAC was sent: pmacchildpart.py 481-515, pmactrajectorypart.py 153-168. *)
  Definition programs (p : prof) : list Z := concat (map b_prog (pf_sent p)).
  (* A hook failed: runnablecontroller.py 519-559, 602-616. *)
  Definition fail (f : fly) : fly :=
    mkFly (f_scan f) (f_upto f) (f_prof f) (f_scanned f) (f_stopped f) true (f_log f).
  (* on_configure: a profile of one point with the zero program is executed, then that of the run is built:
     pmacchildpart.py 356-421.  That the part does not take part (374-379) and that the move to the start fails are
     left out. *)
  Definition build (f : fly) (c n : Z) : fly :=
    match on_configure axes gen (Z.to_nat (c + n)) joined same gap trig interval PP BATCH (Z.to_nat c) with
    | Ok p => mkFly (f_scan f) (Z.to_nat (c + n)) p 0 false (f_fault f) (f_log f ++ [EPoint ZERO_PROGRAM; EBuild c n])
    | Err _ => fail f
    end.
  (* What the part does for what it is asked: pmacchildpart.py 109-116. *)
  Definition asked_of (f : fly) (a : ask) : fly :=
    match a with
    | AConfigure c n | APostRunArmed c n | ASeek c n => build f c n
    | APostRunReady => f
    end.
  (* configure(), accepted or not: runnablecontroller.py 463-516. *)
  Definition begin_fly (dims : list dim) (axes_to_move : list string) (bps : list Z) : option fly :=
    match configure dims axes_to_move bps with
    | Err _ => None
    | Ok s => Some (build (mkFly s 0 (prof_init []) 0 false false []) 0 (s_configured s))
    end.

  (* update_step: pmacchildpart.py 440-479; the report: 445-448, runnablecontroller.py 591-600. *)
  Definition hear (f : fly) (k : nat) : fly :=
    if Nat.eqb k 0 then f
    else
      match (if is_every trig then option_map (fun z => scan_step (f_scan f) (Report "PMAC" z)) (reported_step (f_prof f) k)
             else Some (f_scan f)) with
      | None => fail f
      | Some s =>
          match update_step axes gen (f_upto f) joined same gap trig interval PP BATCH (f_prof f) k with
          | Ok p => mkFly s (f_upto f) p (f_scanned f) (f_stopped f) (f_fault f) (f_log f)
          | Err _ => fail (mkFly s (f_upto f) (f_prof f) (f_scanned f) (f_stopped f) (f_fault f) (f_log f))
          end
      end.

  (* run() and resume() call on_run, which subscribes to pointsScanned first: that is 1 since the profile of one
     point: pmacchildpart.py 422-430, 393-399. *)
  Definition start (f : fly) (o : scan_op) : fly :=
    match scan_try (f_scan f) o with
    | Err _ => f
    | Ok s => hear (mkFly s (f_upto f) (f_prof f) (f_scanned f) (f_stopped f) (f_fault f) (f_log f ++ [ERun])) 1
    end.
  (* The end of the run hooks, or pause(), and what the parts are asked then: runnablecontroller.py 561-589, 696-721. *)
  Definition change (f : fly) (o : scan_op) : fly :=
    match scan_try (f_scan f) o with
    | Err _ => f
    | Ok s => fold_left asked_of (Whole_Model.fresh (f_scan f) s)
                (mkFly s (f_upto f) (f_prof f) (f_scanned f) (f_stopped f) (f_fault f) (f_log f))
    end.
  (* on_run returns when the PMAC has stopped and pointsScanned is the number of points written, else it times out
     (pmactrajectorypart.py 173-191); the last update of pointsScanned comes before (it is in the same queue). *)
  Definition finish (f : fly) : fly :=
    if negb (f_stopped f) then f
    else if Nat.eqb (f_scanned f) (length (programs (f_prof f)))
         then let f1 := hear f (f_scanned f) in if f_fault f1 then f1 else change f1 EndRun
         else fail f.

  (* Is a run on: runnablecontroller.py 519-541. *)
  Definition in_run (f : fly) : bool := match s_state (f_scan f) with Running => true | _ => false end.
  (* One thing that happens; nothing more after a failure.  abort() and reset() are left out:
     runnablecontroller.py 519-742, pmacchildpart.py 422-479. *)
  Definition fstep (f : fly) (o : fop) : fly :=
    if f_fault f then f
    else
      match o with
      | FScan EndRun => if in_run f then finish f else f
      | FScan StartRun => start f StartRun
      | FScan Resume => start f Resume
      | FScan (Pause n) => change f (Pause n)
      | FScan (Report p n) =>
          mkFly (scan_step (f_scan f) (Report p n)) (f_upto f) (f_prof f) (f_scanned f) (f_stopped f) (f_fault f) (f_log f)
      | FMove k =>
          if in_run f && negb (f_stopped f) && Nat.ltb (f_scanned f) k && Nat.leb k (length (programs (f_prof f))) then
            mkFly (f_scan f) (f_upto f) (f_prof f) k (f_stopped f) (f_fault f)
                  (f_log f ++ map EPoint (firstn (k - f_scanned f) (skipn (f_scanned f) (programs (f_prof f)))))
          else f
      | FHear => if in_run f then hear f (f_scanned f) else f
      | FStop =>
          if in_run f && Nat.eqb (f_scanned f) (length (programs (f_prof f))) then
            mkFly (f_scan f) (f_upto f) (f_prof f) (f_scanned f) true (f_fault f) (f_log f)
          else f
      end.
  (* A history: runnablecontroller.py 430-742. *)
  Definition frun (f : fly) (h : list fop) : fly := fold_left fstep h f.
End Fly.
