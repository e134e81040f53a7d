(* A runnable block with a detector as its child: scanning/parts/detectorchildpart.py. *)
From Coq Require Import String Bool ZArith List.
From Verif Require Import Base Scan_Model.
Import ListNotations.
Local Open Scope Z_scope.
Local Open Scope list_scope.

(* The dimensions of the generator given to the child: _configure_args,
   detectorchildpart.py 270-287.  A StaticPointGenerator of [frames] points is squashed with the
   fastest generator, so the last dimension gets its axis and is [frames] times as long
   (scanpointgenerator, external). *)
Definition child_dims (axis : string) (frames : Z) (dims : list dim) : list dim :=
  match rev dims with
  | [] => []
  | d :: r => rev r ++ [mk_dim (d_axes d ++ [axis]) (d_size d * frames)]
  end.

(* child.configure in on_configure: detectorchildpart.py 306-343, with _configure_args 270-302,
   for an enabled row with frames > 0. *)
Definition child_configure (axis : string) (frames : Z) (dims : list dim) (axes : list string)
    (breakpoints : list Z) : result scan_err scan :=
  if 1 <? frames then configure (child_dims axis frames dims) (axes ++ [axis]) breakpoints
  else configure dims axes breakpoints.

(* The parent and its child: detectorchildpart.py 307-368. *)
Record twin := mkTwin { t_parent : scan; t_child : scan }.

(* What happens: run() or resume() of the parent; the end of its run; a report of another part;
   pause() of the parent; and on the side of the child a report of one of its parts or the end
   of its run (detectorchildpart.py 348-394). *)
Inductive twin_op :=
| TStart | TResume | TEnd | TReport (part : string) (n : Z) | TPause (n : Z)
| TChildReport (part : string) (n : Z) | TChildEnd.

(* State test: detectorchildpart.py 345-368. *)
Definition is_state (a b : sstate) : bool :=
  match a, b with
  | Armed, Armed | Running, Running | Paused, Paused | Finished, Finished => true
  | _, _ => false
  end.

Section twin.
  (* self.frames_per_step, and the name of the part (detectorchildpart.py 61-62). *)
  Variables (frames : Z) (name : string).

  (* update_completed_steps: detectorchildpart.py 392-394. *)
  Definition told (c p : scan) : scan := report_progress name (s_completed c / frames) p.

  (* on_run: detectorchildpart.py 348-361: run or resume the child; the subscription to its
     completedSteps reports the value at once.  Its wait for the child is in TEnd.  None: the
     child refused, which is a failed hook. *)
  Definition on_run (p c : scan) : option twin :=
    match (match s_state c with Armed => start_run c | _ => resume c end) with
    | Ok c' => Some (mkTwin (told c' p) c')
    | Err _ => None
    end.

  (* on_seek: detectorchildpart.py 378-385. *)
  Definition on_seek (p c : scan) : option twin :=
    match pause (s_completed p) c with
    | Ok c' => Some (mkTwin p c')
    | Err _ => None
    end.

  (* One step.  A call which the parent refuses changes nothing.  The run of the parent ends
     when that of the child has (354-375); a change of the child's completedSteps is told to the
     parent during a run of the parent (352, 383): detectorchildpart.py 307-394. *)
  Definition twin_step (t : twin) (o : twin_op) : option twin :=
    let p := t_parent t in
    let c := t_child t in
    match o with
    | TStart => match start_run p with Ok p' => on_run p' c | Err _ => Some t end
    | TResume => match resume p with Ok p' => on_run p' c | Err _ => Some t end
    | TEnd =>
        if is_state (s_state c) Running then Some t
        else match end_run p with Ok p' => Some (mkTwin p' c) | Err _ => Some t end
    | TReport q n => Some (mkTwin (report_progress q n p) c)
    | TPause n =>
        match pause n p with
        | Ok p' => if is_state (s_state p) Finished && (n <? 0) then Some (mkTwin p' c)
                   else on_seek p' c
        | Err _ => Some t
        end
    | TChildReport q n =>
        let c' := report_progress q n c in
        Some (mkTwin (if is_state (s_state p) Running then told c' p else p) c')
    | TChildEnd =>
        match end_run c with
        | Ok c' => Some (mkTwin (if is_state (s_state p) Running then told c' p else p) c')
        | Err _ => Some t
        end
    end.

  (* A history of steps; None once a hook has failed (runnablecontroller.py 557-559). *)
  Fixpoint twin_run (t : twin) (h : list twin_op) : option twin :=
    match h with
    | [] => Some t
    | o :: r => match twin_step t o with Some t' => twin_run t' r | None => None end
    end.
End twin.
