(** Model of the step bookkeeping of a runnable (scanning) block:
    /repo/malcolm/modules/scanning/controllers/runnablecontroller.py.
    Each function below is one uninterrupted phase of a call (the hooks run on
    the parts are recorded as [ask]s; a failing hook ends the scan and is covered
    by the state machine of States_Model.v). *)
From Coq Require Import String Bool ZArith List.
From Verif Require Import Base.
Import ListNotations.
Local Open Scope Z_scope.

(** Errors of this area: AssertionError, IndexError, ZeroDivisionError,
    TypeError for a call not allowed in the state: runnablecontroller.py 231-287, 430-742. *)
Inductive scan_err := SAssert | SIndex | SZeroDiv | SState.

(** A dimension of a prepared generator: its axes and its size
    (scanpointgenerator Dimension; external library, only these two are read):
   read in runnablecontroller.py 231-287. *)
Record dim := mk_dim { d_axes : list string; d_size : Z }.

(** generator.size: product of the sizes of the dimensions (external library):
   runnablecontroller.py 463-516. *)
Definition gen_size (dims : list dim) : Z := fold_right (fun d a => d_size d * a) 1 dims.

(** set.remove on the set of axes still to be moved
    (runnablecontroller.py:247); list without the name. *)
Definition sremove (a : string) (l : list string) : list string :=
  filter (fun b => negb (String.eqb b a)) l.

(** runnablecontroller.py:244-248: consume the axes of one dimension. *)
Fixpoint consume (axes : list string) (axes_set : list string) : result scan_err (list string) :=
  match axes with
  | [] => Ok axes_set
  | a :: r => if smem a axes_set then consume r (sremove a axes_set) else Err SAssert
  end.

(** runnablecontroller.py:238-251: the loop over reversed(dimensions); the list
    given here is already reversed. *)
Fixpoint inner_steps (rdims : list dim) (axes_set : list string) (steps : Z)
  : result scan_err Z :=
  match rdims with
  | [] => Ok steps
  | d :: r =>
      match d_axes d, axes_set with
      | _ :: _, [] => Ok steps
      | _, _ => match consume (d_axes d) axes_set with
                | Err e => Err e
                | Ok rest => inner_steps r rest (steps * d_size d)
                end
      end
  end.

(** runnablecontroller.py:278-287 _get_outer_steps. *)
Definition outer_steps (dims : list dim) (axes_to_move : list string) : Z :=
  fold_left (fun acc d => if existsb (fun a => smem a axes_to_move) (d_axes d)
                          then acc else acc * d_size d) (rev dims) 1.

(** sum(list), python builtin: runnablecontroller.py 231-287. *)
Definition zsum (l : list Z) : Z := fold_right Z.add 0 l.

(** list * n (runnablecontroller.py:269); n <= 0 gives []. *)
Fixpoint repeat_list (l : list Z) (n : nat) : list Z :=
  match n with O => [] | S k => l ++ repeat_list l k end.

(** runnablecontroller.py:274: [sum(steps[:i]) for i in range(1, len(steps)+1)]. *)
Definition running_totals (steps : list Z) : list Z :=
  map (fun i => zsum (firstn i steps)) (seq 1 (length steps)).

(** Result of get_steps_per_run: (steps, use_breakpoints, breakpoint_steps):
   runnablecontroller.py 231-276. *)
Record plan := mk_plan { p_steps : list Z; p_use : bool; p_stops : list Z }.

(** runnablecontroller.py:231-276 get_steps_per_run. When there are no
    breakpoints breakpoint_steps keeps its old value, which is never read. *)
Definition get_steps_per_run (dims : list dim) (axes_to_move : list string) (breakpoints : list Z)
  : result scan_err plan :=
  match inner_steps (rev dims) axes_to_move 1 with
  | Err e => Err e
  | Ok steps0 =>
      match breakpoints with
      | [] => Ok (mk_plan [steps0] false [])
      | _ :: _ =>
          let total := zsum breakpoints in
          if total <=? steps0 then
            let l := if total <? steps0 then breakpoints ++ [steps0 - total] else breakpoints in
            let l' := repeat_list l (Z.to_nat (outer_steps dims axes_to_move)) in
            Ok (mk_plan l' true (running_totals l'))
          else Err SAssert
      end
  end.

(** ** The scan in progress *)

(** The states in which the block rests or runs, a subset of RunnableStates: scanning/util.py 168-210. *)
Inductive sstate := Armed | Running | Paused | Finished.

(** What the parts are asked to do: ConfigureHook, PostRunArmedHook, SeekHook
    with (completed_steps, steps_to_do), and PostRunReadyHook: runnablecontroller.py 463-721. *)
Inductive ask :=
| AConfigure (completed steps : Z)
| APostRunArmed (completed steps : Z)
| ASeek (completed steps : Z)
| APostRunReady.

(** The attributes and fields used: totalSteps, steps_per_run, use_breakpoints,
    breakpoint_steps, breakpoint_index, configuredSteps, completedSteps, state,
    the next_state local of the active run() (519-529), progress_updates, and a
    ghost log of what was asked of the parts (newest first): runnablecontroller.py 127-229. *)
Record scan := mk_scan {
  s_total : Z; s_plan : plan; s_idx : nat;
  s_configured : Z; s_completed : Z; s_state : sstate; s_next : sstate;
  s_progress : dict Z; s_asks : list ask
}.

(** runnablecontroller.py:463-516 do_configure and 454 abortable_transition. *)
Definition configure (dims : list dim) (axes : list string) (breakpoints : list Z)
  : result scan_err scan :=
  match get_steps_per_run dims axes breakpoints with
  | Err e => Err e
  | Ok p =>
      match nth_error (p_steps p) 0 with
      | None => Err SIndex
      | Some steps_to_do =>
          Ok (mk_scan (gen_size dims) p 0 steps_to_do 0 Armed Armed [] [AConfigure 0 steps_to_do])
      end
  end.

(** runnablecontroller.py:526-531: start of run(). *)
Definition start_run (s : scan) : result scan_err scan :=
  match s_state s with
  | Armed =>
      let next := if s_configured s <? s_total s then Armed else Finished in
      Ok (mk_scan (s_total s) (s_plan s) (s_idx s) (s_configured s) (s_completed s)
                  Running next (s_progress s) (s_asks s))
  | _ => Err SState
  end.

(** runnablecontroller.py:561-589 do_run after the run hooks have returned, and
    the transition to next_state at 537. *)
Definition end_run (s : scan) : result scan_err scan :=
  match s_state s with
  | Running =>
      let completed := s_configured s in
      if completed <? s_total s then
        let idx := if p_use (s_plan s) then S (s_idx s) else s_idx s in
        match nth_error (p_steps (s_plan s)) idx with
        | None => Err SIndex
        | Some steps_to_do =>
            Ok (mk_scan (s_total s) (s_plan s) idx (completed + steps_to_do) completed
                        (s_next s) (s_next s) (s_progress s)
                        (APostRunArmed completed steps_to_do :: s_asks s))
        end
      else
        Ok (mk_scan (s_total s) (s_plan s) (s_idx s) (s_configured s) completed
                    (s_next s) (s_next s) (s_progress s) (APostRunReady :: s_asks s))
  | _ => Err SState
  end.

(** min(dict.values()) for a non-empty dict: runnablecontroller.py 591-600. *)
Definition min_progress (d : dict Z) (n : Z) : Z := fold_right Z.min n (map snd d).

(** runnablecontroller.py:591-600 update_completed_steps.  The part's own report
    is in the dict, so it can serve as the start of the minimum. *)
Definition report_progress (part : string) (n : Z) (s : scan) : scan :=
  let d := dset part n (s_progress s) in
  let m := min_progress d n in
  mk_scan (s_total s) (s_plan s) (s_idx s) (s_configured s)
          (if s_completed s <? m then m else s_completed s)
          (s_state s) (s_next s) d (s_asks s).

(** runnablecontroller.py:728-731: the loop of get_breakpoint_index. *)
Fixpoint find_index (completed : Z) (stops : list Z) : option nat :=
  match stops with
  | [] => None
  | p :: r => if p <=? completed then option_map S (find_index completed r) else Some O
  end.
(** runnablecontroller.py:723-731 get_breakpoint_index. *)
Definition get_breakpoint_index (completed : Z) (stops : list Z) : result scan_err nat :=
  match rev stops with
  | [] => Err SIndex
  | lst :: _ => if completed =? lst then Ok (length stops - 1)%nat
                else match find_index completed stops with
                     | Some i => Ok i
                     | None => Err SIndex
                     end
  end.

(** The `steps - completed % steps` of runnablecontroller.py:707-713. *)
Definition steps_left (completed steps : Z) : result scan_err Z :=
  if steps =? 0 then Err SZeroDiv else Ok (steps - completed mod steps).

(** runnablecontroller.py:696-721 do_pause. *)
Definition do_pause (completed : Z) (next : sstate) (s : scan) : result scan_err scan :=
  let p := s_plan s in
  let found :=
    if p_use p then
      match get_breakpoint_index completed (p_stops p) with
      | Err e => Err e
      | Ok i => match nth_error (p_stops p) i with
                | None => Err SIndex
                | Some b => match steps_left completed b with
                            | Err e => Err e
                            | Ok n => Ok (i, n)
                            end
                end
      end
    else
      match nth_error (p_steps p) (s_idx s) with
      | None => Err SIndex
      | Some b => match steps_left completed b with
                  | Err e => Err e
                  | Ok n => Ok (s_idx s, n)
                  end
      end in
  match found with
  | Err e => Err e
  | Ok (i, steps_to_do) =>
      Ok (mk_scan (s_total s) p i (completed + steps_to_do) completed next (s_next s)
                  (s_progress s) (ASeek completed steps_to_do :: s_asks s))
  end.

(** runnablecontroller.py:657-694 pause; [n] is lastGoodStep, -1 when not given. *)
Definition pause (n : Z) (s : scan) : result scan_err scan :=
  let go target :=
    match s_state s with
    | Armed | Finished => do_pause target Armed s
    | Running | Paused =>
        do_pause (if target =? s_configured s then target - 1 else target) Paused s
    end in
  if n <? 0 then
    match s_state s with
    | Finished => Ok s
    | _ => go (s_completed s)
    end
  else go (if s_total s <=? n then s_total s - 1 else n).

(** runnablecontroller.py:734-743 resume: run() carries on. *)
Definition resume (s : scan) : result scan_err scan :=
  match s_state s with
  | Paused => Ok (mk_scan (s_total s) (s_plan s) (s_idx s) (s_configured s) (s_completed s)
                          Running (s_next s) (s_progress s) (s_asks s))
  | _ => Err SState
  end.

(** What can happen to a configured scan: runnablecontroller.py 519-742. *)
Inductive scan_op :=
| StartRun | EndRun | Report (part : string) (n : Z) | Pause (n : Z) | Resume.

(** Dispatch; a refused call leaves the scan as it was: runnablecontroller.py 519-742. *)
Definition scan_try (s : scan) (o : scan_op) : result scan_err scan :=
  match o with
  | StartRun => start_run s
  | EndRun => end_run s
  | Report p n => Ok (report_progress p n s)
  | Pause n => pause n s
  | Resume => resume s
  end.
(* runnablecontroller.py 519-742. *)
Definition scan_step (s : scan) (o : scan_op) : scan :=
  match scan_try s o with Ok s' => s' | Err _ => s end.
(** A history of such steps: runnablecontroller.py 519-742. *)
Definition scan_run (s : scan) (h : list scan_op) : scan := fold_left scan_step h s.
