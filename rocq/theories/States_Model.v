(** Model of the block state machine: StateSet, the three state sets, health,
    transition, writeable flags and try_stateful_function. *)
From Coq Require Import List String Bool Arith.
From Verif Require Import Base.
Import ListNotations.
Local Open Scope string_scope.
Local Open Scope list_scope.

(** ** Alarms *)

(** /repo/malcolm/core/alarm.py:7-12 AlarmSeverity. *)
Inductive severity := NoAlarm | MinorAlarm | MajorAlarm | InvalidAlarm | UndefinedAlarm.

(** /repo/malcolm/core/alarm.py:10-12, the numeric value of each severity. *)
Definition sev_value (s : severity) : nat :=
  match s with
  | NoAlarm => 0 | MinorAlarm => 1 | MajorAlarm => 2
  | InvalidAlarm => 3 | UndefinedAlarm => 4
  end.

(** /repo/malcolm/core/alarm.py:39-56 Alarm.  The status field is left out: it
    is never read by the code modelled here. *)
Record alarm := mk_alarm { a_sev : severity; a_msg : string }.

(** /repo/malcolm/core/alarm.py:82 Alarm.ok, and the Alarm() of
    statefulcontroller.py:143. *)
Definition alarm_ok : alarm := mk_alarm NoAlarm "".
(** /repo/malcolm/core/alarm.py:58-60. *)
Definition alarm_major (m : string) : alarm := mk_alarm MajorAlarm m.
(** /repo/malcolm/core/alarm.py:62-64. *)
Definition alarm_invalid (m : string) : alarm := mk_alarm InvalidAlarm m.
(** /repo/malcolm/core/alarm.py:70-71. *)
Definition is_ok (a : alarm) : bool :=
  match a_sev a with NoAlarm => true | _ => false end.

(** ** State sets *)

(** /repo/malcolm/core/stateset.py:6-10. [allowed] maps a state to the set of
    its successors; the set is a list (order and repetition are not
    observable, only membership is tested). *)
Record stateset := mk_ss { ss_allowed : dict (list string); ss_possible : list string }.

(** /repo/malcolm/core/stateset.py:7-10. *)
Definition ss_empty : stateset := mk_ss [] [].

(** /repo/malcolm/core/stateset.py:23-25, one turn of the loop. *)
Definition add_possible (l : list string) (s : string) : list string :=
  if smem s l then l else l ++ [s].

(** /repo/malcolm/core/stateset.py:19-25. *)
Definition set_allowed (s : string) (targets : list string) (x : stateset) : stateset :=
  let old := match dget s (ss_allowed x) with Some l => l | None => [] end in
  mk_ss (dset s (old ++ targets) (ss_allowed x))
        (fold_left add_possible (targets ++ [s]) (ss_possible x)).

(** Outcome of a state operation that raises: AssertionError, TypeError (illegal
    move), KeyError, or the exception of the work itself:
   statefulcontroller.py 123-168, builtin/util.py 133-175, core/stateset.py 6-25. *)
Inductive exn := EAssert | EType | EKey | EWork (m : string) | EAborted.

(** /repo/malcolm/core/stateset.py:12-17. *)
Definition transition_allowed (x : stateset) (s t : string) : result exn bool :=
  match dget s (ss_allowed x) with
  | None => Err EAssert
  | Some l => Ok (smem t l)
  end.

(** /repo/malcolm/modules/builtin/util.py:137-141 (StatefulStates constants),
    167-168 (ManagerStates), /repo/malcolm/modules/scanning/util.py:172-180
    (RunnableStates). *)
Definition RESETTING := "Resetting".
(* builtin/util.py 133-141. *)
Definition DISABLED := "Disabled".
(* builtin/util.py 133-141. *)
Definition DISABLING := "Disabling".
(* builtin/util.py 133-141. *)
Definition FAULT := "Fault".
(* builtin/util.py 133-141. *)
Definition READY := "Ready".
(* builtin/util.py 163-168. *)
Definition SAVING := "Saving".
(* builtin/util.py 163-168. *)
Definition LOADING := "Loading".
(* scanning/util.py 168-210. *)
Definition CONFIGURING := "Configuring".
(* scanning/util.py 168-210. *)
Definition ARMED := "Armed".
(* scanning/util.py 168-210. *)
Definition RUNNING := "Running".
(* scanning/util.py 168-210. *)
Definition POSTRUN := "PostRun".
(* scanning/util.py 168-210. *)
Definition FINISHED := "Finished".
(* scanning/util.py 168-210. *)
Definition PAUSED := "Paused".
(* scanning/util.py 168-210. *)
Definition SEEKING := "Seeking".
(* scanning/util.py 168-210. *)
Definition ABORTING := "Aborting".
(* scanning/util.py 168-210. *)
Definition ABORTED := "Aborted".

(** /repo/malcolm/modules/builtin/util.py:148-149
    StatefulStates.create_block_transitions. *)
Definition stateful_block (x : stateset) : stateset := set_allowed RESETTING [READY] x.

(** /repo/malcolm/modules/builtin/util.py:170-175
    ManagerStates.create_block_transitions. *)
Definition manager_block (x : stateset) : stateset :=
  set_allowed LOADING [READY]
   (set_allowed READY [LOADING]
    (set_allowed SAVING [READY]
     (set_allowed READY [SAVING] (stateful_block x)))).

(** /repo/malcolm/modules/scanning/util.py:182-210
    RunnableStates.create_block_transitions. *)
Definition runnable_block (x : stateset) : stateset :=
  let x := manager_block x in
  let x := set_allowed READY [CONFIGURING] x in
  let x := set_allowed CONFIGURING [ARMED] x in
  let x := set_allowed ARMED [RUNNING; SEEKING; RESETTING] x in
  let x := set_allowed RUNNING [POSTRUN; SEEKING] x in
  let x := set_allowed POSTRUN [FINISHED; ARMED; SEEKING] x in
  let x := set_allowed FINISHED [SEEKING; RESETTING; CONFIGURING] x in
  let x := set_allowed SEEKING [ARMED; PAUSED; FINISHED] x in
  let x := set_allowed PAUSED [SEEKING; RUNNING] x in
  let x := fold_left (fun x s => set_allowed s [ABORTING] x)
             [READY; CONFIGURING; ARMED; RUNNING; POSTRUN; PAUSED; SEEKING; FINISHED] x in
  let x := set_allowed ABORTING [ABORTED] x in
  set_allowed ABORTED [RESETTING] x.

(** /repo/malcolm/modules/builtin/util.py:151-160
    StatefulStates.create_error_disable_transitions. *)
Definition error_disable (x : stateset) : stateset :=
  let block_states := ss_possible x in
  let x := fold_left (fun x s => set_allowed s [DISABLING] (set_allowed s [FAULT] x))
             block_states x in
  let x := set_allowed FAULT [RESETTING; DISABLING] x in
  let x := set_allowed DISABLING [FAULT; DISABLED] x in
  set_allowed DISABLED [RESETTING] x.

(** /repo/malcolm/modules/builtin/util.py:143-146 StatefulStates.__init__, with
    the create_block_transitions of each subclass. *)
Definition StatefulStates : stateset := error_disable (stateful_block ss_empty).
(* builtin/util.py 143-175. *)
Definition ManagerStates : stateset := error_disable (manager_block ss_empty).
(* scanning/util.py 168-210, builtin/util.py 143-161. *)
Definition RunnableStates : stateset := error_disable (runnable_block ss_empty).

(** ** Controller *)

(** The observable part of a StatefulController:
    - [c_state], [c_state_alarm]: the `state` attribute;
    - [c_faults]: BasicController._faults
      (/repo/malcolm/modules/builtin/controllers/basiccontroller.py:17), keyed by
      the reporter's name, the controller itself being [self_key];
    - [c_health], [c_health_alarm]: the `health` attribute;
    - [c_cw]: _children_writeable (statefulcontroller.py:41), state -> field -> flag,
      fields identified by name;
    - [c_wr]: field -> child.meta.writeable;
    - [c_pub]: ghost, the values published on `state`, newest first. *)
Record ctrl := mk_ctrl {
  c_state : string;
  c_state_alarm : alarm;
  c_faults : dict alarm;
  c_health : string;
  c_health_alarm : alarm;
  c_cw : dict (dict bool);
  c_wr : dict bool;
  c_pub : list string
}.

(** The key under which the controller reports its own health
    (statefulcontroller.py:144 passes self).  Parts have camelCase-like names
    (PART_NAME_RE, /repo/malcolm/core/part.py:42) so cannot collide with it. *)
Definition self_key : string := "<self>".

(** /repo/malcolm/modules/builtin/controllers/basiccontroller.py:40-44:
    sorted(..., key=severity)[-1]: the sort is stable so this is the last
    inserted fault among those of greatest severity. *)
Definition worst_step (best : option alarm) (a : alarm) : option alarm :=
  match best with
  | None => Some a
  | Some b => if Nat.leb (sev_value (a_sev b)) (sev_value (a_sev a)) then Some a else Some b
  end.
(* builtin/controllers/basiccontroller.py 30-48. *)
Definition worst (l : list alarm) : option alarm := fold_left worst_step l None.

(** /repo/malcolm/modules/builtin/controllers/basiccontroller.py:30-48
    update_health (time stamps left out). *)
Definition update_health (reporter : string) (a : alarm) (c : ctrl) : ctrl :=
  let faults := if is_ok a then ddel reporter (c_faults c) else dset reporter a (c_faults c) in
  let '(text, al) := match worst (map snd faults) with
                     | Some w => (a_msg w, w)
                     | None => ("OK", alarm_ok)
                     end in
  mk_ctrl (c_state c) (c_state_alarm c) faults text al (c_cw c) (c_wr c) (c_pub c).

(** All the health reports of a history, in order: successive calls of
    update_health (basiccontroller.py:30-48). *)
Definition reports (h : list (string * alarm)) (c : ctrl) : ctrl :=
  fold_left (fun c ra => update_health (fst ra) (snd ra) c) h c.

(** /repo/malcolm/modules/builtin/controllers/statefulcontroller.py:138-143. *)
Definition alarm_for (t msg : string) : alarm :=
  if String.eqb t DISABLED then alarm_invalid "Disabled"
  else if String.eqb t FAULT then alarm_major msg
  else alarm_ok.

(** /repo/malcolm/modules/builtin/controllers/statefulcontroller.py:147-148. *)
Definition apply_writeable (flags : dict bool) (wr : dict bool) : dict bool :=
  fold_left (fun w fb => dset (fst fb) (snd fb) w) flags wr.

(** /repo/malcolm/modules/builtin/controllers/statefulcontroller.py:123-150
    transition: one atomic step (it holds the lock throughout).  The KeyError
    of _children_writeable[state] is kept, after the state has been set. *)
Definition transition (x : stateset) (t msg : string) (c : ctrl) : ctrl * option exn :=
  match transition_allowed x (c_state c) t with
  | Err e => (c, Some e)
  | Ok false => (c, Some EType)
  | Ok true =>
      let al := alarm_for t msg in
      let c1 := update_health self_key al c in
      let c2 := mk_ctrl t al (c_faults c1) (c_health c1) (c_health_alarm c1)
                        (c_cw c1) (c_wr c1) (t :: c_pub c1) in
      match dget t (c_cw c2) with
      | None => (c2, Some EKey)
      | Some flags =>
          (mk_ctrl (c_state c2) (c_state_alarm c2) (c_faults c2) (c_health c2)
                   (c_health_alarm c2) (c_cw c2) (apply_writeable flags (c_wr c2)) (c_pub c2),
           None)
      end
  end.

(** One row of the loops at statefulcontroller.py:67-69 and 187-189:
    _children_writeable.setdefault(state, {})[field] = flag. *)
Definition set_cw (state field : string) (flag : bool) (cw : dict (dict bool)) : dict (dict bool) :=
  let old := match dget state cw with Some d => d | None => [] end in
  dset state (dset field flag old) cw.

(** The loops themselves: over all possible states: statefulcontroller.py 57-69. *)
Definition set_cw_all (x : stateset) (field : string) (states : list string)
    (cw : dict (dict bool)) : dict (dict bool) :=
  fold_left (fun cw s => set_cw s field (smem s states) cw) (ss_possible x) cw.

(** Replace the writeable table (helper, no source line): statefulcontroller.py 57-69, 123-150. *)
Definition with_cw (cw : dict (dict bool)) (c : ctrl) : ctrl :=
  mk_ctrl (c_state c) (c_state_alarm c) (c_faults c) (c_health c) (c_health_alarm c)
          cw (c_wr c) (c_pub c).
(** Replace the writeable flags (helper, no source line): statefulcontroller.py 57-69, 123-150. *)
Definition with_wr (wr : dict bool) (c : ctrl) : ctrl :=
  mk_ctrl (c_state c) (c_state_alarm c) (c_faults c) (c_health c) (c_health_alarm c)
          (c_cw c) wr (c_pub c).

(** /repo/malcolm/modules/builtin/controllers/statefulcontroller.py:57-69
    set_writeable_in. *)
Definition set_writeable_in (x : stateset) (field : string) (states : list string) (c : ctrl)
  : ctrl * option exn :=
  if forallb (fun s => smem s (ss_possible x)) states
  then (with_cw (set_cw_all x field states (c_cw c)) c, None)
  else (c, Some EAssert).

(** statefulcontroller.py:176-179: is an explicit set already registered? *)
Definition has_explicit (x : stateset) (field : string) (cw : dict (dict bool)) : bool :=
  existsb (fun s => match dget s cw with Some d => dmem field d | None => false end)
          (ss_possible x).

(** statefulcontroller.py:182-186. *)
Definition default_states (x : stateset) : list string :=
  filter (fun s => negb (smem s [DISABLING; DISABLED])) (ss_possible x).

(** /repo/malcolm/modules/builtin/controllers/statefulcontroller.py:170-189
    add_block_field, with /repo/malcolm/core/controller.py:77-86 which makes a
    settable field writeable at once. [settable] = writeable_func is given. *)
Definition add_block_field (x : stateset) (field : string) (settable : bool) (c : ctrl) : ctrl :=
  if settable then
    let c1 := with_wr (dset field true (c_wr c)) c in
    if has_explicit x field (c_cw c1) then c1
    else with_cw (set_cw_all x field (default_states x) (c_cw c1)) c1
  else c.

(** /repo/malcolm/modules/builtin/controllers/statefulcontroller.py:39-53
    StatefulController.__init__: state Disabling, `reset` declared for Disabled
    and Fault, then transition to Disabled. *)
Definition ctrl0 : ctrl := mk_ctrl DISABLING alarm_ok [] "OK" alarm_ok [] [] [DISABLING].
(* statefulcontroller.py 39-53. *)
Definition ctrl_init (x : stateset) : ctrl :=
  let '(c1, _) := set_writeable_in x "reset" [DISABLED; FAULT] ctrl0 in
  fst (transition x DISABLED "" c1).

(** The atomic steps by which a block of this kind can change: a transition
    attempt by any thread, a health report by a part, a field declaration, a
    field being added: statefulcontroller.py 57-175. *)
Inductive op :=
| OTransition (target msg : string)
| OHealth (part : string) (a : alarm)
| OWriteableIn (field : string) (states : list string)
| OAddField (field : string) (settable : bool).

(** Dispatch of one atomic step to the functions above: statefulcontroller.py 57-175. *)
Definition step (x : stateset) (c : ctrl) (o : op) : ctrl :=
  match o with
  | OTransition t m => fst (transition x t m c)
  | OHealth p a => update_health p a c
  | OWriteableIn f l => fst (set_writeable_in x f l c)
  | OAddField f b => add_block_field x f b c
  end.

(** Which state set each controller uses:
    /repo/malcolm/modules/builtin/controllers/statefulcontroller.py:37,
    builtin/controllers/managercontroller.py:64,
    scanning/controllers/runnablecontroller.py:125. *)
Inductive kind := Stateful | Manager | Runnable.
(* statefulcontroller.py 33-37, managercontroller.py 61-66, runnablecontroller.py 121-127. *)
Definition sset (k : kind) : stateset :=
  match k with
  | Stateful => StatefulStates | Manager => ManagerStates | Runnable => RunnableStates
  end.

(** Any history of atomic steps: statefulcontroller.py 57-175. *)
Definition run (x : stateset) (c : ctrl) (h : list op) : ctrl := fold_left (step x) h c.

(** /repo/malcolm/modules/builtin/controllers/statefulcontroller.py:112-114
    go_to_error_state. *)
Definition go_to_error_state (x : stateset) (msg : string) (c : ctrl) : ctrl * option exn :=
  if String.eqb (c_state c) FAULT then (c, None) else transition x FAULT msg c.

(** str(exception) as used at statefulcontroller.py:114; the texts of internal
    errors are abbreviated. *)
Definition exn_text (e : exn) : string :=
  match e with
  | EAssert => "assertion" | EType => "Cannot transition" | EKey => "key" | EWork m => m | EAborted => "Aborted"
  end.

(** /repo/malcolm/modules/builtin/controllers/statefulcontroller.py:152-168
    try_stateful_function.  [env] is every atomic step, by this or any other
    thread, that happens while the work function runs with the lock released;
    [fail] is the exception the work raises, if any. *)
Definition handle_error (x : stateset) (e : exn) (c : ctrl) : ctrl * option exn :=
  match go_to_error_state x (exn_text e) c with
  | (c', Some e') => (c', Some e')
  | (c', None) => (c', Some e)
  end.
(* statefulcontroller.py 152-168. *)
Definition try_stateful (x : stateset) (start stop : string) (env : list op)
    (fail : option string) (c : ctrl) : ctrl * option exn :=
  match transition x start "" c with
  | (c1, Some e) => handle_error x e c1
  | (c1, None) =>
      let c2 := run x c1 env in
      match fail with
      | Some m => handle_error x (EWork m) c2
      | None => match transition x stop "" c2 with
                | (c3, Some e) => handle_error x e c3
                | (c3, None) => (c3, None)
                end
      end
  end.

(** /repo/malcolm/modules/scanning/controllers/runnablecontroller.py:448-459
    configure, 530-559 run and 618-652 try_aborting_function as far as the state
    is concerned: like try_stateful_function, but an AbortedError ([ABORTED]) is
    passed on without a transition.  [abortable_transition] (418-425) raising
    AbortedError is an abort at the end of [env]. *)
Inductive outcome := DONE | FAILED (m : string) | ABORTED_BY_USER.
(* runnablecontroller.py 418-425, 618-652. *)
Definition try_abortable (x : stateset) (start stop : string) (env : list op)
    (o : outcome) (c : ctrl) : ctrl * option exn :=
  match transition x start "" c with
  | (c1, Some e) => handle_error x e c1
  | (c1, None) =>
      let c2 := run x c1 env in
      match o with
      | FAILED m => handle_error x (EWork m) c2
      | ABORTED_BY_USER => (c2, Some EAborted)
      | DONE => match transition x stop "" c2 with
                | (c3, Some e) => handle_error x e c3
                | (c3, None) => (c3, None)
                end
      end
  end.
