(** C01, C02, C03, C39: theorems about block state, writeability and health. *)
From Coq Require Import List String Bool Arith.
From Verif Require Import Base States_Model States_Spec States_Proofs.
Import ListNotations.
Local Open Scope string_scope.
Local Open Scope list_scope.

(** ** C01 *)

(** The transitions the code accepts are exactly the published graph, for every
    pair of strings whatsoever. *)
Theorem C01_accepted_transitions_are_the_graph : forall k s t,
  transition_allowed (sset k) s t = Ok true <-> In (s, t) (graph k).
Proof. exact allowed_graph. Qed.
Print Assumptions C01_accepted_transitions_are_the_graph.
Example C01_accepted_ex :
  In ("Paused", "Running") (graph Runnable) /\ ~ In ("Ready", "Running") (graph Runnable).
Proof. split; vm_compute; [tauto | intuition discriminate]. Qed.

(** Whatever transition attempts, health reports and field declarations any
    threads make in whatever order, the sequence of published states is a walk
    along the graph, and its newest entry is the current state. *)
Theorem C01_published_states_follow_graph : forall k h,
  let c := run (sset k) (ctrl_init (sset k)) h in
  path (graph k) (c_pub c) /\ exists before, c_pub c = c_state c :: before.
Proof. exact published_path. Qed.
Print Assumptions C01_published_states_follow_graph.

(** A method call (start state, stop state, work) publishes only states along
    the graph, whatever happens while its work is running and however it ends. *)
Theorem C01_calls_follow_graph : forall k h start stop env o,
  let c := run (sset k) (ctrl_init (sset k)) h in
  path (graph k) (c_pub (fst (try_abortable (sset k) start stop env o c))).
Proof. exact call_stays_on_graph. Qed.
Print Assumptions C01_calls_follow_graph.

(** A call whose starting move is not on the graph raises, and publishes nothing
    or Fault. *)
Theorem C01_illegal_request_raises : forall k h start stop env fail,
  let c := run (sset k) (ctrl_init (sset k)) h in
  ~ In (c_state c, start) (graph k) ->
  let r := try_stateful (sset k) start stop env fail c in
  snd r <> None /\ (c_pub (fst r) = c_pub c \/ c_pub (fst r) = "Fault" :: c_pub c).
Proof. exact illegal_call. Qed.
Print Assumptions C01_illegal_request_raises.

(** A bare transition attempt succeeds exactly when it is on the graph and
    otherwise leaves the block as it was. *)
Theorem C01_transition_succeeds_iff_edge : forall k h t m,
  let c := run (sset k) (ctrl_init (sset k)) h in
  (In (c_state c, t) (graph k) -> snd (transition (sset k) t m c) = None) /\
  (~ In (c_state c, t) (graph k) -> transition (sset k) t m c = (c, Some EType)).
Proof. exact transition_succeeds. Qed.
Print Assumptions C01_transition_succeeds_iff_edge.

(** A history with a refused attempt, a part fault and an interrupted move. *)
Definition ex_history : list op :=
  [OAddField "configure" true; OWriteableIn "configure" ["Ready"; "Finished"];
   OTransition "Resetting" ""; OTransition "Ready" ""; OTransition "Running" "";
   OHealth "DET" (alarm_major "lost"); OTransition "Configuring" ""; OTransition "Armed" ""].
Example C01_history_ex :
  c_pub (run RunnableStates (ctrl_init RunnableStates) ex_history)
  = ["Armed"; "Configuring"; "Ready"; "Resetting"; "Disabled"; "Disabling"].
Proof. vm_compute; reflexivity. Qed.
Example C01_illegal_ex :
  let c := run RunnableStates (ctrl_init RunnableStates) ex_history in
  c_pub (fst (try_stateful RunnableStates "Loading" "Ready" [] None c))
  = ["Fault"; "Armed"; "Configuring"; "Ready"; "Resetting"; "Disabled"; "Disabling"].
Proof. vm_compute; reflexivity. Qed.

(** ** C02 *)

Theorem C02_disabled_left_only_by_resetting : forall k h t newer older,
  c_pub (run (sset k) (ctrl_init (sset k)) h) = newer ++ t :: "Disabled" :: older ->
  t = "Resetting".
Proof. exact disabled_only_resets. Qed.
Print Assumptions C02_disabled_left_only_by_resetting.
Example C02_disabled_ex :
  c_pub (run RunnableStates (ctrl_init RunnableStates) ex_history)
  = ["Armed"; "Configuring"; "Ready"] ++ "Resetting" :: "Disabled" :: ["Disabling"].
Proof. vm_compute; reflexivity. Qed.

(** If the work of a call raises [m] then the call raises [m] and the block is in
    Fault showing [m] as a major alarm, from where reset and disable can start;
    unless the block was disabled meanwhile, when it stays Disabled, or already
    in Fault, when the earlier message stays. *)
Theorem C02_failure_lands_in_fault : forall k h start stop env m,
  let c := run (sset k) (ctrl_init (sset k)) h in
  In (c_state c, start) (graph k) ->
  let during := run (sset k) (fst (transition (sset k) start "" c)) env in
  let r := try_abortable (sset k) start stop env (FAILED m) c in
  (c_state during <> "Disabled" ->
   c_state (fst r) = "Fault" /\ snd r = Some (EWork m) /\
   (c_state during <> "Fault" ->
      c_state_alarm (fst r) = mk_alarm MajorAlarm m /\
      dget self_key (c_faults (fst r)) = Some (mk_alarm MajorAlarm m)) /\
   snd (transition (sset k) "Resetting" "" (fst r)) = None /\
   snd (transition (sset k) "Disabling" "" (fst r)) = None) /\
  (c_state during = "Disabled" -> fst r = during /\ snd r <> None).
Proof. exact failing_call. Qed.
Print Assumptions C02_failure_lands_in_fault.
Example C02_failure_ex :
  let c := run RunnableStates (ctrl_init RunnableStates) ex_history in
  let r := try_abortable RunnableStates "Running" "PostRun"
             [OHealth "DET" alarm_ok] (FAILED "boom") c in
  In (c_state c, "Running") (graph Runnable) /\
  c_state (fst r) = "Fault" /\ c_health (fst r) = "boom".
Proof. vm_compute; tauto. Qed.
(** Somebody disables the block while the work runs. *)
Example C02_disabled_meanwhile_ex :
  let c := run RunnableStates (ctrl_init RunnableStates) ex_history in
  let r := try_abortable RunnableStates "Running" "PostRun"
             [OTransition "Disabling" ""; OTransition "Disabled" ""] (FAILED "boom") c in
  c_state (fst r) = "Disabled" /\ snd r = Some EType.
Proof. vm_compute; tauto. Qed.

(** ** C03 *)

(** Once a transition has been made, every field with declared states is
    writeable exactly in those states, and stays so through later reports,
    transitions and failed attempts. *)
Theorem C03_writeable_iff_declared_state : forall k h t m h2 f l,
  let c := run (sset k) (ctrl_init (sset k)) h in
  declared (nodes k) f h = Some l ->
  snd (transition (sset k) t m c) = None ->
  (forall o, In o h2 -> touches f o = false) ->
  let c' := run (sset k) (fst (transition (sset k) t m c)) h2 in
  exists b, dget f (c_wr c') = Some b /\ (b = true <-> In (c_state c') l).
Proof. exact writeable_after_transition. Qed.
Print Assumptions C03_writeable_iff_declared_state.
Example C03_writeable_ex :
  let c := run RunnableStates (ctrl_init RunnableStates) ex_history in
  declared (nodes Runnable) "configure" ex_history = Some ["Ready"; "Finished"] /\
  c_state c = "Armed" /\ dget "configure" (c_wr c) = Some false /\
  dget "reset" (c_wr c) = Some false /\
  dget "configure" (c_wr (run RunnableStates c
     [OTransition "Running" ""; OTransition "PostRun" ""; OTransition "Finished" ""]))
  = Some true.
Proof. vm_compute; tauto. Qed.

(** A settable field that declares no states of its own. *)
Example C03_default_ex :
  declared (nodes Stateful) "gain" [OAddField "gain" true]
  = Some ["Ready"; "Resetting"; "Fault"].
Proof. vm_compute; reflexivity. Qed.

(** Finding: between a field being added and the next transition its flag need
    not agree: a fresh Disabled block offers `run` (declared for Armed only) as
    writeable. *)
Theorem C03_before_first_transition_refuted : exists h f l,
  let c := run RunnableStates (ctrl_init RunnableStates) h in
  declared (nodes Runnable) f h = Some l /\
  ~ In (c_state c) l /\ dget f (c_wr c) = Some true.
Proof.
  exists [OWriteableIn "run" ["Armed"]; OAddField "run" true], "run", ["Armed"].
  vm_compute. intuition discriminate.
Qed.
Print Assumptions C03_before_first_transition_refuted.

(** The alarm shown with the state. *)
Theorem C03_state_alarm : forall k h,
  let c := run (sset k) (ctrl_init (sset k)) h in
  (c_state c = "Disabled" -> c_state_alarm c = mk_alarm InvalidAlarm "Disabled") /\
  (c_state c = "Fault" -> exists m, c_state_alarm c = mk_alarm MajorAlarm m) /\
  (c_state c <> "Disabled" -> c_state c <> "Fault" -> c_state_alarm c = mk_alarm NoAlarm "").
Proof. exact alarm_by_state. Qed.
Print Assumptions C03_state_alarm.
Example C03_state_alarm_ex :
  c_state_alarm (run RunnableStates (ctrl_init RunnableStates)
                     (ex_history ++ [OTransition "Fault" "hot"])) = alarm_major "hot".
Proof. vm_compute; reflexivity. Qed.

(** ** C39 *)

(** After any sequence of reports, health is "OK" with no alarm when every
    reporter's latest report is OK; otherwise it is the message and alarm of a
    latest report of greatest severity. *)
Definition how_bad (s : severity) : nat :=
  match s with NoAlarm => 0 | MinorAlarm => 1 | MajorAlarm => 2 | InvalidAlarm => 3 | UndefinedAlarm => 4 end.
Theorem C39_health_is_worst_latest_report : forall h c,
  c_faults c = [] -> c_health c = "OK" -> c_health_alarm c = alarm_ok ->
  let c' := reports h c in
  ((forall p a, latest p h = Some a -> is_ok a = true) ->
     c_health c' = "OK" /\ c_health_alarm c' = alarm_ok) /\
  ((exists p a, latest p h = Some a /\ is_ok a = false) ->
     exists p a, latest p h = Some a /\ is_ok a = false /\
       c_health c' = a_msg a /\ c_health_alarm c' = a /\
       forall q b, latest q h = Some b -> how_bad (a_sev b) <= how_bad (a_sev a)).
Proof. exact health_spec. Qed.
Print Assumptions C39_health_is_worst_latest_report.
Example C39_health_ex :
  let h := [("A", alarm_major "a"); ("B", alarm_invalid "b"); ("C", alarm_major "c");
            ("B", alarm_ok)] in
  c_health (reports h ctrl0) = "c" /\ latest "B" h = Some alarm_ok /\
  c_health (reports (h ++ [("A", alarm_ok); ("C", alarm_ok)]) ctrl0) = "OK".
Proof. vm_compute; tauto. Qed.
