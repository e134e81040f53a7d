(** C93: what is running and where the shutter is, over all interleavings of
    configure, run, pause, resume, abort, disable and reset. *)
From Coq Require Import String Bool Arith Lia List.
From Verif Require Import Base States_Model Thr_Model Thr_Spec Thr_Proofs.
Import ListNotations.
Local Open Scope list_scope.

(** The written out transitions are those of RunnableStates. *)
Definition all_states : list bstate :=
  [Resetting; Disabled; Disabling; Fault; Ready; Configuring; Armed; Running; PostRun;
   Finished; Paused; Seeking; Aborting; Aborted].

Lemma all_states_all : forall x, In x all_states.
Proof. intros []; cbn; tauto. Qed.

Lemma graph_checked :
  forallb (fun x => forallb (fun y =>
    match transition_allowed RunnableStates (name_of x) (name_of y) with
    | Ok b => Bool.eqb b (allowed x y) | Err _ => false end) all_states) all_states = true.
Proof. vm_compute. reflexivity. Qed.

Theorem C93_graph : forall x y,
  transition_allowed RunnableStates (name_of x) (name_of y) = Ok (allowed x y).
Proof.
  intros x y. pose proof graph_checked as G.
  rewrite forallb_forall in G. specialize (G x (all_states_all x)). cbn beta in G.
  rewrite forallb_forall in G. specialize (G y (all_states_all y)). cbn beta in G.
  destruct (transition_allowed _ _ _) as [b|]; [|discriminate].
  apply eqb_prop in G. now subst.
Qed.

Print Assumptions C93_graph.

(** ** Nothing runs in a block at rest *)

(** In a considerate use no hook of any part is running while the state says
    Ready, Armed, Paused, Finished or Aborted. *)
Theorem C93_quiet : forall es s, exec polite fresh es = Some s ->
  In (st s) [Ready; Armed; Paused; Finished; Aborted] -> running s = [].
Proof.
  intros es s E R. assert (Hi := exec_inv es fresh s inv_fresh E).
  boot s Hi. unfold running; flds. rewrite Hb. unfold FState, FDis in *.
  assert (M : match m with CReset | XHook => [HReset] | CHook h _ => [HConfigure h]
              | RHook h _ _ _ => [HRun h] | _ => [] end = []).
  { clear - R Hwh. destruct m; try reflexivity; cbn in *; intuition (subst; contradiction). }
  rewrite M. clear - R Hst Hdi. cbn [flat_map app]. rewrite app_nil_r.
  destruct p; try reflexivity; cbn in *;
    try (destruct Hst as [Z|[Z _]]; subst x; try destruct k; cbn in R; intuition discriminate).
  destruct (Hdi I) as [Z|[Z _]]; subst x; intuition discriminate.
Qed.
Print Assumptions C93_quiet.

(** ** The shutter *)

(** In a considerate use the shutter has been told to go to its reset value,
    and to nothing since, when the state says Paused, Aborted or Finished. *)
Theorem C93_closed : forall es s, exec polite fresh es = Some s ->
  In (st s) [Paused; Finished; Aborted] -> closed s.
Proof.
  intros es s E R. assert (Hi := exec_inv es fresh s inv_fresh E).
  boot s Hi. unfold closed; flds. assert (S : shut ps).
  { clear - R Hcs. cbn in R. destruct x; cbn in *; intuition discriminate. }
  destruct ps as [|[] ps]; try contradiction. eauto.
Qed.
Print Assumptions C93_closed.

(** ** A stop reaches what is running *)

(** The hook of configure or run that is running when abort or pause is let in,
    or when disable stops the contexts, can end at once, and so can a seek. *)
Theorem C93_stopped : forall s s' i b, step (Intr i (Next b)) s = Some s' ->
  (exists k, intr i s = IBegin k /\ st s' = start_of k) \/ intr i s = DStop ->
  ((exists h, In (HConfigure h) (running s)) \/ (exists h, In (HRun h) (running s)) ->
   exists s'', step (Main Aborts) s' = Some s'' /\
     (main s'' = CAborted \/ exists l, main s'' = RAborted l)) /\
  (forall j, (exists w k x, intr j s = ISeek w k x) ->
   exists s'', step (Intr j Aborts) s' = Some s'' /\ intr j s'' = IAborted).
Proof.
  intros s s' i b E W.
  assert (S : main s' = stop_main (main s) /\
              forall j, j <> i -> intr j s' = stop_intr (intr j s)).
  { cbn in E. unfold istep in E. destruct W as [(k & W & X)|W]; rewrite W in E; injection E as <-.
    - destruct (allowed (st s) (start_of k)) eqn:A.
      + split; [destruct i; reflexivity|]. intros [] N; destruct i; try congruence; reflexivity.
      + exfalso. revert X A. clear. unfold error, put_rq, set_intr. destruct s as [x ? ? ? ? r ? ? ? ? ?].
        destruct i, r, x, k; cbn; congruence.
    - split; [destruct i; reflexivity|]. intros [] N; destruct i; try congruence; reflexivity. }
  destruct S as [S1 S2]. split.
  - intros R. cbn. unfold mstep. rewrite S1.
    assert (R' : (exists h x, main s = CHook h x) \/ exists h l x d, main s = RHook h l x d).
    { clear - R. unfold running in R. destruct R as [[h R]|[h R]]; apply in_app_or in R as [R|R];
        try (cbn in R; rewrite app_nil_r in R; apply in_app_or in R as [R|R];
             [destruct (ia s)|destruct (ib s)]; cbn in R; try contradiction; destruct R as [R|[]]; discriminate R);
        destruct (main s); cbn in R; try contradiction; destruct R as [R|[]]; try discriminate R; eauto 7. }
    destruct R' as [(h & x & ->)|(h & l & x & d & ->)]; cbn.
    + eexists. split; [reflexivity|]. now left.
    + destruct d; (eexists; split; [reflexivity|]; right; now exists l).
  - intros j (w & k & x & J). assert (N : j <> i).
    { intros ->. rewrite J in W. destruct W as [(k' & W & _)|W]; discriminate W. }
    cbn. unfold istep. rewrite (S2 j N), J. cbn. destruct w;
    (eexists; split; [reflexivity|]; unfold intr, set_intr; now destruct j).
Qed.
Print Assumptions C93_stopped.

(** ** Examples *)

Notation M := (Main (Next false)).
Notation M' := (Main (Next true)).
Notation A := (Intr false (Next false)).

(** configure(): [more] says that the scan is more than one run. *)
Definition configured (more : bool) : list event :=
  [CallConfigure; M; M; M; M; M; M; M; M; M; M; M; Main (Next more); M].
(** run() up to the middle of the RunHook. *)
Definition under_way : list event := [CallRun; M; M; M; Main Put; M; M].
(** The rest of the last run. *)
Definition to_finish : list event := [M; M; M; Main Put; M; M].

(** What the examples show of a history. *)
Definition view (p : event -> sys -> bool) (es : list event) :
  option (bstate * list hook * list bool * mpc * ipc) :=
  match exec p fresh es with
  | Some s => Some (st s, running s, puts s, main s, ia s)
  | None => None
  end.

Example C93_ex_run :
  view polite (configured false ++ under_way) =
    Some (Running, [HRun RunIt], [true], RHook RunIt true false true, IIdle) /\
  view polite (configured false ++ under_way ++ to_finish) =
    Some (Finished, [], [false; true], MIdle, IIdle).
Proof. split; vm_compute; reflexivity. Qed.

(** A pause in the middle of the RunHook, a resume, and the end of the run. *)
Definition paused : list event :=
  [CallPause false; A; A; Main Aborts; M; A; A; A; Intr false Put; A; A; A; A; A; A].
Example C93_ex_pause :
  view polite (configured false ++ under_way ++ paused) =
    Some (Paused, [], [false; true], RWait true, IIdle) /\
  view polite (configured false ++ under_way ++ paused ++
               [CallResume false; A; A; M; M; Main Put; M; M] ++ to_finish) =
    Some (Finished, [], [false; true; false; true], MIdle, IIdle).
Proof. split; vm_compute; reflexivity. Qed.

Definition aborted : list event :=
  [CallAbort false; A; Main Aborts; M; A; A; A; Intr false Put; A; A; A].
Example C93_ex_abort :
  view polite (configured false ++ under_way ++ aborted) =
    Some (Aborted, [], [false; true], RWait true, IIdle) /\
  view polite (configured false ++ under_way ++ aborted ++ [M]) =
    Some (Aborted, [], [false; true], MIdle, IIdle).
Proof. split; vm_compute; reflexivity. Qed.

(** The hypotheses of [C93_stopped], in the middle of a run. *)
Example C93_stopped_ex : exists s s',
  exec polite fresh (configured false ++ under_way ++ [CallAbort false]) = Some s /\
  step A s = Some s' /\ intr false s = IBegin KAbort /\ st s' = Aborting /\
  running s = [HRun RunIt] /\ running s' = [HRun RunIt].
Proof.
  eexists. eexists. split; [vm_compute; reflexivity|]. split; [vm_compute; reflexivity|].
  repeat split.
Qed.

(** ** What does not hold *)

(** Between the runs of a scan the block is Armed and the shutter is left open:
    PostRunArmedHook is not one of the shutter's hooks. *)
Theorem C93_armed_refuted : exists es s, exec polite fresh es = Some s /\
  st s = Armed /\ main s = MIdle /\ ia s = IIdle /\ ~ closed s.
Proof.
  exists (configured true ++ under_way ++ [M; M; M; M; M; M; M]).
  eexists. split; [vm_compute; reflexivity|]. repeat split. intros [l E]. discriminate E.
Qed.
Print Assumptions C93_armed_refuted.

(** A run that fails leaves the shutter open, and reset() to Ready does not
    close it. *)
Theorem C93_fault_refuted : exists es s, exec polite fresh es = Some s /\
  st s = Ready /\ main s = MIdle /\ ia s = IIdle /\ ~ closed s.
Proof.
  exists (configured false ++ under_way ++ [Main Fails; CallReset; M; M; M]).
  eexists. split; [vm_compute; reflexivity|]. repeat split. intros [l E]. discriminate E.
Qed.
Print Assumptions C93_fault_refuted.

Definition fails (e : event) : bool :=
  match e with Main Fails | Intr _ Fails => true | _ => false end.

(** An abort that comes before configure() has replaced the contexts stops
    nothing: all the hooks of configure run, and the block ends in Fault though
    no hook failed. *)
Theorem C93_early_abort_refuted : exists es s, exec polite fresh es = Some s /\
  existsb fails es = false /\ st s = Fault /\ main s = MIdle /\ exists q, ia s = IWait KAbort q.
Proof.
  exists ([CallConfigure; M; M; CallAbort false; A; A] ++ repeat M 11).
  eexists. split; [vm_compute; reflexivity|]. repeat split. exists 0. reflexivity.
Qed.
Print Assumptions C93_early_abort_refuted.

(** A pause called as run() starts ends in Armed, with the call of run() waiting
    for a resume that is not allowed in Armed. *)
Theorem C93_hung_run_refuted : exists es s, exec polite fresh es = Some s /\
  existsb fails es = false /\ st s = Armed /\ ia s = IIdle /\ (exists l, main s = RWait l) /\
  (forall c, mstep c s = None) /\ writeable (CallResume false) (st s) = false.
Proof.
  exists (configured false ++
          [CallRun; M; CallPause false; A; M; A; A; M; Main Put; M; M; M; M; M] ++
          [A; A; Intr false Put; A; A; A; A; A; A]).
  eexists. split; [vm_compute; reflexivity|]. cbn [st ia main]. repeat split; eauto.
  intros [[]| | | |]; reflexivity.
Qed.
Print Assumptions C93_hung_run_refuted.

(** The stop of a pause that comes between two hooks is ignored by the next.  If
    that hook then takes longer than the pause waits, the block is Paused with
    the hook of the run still running, and the shutter opens. *)
Definition or_times (e : event) (s : sys) : bool :=
  polite e s || match e with Intr false Times => true | _ => false end.

Theorem C93_slow_refuted : exists es s, exec or_times fresh es = Some s /\
  existsb fails es = false /\ st s = Paused /\ ia s = IIdle /\
  In (HRun PreRun) (running s) /\ ~ closed s.
Proof.
  exists (configured false ++
          [CallRun; M; M; CallPause false; A; A; M; A; Intr false Times; A; Intr false Put;
           A; A; A; A; A; A; Main Put]).
  eexists. split; [vm_compute; reflexivity|]. cbn [st ia main]. repeat split.
  - now left.
  - intros [l E]. discriminate E.
Qed.
Print Assumptions C93_slow_refuted.

(** A pause during the last run that seeks back to an earlier one: the block
    says Finished, with the shutter open. *)
Definition or_back (e : event) (s : sys) : bool :=
  polite e s || match e with Intr false (Next _) => true | _ => false end.

Theorem C93_seek_back_refuted : exists es s, exec or_back fresh es = Some s /\
  existsb fails es = false /\ st s = Finished /\ main s = MIdle /\ ia s = IIdle /\ ~ closed s.
Proof.
  exists (configured false ++ under_way ++
          [CallPause false; A; A; Main Aborts; M; A; A; A; Intr false Put; A; A; A; A;
           Intr false (Next true); A] ++
          [CallResume false; A; A; M; M; Main Put; M; M; M; M; M; M; M; M; M]).
  eexists. split; [vm_compute; reflexivity|]. repeat split. intros [l E]. discriminate E.
Qed.
Print Assumptions C93_seek_back_refuted.

(** An abort by a second client while a pause waits for the run to stop takes
    the answer that the pause waits for.  The block is Aborted; once the pause
    has waited long enough it runs its hooks on the aborted block and ends it in
    Fault. *)
Notation B := (Intr true (Next false)).
Definition both : list event :=
  configured false ++ under_way ++
  [CallPause false; A; A; A; CallAbort true; B; B; Main Aborts; M; B; B; Intr true Put; B; B; B; M].

Theorem C93_two_clients_refuted : exists s1 es s2,
  exec any fresh both = Some s1 /\ st s1 = Aborted /\ main s1 = MIdle /\ ib s1 = IIdle /\
  exec any s1 es = Some s2 /\ existsb fails (both ++ es) = false /\ st s2 = Fault.
Proof.
  eexists. exists [Intr false Times; A; Intr false Put; A; A; A; A; A; A]. eexists.
  split; [vm_compute; reflexivity|]. cbn [st main ib].
  do 3 (split; [reflexivity|]).
  split; [vm_compute; reflexivity|]. split; vm_compute; reflexivity.
Qed.
Print Assumptions C93_two_clients_refuted.
