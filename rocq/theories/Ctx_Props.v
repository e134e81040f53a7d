(* C10, C11, C43: requests through a context. *)
From Coq Require Import Bool Arith Lia List.
From Verif Require Import Ctx_Model Ctx_Spec Ctx_Proofs Ctx2_Proofs.
Import ListNotations.

(* ---------------- C10 ---------------- *)
(* Every request gets an id, and a future, never used before *)
Theorem C10_fresh_ids ops : let ev := snd (run c_init ops) in
  NoDup (map fst (made_of ev)) /\ NoDup (map snd (made_of ev)).
Proof.
  intros ev. pose proof (k_log _ _ (core_run ops)) as H. fold ev in H. rewrite H, !map_map. cbn [fst snd]. split.
  - rewrite seq_shift. apply seq_NoDup.
  - rewrite map_id. apply seq_NoDup.
Qed.
Print Assumptions C10_fresh_ids.

Lemma made_in ops id f : In (id, f) (made_of (snd (run c_init ops))) <-> id = S f /\ nget f (c_state (fst (run c_init ops))) <> None.
Proof.
  pose proof (core_run ops) as K. rewrite (k_log _ _ K), in_map_iff, (k_known _ _ K).
  split.
  - intros (x & E & Hx). injection E as <- <-. apply in_seq in Hx. split; [reflexivity|lia].
  - intros [-> H]. exists f. split; [reflexivity|]. apply in_seq. lia.
Qed.
(* what a step can resolve *)
Lemma service_resolves c ev fr below m : core c ev ->
  resolved_of (snd (service c fr below m)) =
  match answer m with
  | Some (id, s) => match nget id (c_futures c) with Some f => [(f, s)] | None => [] end
  | None => []
  end.
Proof.
  intros K. assert (Rq : forall c0 fr0, resolved_of (snd (resume c0 fr0 below)) = []) by (intros c0 fr0; apply resume_quiet).
  assert (Lq : forall c0 fr0 e, resolved_of (snd (leave c0 fr0 below e)) = []) by (intros c0 fr0 e; apply leave_quiet).
  destruct m as [id v|id e|id v| |t]; cbn [service answer]; unfold resolve.
  - destruct (nget id (c_futures c)) as [f|]; [|apply Lq].
    match goal with |- context [resume ?a ?b below] => specialize (Rq a b); destruct (resume a b below) as [c'' o] end.
    cbn [snd resolved_of flat_map app] in *. unfold resolved_of in Rq. now rewrite Rq.
  - destruct (nget id (c_futures c)) as [f|]; [|apply Lq]. destruct (nin f (todo_of fr)).
    + match goal with |- context [leave ?a ?b below ?d] => specialize (Lq a b d); destruct (leave a b below d) as [c'' o] end.
      cbn [snd resolved_of flat_map app] in *. unfold resolved_of in Lq. now rewrite Lq.
    + match goal with |- context [resume ?a ?b below] => specialize (Rq a b); destruct (resume a b below) as [c'' o] end.
      cbn [snd resolved_of flat_map app] in *. unfold resolved_of in Rq. now rewrite Rq.
  - destruct (nmem id (c_subs c)); [reflexivity|apply Rq].
  - destruct (c_sentinel c); [apply Rq|apply Lq].
  - destruct (c_sentinel c) as [t'|]; [destruct (Nat.eqb t t')|]; apply Rq.
Qed.
Lemma step_resolves c ev o : core c ev ->
  resolved_of (snd (step c o)) =
  match o, c_stack c, c_q c with
  | Service, FWait _ _ :: _, m :: _ | Service, FSleep :: _, m :: _ =>
    match answer m with
    | Some (id, s) => match nget id (c_futures c) with Some f => [(f, s)] | None => [] end
    | None => []
    end
  | _, _, _ => []
  end.
Proof.
  intros K.
  assert (Rq : forall c0 fr0 below, resolved_of (snd (resume c0 fr0 below)) = []) by (intros c0 fr0 below; apply resume_quiet).
  assert (Lq : forall c0 fr0 below e, resolved_of (snd (leave c0 fr0 below e)) = []) by (intros c0 fr0 below e; apply leave_quiet).
  destruct o; cbn [step].
  - destruct (match c_stack c with FWait _ _ :: _ | FSleep :: _ => false | _ => true end); [|reflexivity].
    unfold request. destruct there; reflexivity.
  - destruct (match c_stack c with FWait _ _ :: _ | FSleep :: _ => false | _ => true end); [|reflexivity].
    unfold unsubscribe. destruct (nmem f (c_pending c)); [reflexivity|].
    destruct (nget f (c_requests c)) as [[k id]|]; [|reflexivity]. destruct (nmem id (c_subs c)); [destruct there; reflexivity|reflexivity].
  - reflexivity.
  - reflexivity.
  - destruct m; reflexivity.
  - destruct (_ && _); [|reflexivity]. destruct (not_done (c_state c) fs) as [e|[|x l]]; reflexivity.
  - destruct (match c_stack c with FWait _ _ :: _ | FSleep :: _ => false | _ => true end); reflexivity.
  - destruct (c_stack c) as [|[a t| |] below]; try reflexivity; (destruct (c_q c) as [|m q]; [reflexivity|]).
    + pose proof (service_resolves (upd_q c q) ev (FWait a t) below m (core_q _ _ _ K)) as G.
      destruct (service (upd_q c q) (FWait a t) below m) as [c' o]. exact G.
    + pose proof (service_resolves (upd_q c q) ev FSleep below m (core_q _ _ _ K)) as G.
      destruct (service (upd_q c q) FSleep below m) as [c' o]. exact G.
  - destruct (c_stack c) as [|[a t| |] below]; try reflexivity; destruct (c_q c) as [|m q]; reflexivity.
  - destruct (c_stack c) as [|[a t| |] [|fr below]]; try reflexivity. apply Rq.
  - destruct (c_stack c) as [|[a t| |] [|fr below]]; try reflexivity. apply Lq.
Qed.
Lemma taken_step c o : taken_of (snd (step c o)) =
  match o, c_stack c, c_q c with
  | Service, FWait _ _ :: _, m :: _ | Service, FSleep :: _, m :: _ => [m]
  | _, _, _ => []
  end.
Proof.
  assert (Rq : forall c0 fr0 below, taken_of (snd (resume c0 fr0 below)) = []) by (intros c0 [a [|x t]| |] below; reflexivity).
  destruct o; cbn [step].
  - destruct (match c_stack c with FWait _ _ :: _ | FSleep :: _ => false | _ => true end); [|reflexivity].
    unfold request. destruct there; reflexivity.
  - destruct (match c_stack c with FWait _ _ :: _ | FSleep :: _ => false | _ => true end); [|reflexivity].
    unfold unsubscribe. destruct (nmem f (c_pending c)); [reflexivity|].
    destruct (nget f (c_requests c)) as [[k id]|]; [|reflexivity]. destruct (nmem id (c_subs c)); [destruct there; reflexivity|reflexivity].
  - reflexivity.
  - reflexivity.
  - destruct m; reflexivity.
  - destruct (_ && _); [|reflexivity]. destruct (not_done (c_state c) fs) as [e|[|x l]]; reflexivity.
  - destruct (match c_stack c with FWait _ _ :: _ | FSleep :: _ => false | _ => true end); reflexivity.
  - destruct (c_stack c) as [|[a t| |] below]; try reflexivity; (destruct (c_q c) as [|m q]; [reflexivity|]).
    + pose proof (service_takes (upd_q c q) (FWait a t) below m) as G.
      destruct (service (upd_q c q) (FWait a t) below m) as [c' o]. cbn [snd] in *. unfold taken_of in *. cbn [flat_map app]. now rewrite G.
    + pose proof (service_takes (upd_q c q) FSleep below m) as G.
      destruct (service (upd_q c q) FSleep below m) as [c' o]. cbn [snd] in *. unfold taken_of in *. cbn [flat_map app]. now rewrite G.
  - destruct (c_stack c) as [|[a t| |] below]; try reflexivity; destruct (c_q c) as [|m q]; reflexivity.
  - destruct (c_stack c) as [|[a t| |] [|fr below]]; try reflexivity. apply Rq.
  - destruct (c_stack c) as [|[a t| |] [|fr below]]; try reflexivity. destruct fr; reflexivity.
Qed.

(* A future is resolved by the response to its own request, with what that says, and a response
   to a request not yet answered resolves its future *)
Theorem C10_own_response ops o f s : let ev := snd (run c_init ops) in
  let e := snd (step (fst (run c_init ops)) o) in
  In (f, s) (resolved_of e) <->
  exists m id, taken_of e = [m] /\ answer m = Some (id, s) /\ In (id, f) (made_of ev) /\
               (forall s', ~ In (f, s') (resolved_of ev)).
Proof.
  intros ev e. pose proof (core_run ops) as K. fold ev in K. unfold e.
  rewrite (step_resolves _ ev o K), taken_step.
  assert (Hkey : forall m id f s, answer m = Some (id, s) ->
    (nget id (c_futures (fst (run c_init ops))) = Some f <->
     In (id, f) (made_of ev) /\ forall s', ~ In (f, s') (resolved_of ev))).
  { intros m id g t _. rewrite (k_fut _ _ K). unfold ev at 1. rewrite made_in. split.
    - intros [-> H]. split; [split; [reflexivity|congruence]|]. intros s' Hs. apply (k_res _ _ K) in Hs as [A B]. congruence.
    - intros [[-> H] Hn]. split; [reflexivity|]. destruct (nget g (c_state (fst (run c_init ops)))) as [x|] eqn:E; [|congruence].
      destruct x as [|v|n]; [reflexivity| |]; exfalso.
      + apply (Hn (Result v)). apply (k_res _ _ K). split; [exact E|discriminate].
      + apply (Hn (Failed n)). apply (k_res _ _ K). split; [exact E|discriminate]. }
  assert (G : forall m, In (f, s) (match answer m with
    | Some (id, s) => match nget id (c_futures (fst (run c_init ops))) with Some f => [(f, s)] | None => [] end
    | None => [] end) <-> exists m' id, [m] = [m'] /\ answer m' = Some (id, s) /\ In (id, f) (made_of ev) /\
               (forall s', ~ In (f, s') (resolved_of ev))).
  { intros m. split.
    - destruct (answer m) as [[id t]|] eqn:E; [|intros []]. destruct (nget id (c_futures (fst (run c_init ops)))) as [g|] eqn:Eg; [|intros []].
      intros [H|[]]. injection H as -> ->. exists m, id. split; [reflexivity|]. split; [exact E|]. now apply (Hkey m id f s E).
    - intros (m' & id & H & E & Hr). injection H as <-. rewrite E. apply (proj2 (Hkey m id f s E)) in Hr. rewrite Hr. now left. }
  assert (N : In (f, s) [] <-> exists m' id, [] = [m'] /\ answer m' = Some (id, s) /\ In (id, f) (made_of ev) /\
               (forall s', ~ In (f, s') (resolved_of ev))).
  { split; [intros []|]. intros (m' & id & H & _). discriminate. }
  destruct o; try exact N. destruct (c_stack (fst (run c_init ops))) as [|[a t| |] below]; try exact N;
    (destruct (c_q (fst (run c_init ops))) as [|m q]; [exact N|apply G]).
Qed.
Print Assumptions C10_own_response.

(* ... at most once, and what it holds is what it was resolved with *)
Theorem C10_once ops : let ev := snd (run c_init ops) in
  NoDup (map fst (resolved_of ev)) /\
  forall f s, s <> Running -> (nget f (c_state (fst (run c_init ops))) = Some s <-> In (f, s) (resolved_of ev)).
Proof.
  intros ev. pose proof (core_run ops) as K. split; [apply (k_once _ _ K)|]. intros f s Hs.
  unfold ev. rewrite (k_res _ _ K). tauto.
Qed.
Print Assumptions C10_once.

(* A wait that returns: every future it was asked for is resolved; with a result, if callbacks
   do not wait themselves *)
Theorem C10_wait_returns ops o a : let ev := snd (run c_init ops) in
  let e := snd (step (fst (run c_init ops)) o) in
  In (WaitDone a) e ->
  (forall f, In f a -> exists s, In (f, s) (resolved_of (ev ++ e))) /\
  (flat (ops ++ [o]) -> forall f, In f a -> exists v, In (f, Result v) (resolved_of (ev ++ e))).
Proof.
  intros ev e Hd. pose proof (core_run (ops ++ [o])) as K. rewrite run_snoc in K. cbn [fst snd] in K. fold ev e in K. split.
  - intros f Hf. destruct (wfs_step _ _ o (core_run ops) (wfs_run ops)) as [_ [H _]].
    destruct (H a Hd f Hf) as [A B]. destruct (nget f (c_state (fst (step (fst (run c_init ops)) o)))) as [s|] eqn:E; [|congruence].
    exists s. apply (k_res _ _ K). split; [exact E|congruence].
  - intros Hfl f Hf. destruct (flat_step _ _ o (core_run ops) (flat_run ops (flat_prefix _ _ Hfl))) as [_ H].
    + intros Ho. now apply (Hfl ops o []).
    + destruct (H a Hd f Hf) as (v & Hv). exists v. apply (k_res _ _ K). split; [exact Hv|discriminate].
Qed.
Print Assumptions C10_wait_returns.

(* A wait that raises the error of a response: it is the error of one of its futures *)
Theorem C10_wait_raises ops o a n : let ev := snd (run c_init ops) in
  let e := snd (step (fst (run c_init ops)) o) in
  In (WaitRaised a (Remote n)) e -> exists f, In f a /\ In (f, Failed n) (resolved_of (ev ++ e)).
Proof.
  intros ev e Hd. pose proof (core_run (ops ++ [o])) as K. rewrite run_snoc in K. cbn [fst snd] in K. fold ev e in K.
  destruct (wfs_step _ _ o (core_run ops) (wfs_run ops)) as [_ [_ H]].
  destruct (H a n Hd) as (f & Hf & Hs). exists f. split; [exact Hf|]. apply (k_res _ _ K). split; [exact Hs|discriminate].
Qed.
Print Assumptions C10_wait_raises.

(* A wait is only on while one of its (distinct) futures is unresolved, if callbacks do not wait
   themselves *)
Theorem C10_wait_ends ops a t below : flat ops -> NoDup a ->
  let c := fst (run c_init ops) in
  (c_stack c = FWait a t :: below \/ c_stack c = FCall :: FWait a t :: below) ->
  exists f, In f a /\ forall s, ~ In (f, s) (resolved_of (snd (run c_init ops))).
Proof.
  intros Hfl Hn c Hs. pose proof (core_run ops) as K. pose proof (flat_run ops Hfl) as F. pose proof (wfs_run ops) as W.
  fold c in K, F, W.
  assert (G : okf (c_state c) (FWait a t) /\ okflat (c_state c) (FWait a t)).
  { destruct Hs as [Hs|Hs]; rewrite Hs in F, W.
    - split.
      + destruct W as [[]|(fr & r & E & A & _)]. now injection E as <- <-.
      + destruct F as [F|(fr & [F|F] & _ & Ho)]; try discriminate. now injection F as <- _.
    - split.
      + destruct W as [[A _]|(fr & r & E & A & _)]; [exact A|]. injection E as <- <-. destruct A.
      + destruct F as [F|(fr & [F|F] & _ & Ho)]; try discriminate. now injection F as <- _. }
  destruct G as [(Hne & Hi & _) [_ Hr]]. destruct t as [|f t]; [congruence|]. exists f. split; [apply Hi; now left|].
  intros s Hin. apply (k_res _ _ K) in Hin as [A B]. destruct (Hr Hn) as [_ Hrun]. rewrite (Hrun f) in A by now left. congruence.
Qed.
Print Assumptions C10_wait_ends.

(* Two puts, a subscription; the answers come in another order *)
Definition ex10 : list op :=
  [Request Put true; Request Subscribe true; Request Post true; Wait [0; 2];
   Arrive (MUpdate 2 7); Arrive (MReturn 3 33); Arrive (MReturn 1 11);
   Service; CallReturn; Service].
Example C10_ex : flat (ex10 ++ [Service]) /\
  c_stack (fst (run c_init ex10)) = [FWait [0; 2] [0]] /\
  snd (step (fst (run c_init ex10)) Service) = [Took (MReturn 1 11); Resolved 0 (Result 11); WaitDone [0; 2]] /\
  resolved_of (snd (run c_init (ex10 ++ [Service]))) = [(2, Result 33); (0, Result 11)].
Proof.
  split; [|repeat split].
  intros pre o post H Ho. unfold ex10 in H.
  do 12 (destruct pre as [|x pre]; [cbn [app] in H; injection H as <- <-; destruct Ho as [Ho|[fs Ho]]; (discriminate || reflexivity)|
    cbn [app] in H; injection H as <- H]; try (destruct pre; discriminate)).
Qed.
Example C10_error_ex : In (WaitRaised [0] (Remote 5))
  (snd (run c_init [Request Put true; Wait [0]; Arrive (MError 1 5); Service])).
Proof. cbn. auto. Qed.

(* A callback that waits takes the responses of the wait below.  Two of them: the list is
   changed while it is iterated over, so the second stays, and the wait below goes on although
   all it was asked for is resolved and nothing is left to come *)
Definition ex10_nested : list op :=
  [Request Subscribe true; Request Put true; Request Put true; Wait [1; 2];
   Arrive (MUpdate 1 0); Service; Request Put true; Wait [3];
   Arrive (MReturn 2 0); Arrive (MReturn 3 0); Arrive (MReturn 4 0); Service; Service; Service; CallReturn].
Theorem C10_callback_waits_refuted : exists ops a t,
  NoDup a /\ c_stack (fst (run c_init ops)) = [FWait a t] /\ c_q (fst (run c_init ops)) = [] /\
  forall f, In f a -> exists s, In (f, s) (resolved_of (snd (run c_init ops))).
Proof.
  exists ex10_nested, [1; 2], [2]. split; [repeat constructor; cbn; intuition discriminate|].
  split; [reflexivity|]. split; [reflexivity|]. intros f [<-|[<-|[]]]; exists (Result 0); vm_compute; tauto.
Qed.
Print Assumptions C10_callback_waits_refuted.
(* The error of a future of the wait below is swallowed: that wait returns *)
Theorem C10_swallowed_error_refuted : exists ops a f n,
  In (WaitDone a) (snd (run c_init ops)) /\ In f a /\ In (f, Failed n) (resolved_of (snd (run c_init ops))).
Proof.
  exists [Request Subscribe true; Request Put true; Wait [1]; Arrive (MUpdate 1 0); Service;
          Request Put true; Wait [2]; Arrive (MError 2 5); Arrive (MReturn 3 0); Service; Service; CallReturn], [1], 1, 5.
  vm_compute. tauto.
Qed.
Print Assumptions C10_swallowed_error_refuted.
(* The same future twice in the list: the wait never ends *)
Theorem C10_same_future_twice_refuted : exists ops a t, flat ops /\
  c_stack (fst (run c_init ops)) = [FWait a t] /\ c_q (fst (run c_init ops)) = [] /\
  forall f, In f a -> exists s, In (f, s) (resolved_of (snd (run c_init ops))).
Proof.
  exists [Request Put true; Wait [0; 0]; Arrive (MReturn 1 4); Service], [0; 0], [0]. split; [|split; [reflexivity|split; [reflexivity|]]].
  - intros pre o post H Ho.
    do 4 (destruct pre as [|x pre]; [cbn [app] in H; injection H as <- <-; destruct Ho as [Ho|[fs Ho]]; (discriminate || reflexivity)|
      cbn [app] in H; injection H as <- H]; try (destruct pre; discriminate)).
  - intros f [<-|[<-|[]]]; exists (Result 4); vm_compute; tauto.
Qed.
Print Assumptions C10_same_future_twice_refuted.

(* ---------------- C11 ---------------- *)
(* Messages are taken in the order they were placed *)
Theorem C11_in_order ops : let ev := snd (run c_init ops) in
  Forall2 is_placed (taken_of ev) (firstn (length (taken_of ev)) (placed_of ops)).
Proof.
  intros ev. pose proof (q_fifo _ _ _ (qinv_run ops)) as H. fold ev in H.
  assert (G : forall a b l, Forall2 is_placed (a ++ b) l -> Forall2 is_placed a (firstn (length a) l)).
  { induction a as [|x a IH]; intros b l Hl; cbn [app length firstn]; [constructor|]. inversion Hl; subst. constructor; eauto. }
  now apply (G _ _ _ H).
Qed.
Print Assumptions C11_in_order.

Lemma next_placed ops m q : c_q (fst (run c_init ops)) = m :: q ->
  exists p rest, nth_error (placed_of ops) (length (taken_of (snd (run c_init ops)))) = Some p /\ is_placed m p /\
    skipn (S (length (taken_of (snd (run c_init ops))))) (placed_of ops) = rest /\ Forall2 is_placed q rest.
Proof.
  intros Hq. pose proof (q_fifo _ _ _ (qinv_run ops)) as H. rewrite Hq in H.
  remember (taken_of (snd (run c_init ops))) as a eqn:Ea. clear Ea Hq. revert H. generalize (placed_of ops).
  induction a as [|x a IH]; intros l Hl; cbn [app] in Hl; inversion Hl; subst; cbn [length nth_error skipn].
  - eauto 8.
  - destruct (IH _ H3) as (p & rest & A & B & C & D). eauto 8.
Qed.
Lemma F2_length {A B} (R : A -> B -> Prop) l l' : Forall2 R l l' -> length l = length l'.
Proof. induction 1; cbn; congruence. Qed.
Lemma placed_sentinel q rest : Forall2 is_placed q rest ->
  (In PIgnore rest <-> exists m, In m q /\ is_sentinel m).
Proof.
  induction 1 as [|m p q rest Hmp Hf IH]; cbn [In].
  - split; [intros []|intros (m & [] & _)].
  - rewrite IH. split.
    + intros [->|(x & A & B)]; [|eauto]. exists m. split; [now left|]. destruct m; cbn in Hmp; try contradiction; try discriminate. now exists token.
    + intros (x & [<-|A] & B); [|eauto]. destruct B as (t & ->). left. destruct p; cbn in Hmp; try contradiction. reflexivity.
Qed.
Lemma sentinel_rest ops q : c_q (fst (run c_init ops)) = MStop :: q ->
  (c_sentinel (fst (run c_init ops)) = None <-> ~ exists m, In m q /\ is_sentinel m).
Proof.
  intros Hq. pose proof (q_sent _ _ _ (qinv_run ops)) as H. rewrite Hq in H.
  destruct (c_sentinel (fst (run c_init ops))) as [t|].
  - split; [discriminate|]. intros Hn. exfalso. apply Hn. destruct H as (a & b & E & _). destruct a as [|x a]; [discriminate|].
    injection E as <- ->. exists (MSentinel t). split; [apply in_or_app; right; now left|now exists t].
  - split; [|reflexivity]. intros _ (m & Hm & Hs). apply (H m); [now right|exact Hs].
Qed.

(* The wait (or sleep) that meets a stop is aborted, unless stops were to be ignored since *)
Theorem C11_stop_aborts ops a t below :
  let c := fst (run c_init ops) in let n := length (taken_of (snd (run c_init ops))) in
  c_stack c = FWait a t :: below -> nth_error (placed_of ops) n = Some PStop ->
  ~ In PIgnore (skipn (S n) (placed_of ops)) ->
  snd (step c Service) = [Took MStop; WaitRaised a Aborted] /\ c_stack (fst (step c Service)) = below.
Proof.
  intros c n Hs Hn Hi.
  assert (Hq : exists q, c_q c = MStop :: q).
  { destruct (c_q c) as [|m q] eqn:Eq.
    - pose proof (q_fifo _ _ _ (qinv_run ops)) as F. fold c in F. rewrite Eq, app_nil_r in F. apply F2_length in F.
      assert (n < length (placed_of ops)) by (apply nth_error_Some; congruence). unfold n in *. lia.
    - destruct (next_placed ops m q Eq) as (p & rest & A & B & _). fold n in A. assert (p = PStop) by congruence. subst p.
      destruct m; cbn in B; try contradiction. eauto. }
  destruct Hq as (q & Hq). destruct (next_placed ops _ q Hq) as (p & rest & _ & _ & C & D). fold n in C. rewrite C in Hi.
  rewrite (placed_sentinel _ _ D) in Hi. apply (sentinel_rest ops q Hq) in Hi. fold c in Hi.
  cbn [step]. rewrite Hs, Hq. cbn [service upd_q c_sentinel]. rewrite Hi. cbn. auto.
Qed.
Print Assumptions C11_stop_aborts.

(* A stop placed before stops were to be ignored is passed over *)
Theorem C11_stop_ignored ops a t below :
  let c := fst (run c_init ops) in let n := length (taken_of (snd (run c_init ops))) in
  c_stack c = FWait a t :: below -> nth_error (placed_of ops) n = Some PStop ->
  In PIgnore (skipn (S n) (placed_of ops)) ->
  snd (step c Service) = [Took MStop] /\ c_stack (fst (step c Service)) = c_stack c.
Proof.
  intros c n Hs Hn Hi.
  assert (Hq : exists q, c_q c = MStop :: q).
  { destruct (c_q c) as [|m q] eqn:Eq.
    - pose proof (q_fifo _ _ _ (qinv_run ops)) as F. fold c in F. rewrite Eq, app_nil_r in F. apply F2_length in F.
      assert (n < length (placed_of ops)) by (apply nth_error_Some; congruence). unfold n in *. lia.
    - destruct (next_placed ops m q Eq) as (p & rest & A & B & _). fold n in A. assert (p = PStop) by congruence. subst p.
      destruct m; cbn in B; try contradiction. eauto. }
  destruct Hq as (q & Hq). destruct (next_placed ops _ q Hq) as (p & rest & _ & _ & C & D). fold n in C. rewrite C in Hi.
  rewrite (placed_sentinel _ _ D) in Hi.
  assert (Hsn : c_sentinel c <> None) by (intros E; apply (sentinel_rest ops q Hq) in E; auto).
  assert (Ht : t <> []).
  { pose proof (wfs_run ops) as W. fold c in W. rewrite Hs in W. destruct W as [[]|(fr & r & E & A & _)].
    injection E as <- <-. apply A. }
  cbn [step]. rewrite Hs, Hq. cbn [service upd_q c_sentinel]. destruct (c_sentinel c); [|congruence].
  destruct t; [congruence|]. cbn. auto.
Qed.
Print Assumptions C11_stop_ignored.

(* Nothing else aborts: in particular no stop placed before the last request to ignore *)
Theorem C11_only_stops ops o :
  let c := fst (run c_init ops) in let n := length (taken_of (snd (run c_init ops))) in
  (exists a, In (WaitRaised a Aborted) (snd (step c o))) \/ In (SleepRaised Aborted) (snd (step c o)) ->
  o = Service /\ nth_error (placed_of ops) n = Some PStop /\ ~ In PIgnore (skipn (S n) (placed_of ops)).
Proof.
  intros c n H.
  assert (Res : forall c0 fr0 below, ~ ((exists a, In (WaitRaised a Aborted) (snd (resume c0 fr0 below))) \/ In (SleepRaised Aborted) (snd (resume c0 fr0 below)))).
  { intros c0 [a [|x l]| |] below [(a' & Ha)|Ha]; cbn in Ha; intuition discriminate. }
  assert (Lv : forall c0 fr0 below e, e <> Aborted -> ~ ((exists a, In (WaitRaised a Aborted) (snd (leave c0 fr0 below e))) \/ In (SleepRaised Aborted) (snd (leave c0 fr0 below e)))).
  { intros c0 [a l| |] below e He [(a' & Ha)|Ha]; cbn in Ha; destruct Ha as [Ha|[]]; congruence. }
  assert (Sv : forall q fr below m, c_q c = m :: q ->
    ((exists a, In (WaitRaised a Aborted) (snd (let (c', o) := service (upd_q c q) fr below m in (c', Took m :: o)))) \/
     In (SleepRaised Aborted) (snd (let (c', o) := service (upd_q c q) fr below m in (c', Took m :: o)))) ->
    m = MStop /\ c_sentinel c = None).
  { intros q fr below m Eq Hx.
    assert (Hy : (exists a, In (WaitRaised a Aborted) (snd (service (upd_q c q) fr below m))) \/ In (SleepRaised Aborted) (snd (service (upd_q c q) fr below m))).
    { destruct (service (upd_q c q) fr below m) as [c' o']. cbn [snd] in *. destruct Hx as [(a & [Ha|Ha])|[Ha|Ha]]; try discriminate; eauto. }
    clear Hx. destruct m as [id v|id e|id v| |tk]; cbn [service] in Hy.
    - exfalso. destruct (resolve (upd_q c q) id (Result v)) as [[c1 f]|]; [|revert Hy; apply Lv; discriminate].
      match type of Hy with context [resume ?x ?y below] => pose proof (Res x y below) as R; destruct (resume x y below) as [c2 e2] end.
      cbn [snd] in *. apply R. destruct Hy as [(a & [Ha|Ha])|[Ha|Ha]]; try discriminate; eauto.
    - exfalso. destruct (resolve (upd_q c q) id (Failed e)) as [[c1 f]|]; [|revert Hy; apply Lv; discriminate].
      destruct (nin f (todo_of fr)).
      + pose proof (Lv c1 fr below (Remote e)) as R. destruct (leave c1 fr below (Remote e)) as [c2 e2]. cbn [snd] in *.
        apply R; [discriminate|]. destruct Hy as [(a & [Ha|Ha])|[Ha|Ha]]; try discriminate; eauto.
      + pose proof (Res c1 fr below) as R. destruct (resume c1 fr below) as [c2 e2]. cbn [snd] in *.
        apply R. destruct Hy as [(a & [Ha|Ha])|[Ha|Ha]]; try discriminate; eauto.
    - exfalso. destruct (nmem id (c_subs (upd_q c q))); [|now apply Res in Hy].
      cbn in Hy. destruct Hy as [(a & [Ha|[]])|[Ha|[]]]; discriminate.
    - split; [reflexivity|]. cbn [upd_q c_sentinel] in Hy. destruct (c_sentinel c); [|reflexivity]. now apply Res in Hy.
    - exfalso. cbn [upd_q c_sentinel] in Hy. destruct (c_sentinel c) as [t'|]; [destruct (Nat.eqb tk t')|]; now apply Res in Hy. }
  assert (Go : forall q, c_q c = MStop :: q -> c_sentinel c = None ->
     nth_error (placed_of ops) n = Some PStop /\ ~ In PIgnore (skipn (S n) (placed_of ops))).
  { intros q Hq Hsn. destruct (next_placed ops _ q Hq) as (p & rest & A & B & C & D). fold n in A, C.
    split.
    - rewrite A. destruct p; cbn in B; try contradiction. reflexivity.
    - rewrite C, (placed_sentinel _ _ D). now apply (sentinel_rest ops q Hq). }
  assert (Nil : ~ ((exists a, In (WaitRaised a Aborted) (@nil event)) \/ In (SleepRaised Aborted) [])) by (intros [(a & [])|[]]).
  destruct o; cbn [step] in H.
  - exfalso. destruct (match c_stack c with FWait _ _ :: _ | FSleep :: _ => false | _ => true end); [|exact (Nil H)].
    unfold request in H. cbn in H. destruct H as [(a & [Ha|[]])|[Ha|[]]]; destruct there; discriminate.
  - exfalso. destruct (match c_stack c with FWait _ _ :: _ | FSleep :: _ => false | _ => true end); [|exact (Nil H)].
    unfold unsubscribe in H. destruct (nmem f (c_pending c)); [|destruct (nget f (c_requests c)) as [[k id]|]; [destruct (nmem id (c_subs c)); [destruct there|]|]];
      destruct H as [(a & [Ha|[]])|[Ha|[]]]; discriminate.
  - destruct (Nil H).
  - destruct (Nil H).
  - exfalso. destruct m; exact (Nil H).
  - exfalso. destruct (_ && _); [|exact (Nil H)]. destruct (not_done (c_state c) fs) as [e|[|x l]]; [| |exact (Nil H)];
      destruct H as [(a & [Ha|[]])|[Ha|[]]]; discriminate.
  - exfalso. destruct (match c_stack c with FWait _ _ :: _ | FSleep :: _ => false | _ => true end); exact (Nil H).
  - split; [reflexivity|]. destruct (c_stack c) as [|[a0 t0| |] below]; try (destruct (Nil H)); (destruct (c_q c) as [|m q] eqn:Eq; [destruct (Nil H)|]);
      destruct (Sv q _ _ m eq_refl H) as [-> Hsn]; exact (Go q eq_refl Hsn).
  - exfalso. destruct (c_stack c) as [|[a0 t0| |] below]; try exact (Nil H); (destruct (c_q c) as [|m q]; [|exact (Nil H)]);
      destruct H as [(a & [Ha|[]])|[Ha|[]]]; discriminate.
  - exfalso. destruct (c_stack c) as [|[a0 t0| |] [|fr below]]; try exact (Nil H). now apply Res in H.
  - exfalso. destruct (c_stack c) as [|[a0 t0| |] [|fr below]]; try exact (Nil H). revert H. apply Lv. discriminate.
Qed.
Print Assumptions C11_only_stops.
(* so a stop that aborts was placed after every request to ignore *)
Theorem C11_earlier_never before after o :
  let ops := before ++ Ignore :: after in let c := fst (run c_init ops) in
  (exists a, In (WaitRaised a Aborted) (snd (step c o))) ->
  length (placed_of before) < length (taken_of (snd (run c_init ops))).
Proof.
  intros ops c H. destruct (C11_only_stops ops o (or_introl H)) as (_ & Hn & Hi).
  set (n := length (taken_of (snd (run c_init ops)))) in *. unfold ops in Hn, Hi. rewrite placed_app in Hn, Hi.
  change (placed_of (Ignore :: after)) with (PIgnore :: placed_of after) in Hn, Hi.
  destruct (Nat.lt_ge_cases (length (placed_of before)) n) as [L|L]; [exact L|]. exfalso.
  destruct (Nat.eq_dec n (length (placed_of before))) as [E|E].
  - rewrite nth_error_app2, E, Nat.sub_diag in Hn by lia. discriminate.
  - apply Hi. rewrite skipn_app. apply in_or_app. right.
    replace (S n - length (placed_of before)) with 0 by lia. now left.
Qed.
Print Assumptions C11_earlier_never.

Example C11_ex :
  snd (run c_init [Request Put true; Stop; Ignore; Stop; Wait [0]; Service; Service; Service]) =
  [Dispatched Put 1 0; Took MStop; Took (MSentinel 0); Took MStop; WaitRaised [0] Aborted].
Proof. reflexivity. Qed.
(* the hypotheses of C11_stop_aborts and C11_stop_ignored hold in it *)
Example C11_ex_aborts : let ops := [Request Put true; Stop; Ignore; Stop; Wait [0]; Service; Service] in
  c_stack (fst (run c_init ops)) = [FWait [0] [0]] /\
  nth_error (placed_of ops) (length (taken_of (snd (run c_init ops)))) = Some PStop /\
  ~ In PIgnore (skipn (S (length (taken_of (snd (run c_init ops))))) (placed_of ops)).
Proof. repeat split. cbn. intuition discriminate. Qed.
Example C11_ex_ignored : let ops := [Request Put true; Stop; Ignore; Stop; Wait [0]] in
  c_stack (fst (run c_init ops)) = [FWait [0] [0]] /\
  nth_error (placed_of ops) (length (taken_of (snd (run c_init ops)))) = Some PStop /\
  In PIgnore (skipn (S (length (taken_of (snd (run c_init ops))))) (placed_of ops)).
Proof. repeat split. cbn. auto. Qed.

(* ---------------- C43 ---------------- *)
Lemma when_off cond last vs : when_run cond (mkW false last) vs = map (fun _ => (false, false)) vs.
Proof. induction vs as [|y l IH]; cbn [when_run map]; [reflexivity|]. unfold when_call. cbn [w_armed]. now rewrite IH. Qed.
(* Waiting for a value: nothing happens up to the first value that is good or bad, which ends the
   subscription, and raises if it is bad; whatever comes later is ignored *)
Theorem C43_first_decides cond last before v after :
  (forall x, In x before -> cond x = Some false) -> cond v <> Some false ->
  when_run cond (mkW true last) (before ++ v :: after) =
  map (fun _ => (false, false)) before ++
  (true, match cond v with None => true | _ => false end) :: map (fun _ => (false, false)) after.
Proof.
  revert last. induction before as [|x r IH]; intros last Hb Hv; cbn [app when_run map].
  - unfold when_call. cbn [w_armed]. destruct (cond v) as [[|]|] eqn:E; [| congruence |].
    + f_equal. apply when_off.
    + f_equal. apply when_off.
  - unfold when_call. cbn [w_armed]. rewrite (Hb x) by now left. f_equal. apply IH; [|exact Hv]. intros y Hy. apply Hb. now right.
Qed.
Print Assumptions C43_first_decides.
(* and without one it goes on for ever *)
Theorem C43_no_match cond last vs : (forall x, In x vs -> cond x = Some false) ->
  when_run cond (mkW true last) vs = map (fun _ => (false, false)) vs.
Proof.
  revert last. induction vs as [|x r IH]; intros last H; cbn [when_run map]; [reflexivity|].
  unfold when_call. cbn [w_armed]. rewrite (H x) by now left. f_equal. apply IH. intros y Hy. apply H. now right.
Qed.
Print Assumptions C43_no_match.
(* For a value to compare with: bad values raise, even the good one if it is among them *)
Theorem C43_equals good bad v :
  (equals good bad v = None <-> In v bad) /\ (equals good bad v = Some true <-> ~ In v bad /\ v = good).
Proof.
  unfold equals. destruct (nin v bad) eqn:E.
  - apply nin_In in E. split; split; intros H; auto; try discriminate. destruct H. contradiction.
  - assert (Hn : ~ In v bad) by (rewrite <- nin_In; congruence). split; split; intros H; try discriminate; try contradiction.
    + injection H as H. apply Nat.eqb_eq in H. auto.
    + destruct H as [_ ->]. now rewrite Nat.eqb_refl.
Qed.
Print Assumptions C43_equals.
Example C43_ex : when_run (equals 3 [9]) (mkW true None) [0; 3; 9; 3] =
  [(false, false); (true, false); (false, false); (false, false)] /\
  when_run (equals 3 [9]) (mkW true None) [0; 9; 3] = [(false, false); (true, true); (false, false)].
Proof. split; reflexivity. Qed.

(* ---------------- C44 ---------------- *)
Definition subs_ok (c : ctx) (ev : list event) : Prop :=
  NoDup (map fst (c_subs c)) /\
  (forall id, nmem id (c_subs c) = true <-> In id (subscribed_of ev) /\ ~ In id (unsubscribed_of ev)) /\
  (forall id, In id (subscribed_of ev) -> id < c_next c) /\ incl (unsubscribed_of ev) (subscribed_of ev) /\
  NoDup (unsubscribed_of ev).
Lemma subs_quiet c ev c' e : subs_ok c ev -> c_subs c' = c_subs c -> c_next c' = c_next c ->
  subscribed_of e = [] -> unsubscribed_of e = [] -> subs_ok c' (ev ++ e).
Proof.
  intros H E1 E2 E3 E4. unfold subs_ok, subscribed_of, unsubscribed_of in *. rewrite !flat_map_app, E3, E4, !app_nil_r, E1, E2. exact H.
Qed.
Lemma resume_subs c fr below : let r := resume c fr below in
  c_subs (fst r) = c_subs c /\ c_next (fst r) = c_next c /\ subscribed_of (snd r) = [] /\ unsubscribed_of (snd r) = [] /\ called_of (snd r) = [].
Proof. destruct fr as [a [|x t]| |]; repeat split. Qed.
Lemma leave_subs c fr below e : let r := leave c fr below e in
  c_subs (fst r) = c_subs c /\ c_next (fst r) = c_next c /\ subscribed_of (snd r) = [] /\ unsubscribed_of (snd r) = [] /\ called_of (snd r) = [].
Proof. destruct fr as [a [|x t]| |]; repeat split. Qed.
Lemma service_subs c fr below m : let r := service c fr below m in
  c_subs (fst r) = c_subs c /\ c_next (fst r) = c_next c /\ subscribed_of (snd r) = [] /\ unsubscribed_of (snd r) = [] /\
  called_of (snd r) = match m with MUpdate id v => if nmem id (c_subs c) then [(id, v)] else [] | _ => [] end.
Proof.
  destruct m as [id v|id e|id v| |t]; cbn [service]; unfold resolve.
  - destruct (nget id (c_futures c)) as [f|]; [|apply leave_subs].
    match goal with |- context [resume ?a ?b below] => pose proof (resume_subs a b below) as R; destruct (resume a b below) as [c'' o] end.
    exact R.
  - destruct (nget id (c_futures c)) as [f|]; [|apply leave_subs]. destruct (nin f (todo_of fr)).
    + match goal with |- context [leave ?a ?b below ?d] => pose proof (leave_subs a b below d) as R; destruct (leave a b below d) as [c'' o] end. exact R.
    + match goal with |- context [resume ?a ?b below] => pose proof (resume_subs a b below) as R; destruct (resume a b below) as [c'' o] end. exact R.
  - destruct (nmem id (c_subs c)); [repeat split|apply resume_subs].
  - destruct (c_sentinel c); [apply resume_subs|apply leave_subs].
  - destruct (c_sentinel c) as [t'|]; [destruct (Nat.eqb t t')|].
    + exact (resume_subs (upd_sentinel c None) fr below).
    + apply resume_subs.
    + apply resume_subs.
Qed.
Lemma subs_step c ev o : core c ev -> subs_ok c ev -> subs_ok (fst (step c o)) (ev ++ snd (step c o)) /\
  called_of (snd (step c o)) = flat_map (fun m => match m with MUpdate id v => if nmem id (c_subs c) then [(id, v)] else [] | _ => [] end) (taken_of (snd (step c o))).
Proof.
  intros K S. rewrite taken_step.
  assert (Id : subs_ok c (ev ++ [])) by (apply (subs_quiet c); auto).
  destruct o; cbn [step].
  - destruct (match c_stack c with FWait _ _ :: _ | FSleep :: _ => false | _ => true end); [|auto].
    unfold request. cbn [fst snd]. split; [|destruct there; reflexivity]. destruct S as (Nd & S1 & S2 & S3 & S4).
    assert (Hun : unsubscribed_of (ev ++ [if there then Dispatched k (c_next c) (c_made c) else NoController k (c_next c) (c_made c)]) = unsubscribed_of ev).
    { unfold unsubscribed_of. rewrite flat_map_app. destruct there; apply app_nil_r. }
    assert (Hsu : subscribed_of (ev ++ [if there then Dispatched k (c_next c) (c_made c) else NoController k (c_next c) (c_made c)]) =
                  subscribed_of ev ++ match k with Subscribe => [c_next c] | _ => [] end).
    { unfold subscribed_of. rewrite flat_map_app. destruct there, k; reflexivity. }
    unfold subs_ok. rewrite Hun, Hsu. cbn [c_subs c_next]. destruct k; rewrite ?app_nil_r.
    + split; [exact Nd|]. split; [exact S1|]. split; [|split; assumption]. intros id Hi. apply S2 in Hi. lia.
    + split; [exact Nd|]. split; [exact S1|]. split; [|split; assumption]. intros id Hi. apply S2 in Hi. lia.
    + split; [now apply nset_nodup|]. split; [|split; [|split; [|exact S4]]].
      * intros id. rewrite nmem_iff, in_app_iff. cbn [In]. destruct (Nat.eq_dec id (c_next c)) as [->|N].
        -- rewrite nget_nset_same. split; [|eauto]. intros _. split; [auto|]. intros Hx. apply S3, S2 in Hx. lia.
        -- rewrite nget_nset_other by exact N. rewrite <- nmem_iff, S1. intuition congruence.
      * intros id Hi. apply in_app_or in Hi as [Hi|[<-|[]]]; [apply S2 in Hi|]; lia.
      * intros id Hi. apply in_or_app. left. now apply S3.
  - destruct (match c_stack c with FWait _ _ :: _ | FSleep :: _ => false | _ => true end); [|auto].
    unfold unsubscribe. destruct (nmem f (c_pending c)); [split; [now apply (subs_quiet c)|reflexivity]|].
    destruct (nget f (c_requests c)) as [[k id]|]; [|split; [now apply (subs_quiet c)|reflexivity]].
    destruct (nmem id (c_subs c)) eqn:Em; [|split; [now apply (subs_quiet c)|reflexivity]].
    cbn [fst snd]. split; [|destruct there; reflexivity]. destruct S as (Nd & S1 & S2 & S3 & S4).
    destruct (proj1 (S1 id) Em) as [Hi Hu].
    assert (Hsu : subscribed_of (ev ++ [if there then UnsubSent id else UnsubGone id]) = subscribed_of ev).
    { unfold subscribed_of. rewrite flat_map_app. destruct there; apply app_nil_r. }
    assert (Hun : unsubscribed_of (ev ++ [if there then UnsubSent id else UnsubGone id]) = unsubscribed_of ev ++ [id]).
    { unfold unsubscribed_of. rewrite flat_map_app. destruct there; reflexivity. }
    unfold subs_ok. rewrite Hsu, Hun. cbn [c_subs c_next]. split; [now apply npop_nodup|]. split; [|split; [exact S2|split]].
    + intros x. rewrite nmem_iff, in_app_iff. cbn [In]. destruct (Nat.eq_dec x id) as [->|N].
      * rewrite nget_npop_same by exact Nd. split; [intros (v & Hv); discriminate|]. intuition.
      * rewrite nget_npop_other by exact N. rewrite <- nmem_iff, S1. intuition congruence.
    + intros x Hx. apply in_app_or in Hx as [Hx|[<-|[]]]; auto.
    + now apply NoDup_snoc.
  - split; [now apply (subs_quiet c)|reflexivity].
  - split; [now apply (subs_quiet c)|reflexivity].
  - destruct m; (split; [now apply (subs_quiet c)|reflexivity]).
  - destruct (_ && _); [|auto]. destruct (not_done (c_state c) fs) as [e|[|x l]]; (split; [now apply (subs_quiet c)|reflexivity]).
  - destruct (match c_stack c with FWait _ _ :: _ | FSleep :: _ => false | _ => true end); (split; [now apply (subs_quiet c)|reflexivity]).
  - destruct (c_stack c) as [|[a t| |] below]; try (split; [exact Id|reflexivity]); (destruct (c_q c) as [|m q]; [split; [exact Id|reflexivity]|]).
    + pose proof (service_subs (upd_q c q) (FWait a t) below m) as (A & B & C & D & E).
      destruct (service (upd_q c q) (FWait a t) below m) as [c' o]. cbn [fst snd] in *. split; [now apply (subs_quiet c)|].
      cbn [flat_map]. rewrite app_nil_r. exact E.
    + pose proof (service_subs (upd_q c q) FSleep below m) as (A & B & C & D & E).
      destruct (service (upd_q c q) FSleep below m) as [c' o]. cbn [fst snd] in *. split; [now apply (subs_quiet c)|].
      cbn [flat_map]. rewrite app_nil_r. exact E.
  - destruct (c_stack c) as [|[a t| |] below]; try (split; [exact Id|reflexivity]); (destruct (c_q c) as [|m q]; (split; [now apply (subs_quiet c)|reflexivity])).
  - destruct (c_stack c) as [|[a t| |] [|fr below]]; try (split; [exact Id|reflexivity]).
    destruct (resume_subs c (filtered c fr) below) as (A & B & C & D & E). split; [now apply (subs_quiet c)|exact E].
  - destruct (c_stack c) as [|[a t| |] [|fr below]]; try (split; [exact Id|reflexivity]).
    destruct (leave_subs c fr below (Callback n)) as (A & B & C & D & E). split; [now apply (subs_quiet c)|exact E].
Qed.
Lemma subs_run ops : subs_ok (fst (run c_init ops)) (snd (run c_init ops)).
Proof.
  induction ops as [|o r IH] using rev_ind.
  - split; [constructor|]. split; [intros id; cbn; split; [discriminate|intros [[] _]]|]. split; [intros id []|]. split; [intros id []|constructor].
  - rewrite run_snoc. cbn [fst snd]. apply subs_step; [apply core_run|exact IH].
Qed.
(* A callback is called for each update taken for its subscription, with the value, while the
   subscription has not been ended, and for nothing else; so never after unsubscribe *)
Theorem C44_callbacks ops o : let ev := snd (run c_init ops) in let e := snd (step (fst (run c_init ops)) o) in
  forall id v, called_of e = [(id, v)] <->
    taken_of e = [MUpdate id v] /\ In id (subscribed_of ev) /\ ~ In id (unsubscribed_of ev).
Proof.
  intros ev e id v. destruct (subs_step _ _ o (core_run ops) (subs_run ops)) as [_ H]. fold e in H. rewrite H.
  destruct (subs_run ops) as (_ & S1 & _). fold ev in S1. specialize (S1 id).
  assert (T : taken_of e = [] \/ exists m, taken_of e = [m]).
  { unfold e. rewrite taken_step. destruct o; auto. destruct (c_stack (fst (run c_init ops))) as [|[a t| |] below]; auto; destruct (c_q (fst (run c_init ops))); eauto. }
  destruct T as [-> | (m & ->)]; cbn [flat_map app].
  - split; [discriminate|]. intros [? _]. discriminate.
  - rewrite app_nil_r. destruct m as [i x|i x|i x| |t]; try (split; [discriminate|intros [? _]; discriminate]).
    destruct (nmem i (c_subs (fst (run c_init ops)))) eqn:Em.
    + split.
      * intros E. injection E as -> ->. split; [reflexivity|]. now apply S1.
      * intros [E _]. injection E as -> ->. reflexivity.
    + split; [discriminate|]. intros [E Hx]. injection E as -> ->. apply S1 in Hx. congruence.
Qed.
Print Assumptions C44_callbacks.
(* a subscription is ended at most once *)
Theorem C44_unsubscribed_once ops : NoDup (unsubscribed_of (snd (run c_init ops))) /\
  incl (unsubscribed_of (snd (run c_init ops))) (subscribed_of (snd (run c_init ops))).
Proof. destruct (subs_run ops) as (_ & _ & _ & A & B). auto. Qed.
Print Assumptions C44_unsubscribed_once.
Example C44_ex : snd (run c_init [Request Subscribe true; Request Put true; Arrive (MUpdate 1 5); Wait [1]; Service; Unsub 0 true; CallReturn;
    Arrive (MUpdate 1 6); Arrive (MReturn 2 0); Service; Service]) =
  [Dispatched Subscribe 1 0; Dispatched Put 2 1; Took (MUpdate 1 5); Called 1 5; UnsubSent 1; Took (MUpdate 1 6);
   Took (MReturn 2 0); Resolved 1 (Result 0); WaitDone [1]].
Proof. reflexivity. Qed.
