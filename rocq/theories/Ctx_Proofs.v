From Coq Require Import Bool Arith Lia List.
From Verif Require Import Ctx_Model Ctx_Spec.
Import ListNotations.

(* ---------------- dicts ---------------- *)
Section ND.
Context {A : Type}.
Implicit Types (d : ndict A).
Lemma nget_nset_same k v d : nget k (nset k v d) = Some v.
Proof.
  induction d as [|[k' v'] r IH]; cbn [nset nget]; [now rewrite Nat.eqb_refl|].
  destruct (Nat.eqb_spec k k') as [->|H]; cbn [nget].
  - now rewrite Nat.eqb_refl.
  - destruct (Nat.eqb_spec k k'); [contradiction|exact IH].
Qed.
Lemma nget_nset_other k k' v d : k' <> k -> nget k' (nset k v d) = nget k' d.
Proof.
  intros H. induction d as [|[a b] r IH]; cbn [nset nget].
  - destruct (Nat.eqb_spec k' k); [contradiction|reflexivity].
  - destruct (Nat.eqb_spec k a) as [->|Ha]; cbn [nget].
    + destruct (Nat.eqb_spec k' a); [contradiction|reflexivity].
    + now rewrite IH.
Qed.
Lemma nset_keys k v d : forall x, In x (map fst (nset k v d)) <-> x = k \/ In x (map fst d).
Proof.
  intros x. induction d as [|[a b] r IH]; cbn [nset map fst In].
  - intuition.
  - destruct (Nat.eqb_spec k a) as [->|Ha]; cbn [map fst In]; [intuition|]. rewrite IH. intuition.
Qed.
Lemma nset_nodup k v d : NoDup (map fst d) -> NoDup (map fst (nset k v d)).
Proof.
  induction d as [|[a b] r IH]; cbn [nset map fst]; intros H.
  - repeat constructor. intros [].
  - inversion H; subst. destruct (Nat.eqb_spec k a) as [->|Ha]; cbn [map fst]; [exact H|].
    constructor; [|auto]. rewrite nset_keys. intros [->|Hi]; auto.
Qed.
Lemma nget_notin k d : ~ In k (map fst d) -> nget k d = None.
Proof.
  induction d as [|[a b] r IH]; cbn [nget map fst In]; intros H; [reflexivity|].
  destruct (Nat.eqb_spec k a) as [->|Ha]; [exfalso; auto|]. apply IH. auto.
Qed.
Lemma nget_npop_same k d : NoDup (map fst d) -> nget k (npop k d) = None.
Proof.
  induction d as [|[a b] r IH]; cbn [npop map fst]; intros H; [reflexivity|].
  inversion H; subst. destruct (Nat.eqb_spec k a) as [->|Ha].
  - now apply nget_notin.
  - cbn [nget]. destruct (Nat.eqb_spec k a); [contradiction|auto].
Qed.
Lemma nget_npop_other k k' d : k' <> k -> nget k' (npop k d) = nget k' d.
Proof.
  intros H. induction d as [|[a b] r IH]; cbn [npop nget]; [reflexivity|].
  destruct (Nat.eqb_spec k a) as [->|Ha]; cbn [nget].
  - destruct (Nat.eqb_spec k' a); [contradiction|reflexivity].
  - now rewrite IH.
Qed.
Lemma npop_keys k d x : In x (map fst (npop k d)) -> In x (map fst d).
Proof.
  induction d as [|[a b] r IH]; cbn [npop map fst In]; [tauto|].
  destruct (Nat.eqb k a); cbn [map fst In]; tauto.
Qed.
Lemma npop_nodup k d : NoDup (map fst d) -> NoDup (map fst (npop k d)).
Proof.
  induction d as [|[a b] r IH]; cbn [npop map fst]; intros H; [exact H|].
  inversion H; subst. destruct (Nat.eqb k a); cbn [map fst]; [assumption|].
  constructor; [|auto]. intros Hi. apply npop_keys in Hi. auto.
Qed.
Lemma nmem_iff k d : nmem k d = true <-> exists v, nget k d = Some v.
Proof. unfold nmem. destruct (nget k d); split; intros H; eauto; [discriminate|destruct H; discriminate]. Qed.
End ND.

Lemma nin_In k l : nin k l = true <-> In k l.
Proof.
  unfold nin. rewrite existsb_exists. split.
  - intros (x & Hi & He). apply Nat.eqb_eq in He. now subst.
  - intros Hi. exists k. split; [exact Hi|apply Nat.eqb_refl].
Qed.
Lemma rem1_incl k l : incl (rem1 k l) l.
Proof.
  induction l as [|x r IH]; cbn [rem1]; [apply incl_refl|]. destruct (Nat.eqb k x).
  - apply incl_tl, incl_refl.
  - intros y [<-|Hy]; [now left|right; auto].
Qed.
Lemma rem1_other k l x : x <> k -> In x l -> In x (rem1 k l).
Proof.
  intros H. induction l as [|y r IH]; cbn [rem1 In]; [tauto|]. intros [<-|Hi].
  - destruct (Nat.eqb_spec k y); [congruence|now left].
  - destruct (Nat.eqb k y); [exact Hi|right; auto].
Qed.
Lemma rem1_nodup k l : NoDup l -> NoDup (rem1 k l) /\ ~ In k (rem1 k l).
Proof.
  induction 1 as [|x l Hx Hl IH]; cbn [rem1]; [split; [constructor|tauto]|].
  destruct (Nat.eqb_spec k x) as [->|Hk]; [split; assumption|]. destruct IH as [A B]. split.
  - constructor; [|exact A]. intros Hi. apply Hx. now apply (rem1_incl k).
  - intros [->|Hi]; auto.
Qed.
Lemma sweep_incl keep n : forall i l, incl (sweep n i keep l) l.
Proof.
  induction n as [|n IH]; intros i l; cbn [sweep]; [apply incl_refl|].
  destruct (nth_error l i); [|apply incl_refl]. destruct (keep n0); [apply IH|].
  eapply incl_tran; [apply IH|apply rem1_incl].
Qed.
Lemma sweep_keeps keep n x : keep x = true -> forall i l, In x l -> In x (sweep n i keep l).
Proof.
  intros Hk. induction n as [|n IH]; intros i l Hi; cbn [sweep]; [exact Hi|].
  destruct (nth_error l i) as [y|]; [|exact Hi]. destruct (keep y) eqn:E; [auto|].
  apply IH. apply rem1_other; [congruence|exact Hi].
Qed.
Lemma sweep_id keep n : forall i l, (forall x, In x l -> keep x = true) -> sweep n i keep l = l.
Proof.
  induction n as [|n IH]; intros i l H; cbn [sweep]; [reflexivity|].
  destruct (nth_error l i) as [y|] eqn:E; [|reflexivity]. rewrite H by (eapply nth_error_In; eauto). auto.
Qed.

Lemma NoDup_snoc {A} (l : list A) x : NoDup l -> ~ In x l -> NoDup (l ++ [x]).
Proof.
  induction 1 as [|y l Hy Hl IH]; intros Hx; cbn [app].
  - repeat constructor. intros [].
  - constructor; [|apply IH; intros Hi; apply Hx; now right].
    rewrite in_app_iff. intros [Hi|[->|[]]]; [auto|]. apply Hx. now left.
Qed.

(* ---------------- events ---------------- *)
Definition quiet (e : list event) : Prop := made_of e = [] /\ resolved_of e = [].
Lemma made_app a b : made_of (a ++ b) = made_of a ++ made_of b.
Proof. apply flat_map_app. Qed.
Lemma resolved_app a b : resolved_of (a ++ b) = resolved_of a ++ resolved_of b.
Proof. apply flat_map_app. Qed.
Lemma taken_app a b : taken_of (a ++ b) = taken_of a ++ taken_of b.
Proof. apply flat_map_app. Qed.
Lemma placed_app a b : placed_of (a ++ b) = placed_of a ++ placed_of b.
Proof. apply flat_map_app. Qed.
Lemma run_app c a b : run c (a ++ b) =
  (fst (run (fst (run c a)) b), snd (run c a) ++ snd (run (fst (run c a)) b)).
Proof.
  revert c. induction a as [|o r IH]; intros c; cbn [app run].
  - cbn [fst snd app]. now destruct (run c b).
  - destruct (step c o) as [c1 e1]. rewrite IH. destruct (run c1 r) as [c2 e2]. cbn [fst snd].
    now rewrite app_assoc.
Qed.
Lemma run_snoc c a o : run c (a ++ [o]) =
  (fst (step (fst (run c a)) o), snd (run c a) ++ snd (step (fst (run c a)) o)).
Proof.
  rewrite run_app. cbn [run]. destruct (step (fst (run c a)) o) as [c1 e1]. cbn [fst snd].
  now rewrite app_nil_r.
Qed.

(* ---------------- requests and futures ---------------- *)
Record core (c : ctx) (ev : list event) : Prop := {
  k_next : c_next c = S (c_made c);
  k_log : made_of ev = map (fun f => (S f, f)) (seq 0 (c_made c));
  k_known : forall f, nget f (c_state c) = None <-> c_made c <= f;
  k_fut : forall id f, nget id (c_futures c) = Some f <-> id = S f /\ nget f (c_state c) = Some Running;
  k_req : forall f, nmem f (c_requests c) = true <-> nget f (c_state c) = Some Running;
  k_reqid : forall f k id, nget f (c_requests c) = Some (k, id) -> id = S f;
  k_res : forall f s, In (f, s) (resolved_of ev) <-> nget f (c_state c) = Some s /\ s <> Running;
  k_once : NoDup (map fst (resolved_of ev));
  k_nd1 : NoDup (map fst (c_futures c));
  k_nd2 : NoDup (map fst (c_requests c))
}.
Lemma core_quiet c ev c' e : core c ev -> quiet e ->
  c_next c' = c_next c -> c_made c' = c_made c -> c_state c' = c_state c ->
  c_futures c' = c_futures c -> c_requests c' = c_requests c -> core c' (ev ++ e).
Proof.
  intros [] [Hm Hr] H1 H2 H3 H4 H5. constructor; rewrite ?H1, ?H2, ?H3, ?H4, ?H5, ?made_app, ?resolved_app, ?Hm, ?Hr, ?app_nil_r; assumption.
Qed.
Lemma core_request c ev k there : core c ev ->
  core (fst (request c k there)) (ev ++ snd (request c k there)).
Proof.
  intros K. pose proof K as []. unfold request. cbn [fst snd].
  assert (Hnew : nget (c_made c) (c_state c) = None) by (apply k_known0; lia).
  constructor; cbn [c_next c_made c_state c_futures c_requests].
  - lia.
  - rewrite made_app, k_log0, seq_S, map_app. f_equal. rewrite k_next0. destruct there; reflexivity.
  - intros f. destruct (Nat.eq_dec f (c_made c)) as [->|Hf].
    + rewrite nget_nset_same. split; [discriminate|lia].
    + rewrite nget_nset_other by exact Hf. rewrite k_known0. lia.
  - intros id f. rewrite k_next0. destruct (Nat.eq_dec id (S (c_made c))) as [->|Hi].
    + rewrite nget_nset_same. split.
      * intros H. injection H as <-. now rewrite nget_nset_same.
      * intros [H _]. injection H as <-. reflexivity.
    + rewrite nget_nset_other by exact Hi. rewrite k_fut0. split; intros [-> H].
      * rewrite nget_nset_other by lia. auto.
      * rewrite nget_nset_other in H by lia. auto.
  - intros f. destruct (Nat.eq_dec f (c_made c)) as [->|Hf].
    + rewrite nmem_iff, !nget_nset_same. split; eauto.
    + rewrite nmem_iff, !nget_nset_other by exact Hf. rewrite <- nmem_iff. apply k_req0.
  - intros f k' id. destruct (Nat.eq_dec f (c_made c)) as [->|Hf].
    + rewrite nget_nset_same. intros H. injection H as <- <-. exact k_next0.
    + rewrite nget_nset_other by exact Hf. apply k_reqid0.
  - intros f s. assert (Hr : resolved_of (ev ++ [if there then Dispatched k (c_next c) (c_made c) else NoController k (c_next c) (c_made c)]) = resolved_of ev).
    { rewrite resolved_app. destruct there; apply app_nil_r. }
    rewrite Hr, k_res0. destruct (Nat.eq_dec f (c_made c)) as [->|Hf].
    + rewrite nget_nset_same, Hnew. split; intros [H1 H2]; [discriminate|congruence].
    + now rewrite nget_nset_other by exact Hf.
  - rewrite resolved_app. destruct there; cbn; rewrite app_nil_r; exact k_once0.
  - now apply nset_nodup.
  - now apply nset_nodup.
Qed.
Lemma core_resolve c ev id s c' f : core c ev -> s <> Running -> resolve c id s = Some (c', f) ->
  core c' (ev ++ [Resolved f s]) /\ id = S f /\ nget f (c_state c) = Some Running /\
  c_state c' = nset f s (c_state c).
Proof.
  intros K Hs H. pose proof K as []. unfold resolve in H. destruct (nget id (c_futures c)) as [g|] eqn:E; [|discriminate].
  assert (g = f) by congruence. subst g. injection H as <-.
  destruct (proj1 (k_fut0 id f) E) as [-> Hrun].
  split; [|cbn [c_state]; auto].
  constructor; cbn [c_next c_made c_state c_futures c_requests].
  - exact k_next0.
  - rewrite made_app, k_log0. apply app_nil_r.
  - intros x. destruct (Nat.eq_dec x f) as [->|Hx].
    + rewrite nget_nset_same, <- k_known0, Hrun. split; discriminate.
    + rewrite nget_nset_other by exact Hx. apply k_known0.
  - intros i x. destruct (Nat.eq_dec i (S f)) as [->|Hi].
    + rewrite nget_npop_same by exact k_nd3. split; [discriminate|]. intros [A B].
      injection A as <-. rewrite nget_nset_same in B. congruence.
    + rewrite nget_npop_other by exact Hi. rewrite k_fut0. split; intros [-> A].
      * rewrite nget_nset_other by lia. auto.
      * rewrite nget_nset_other in A by lia. auto.
  - intros x. destruct (Nat.eq_dec x f) as [->|Hx].
    + rewrite nmem_iff, nget_npop_same, nget_nset_same by exact k_nd4. split; [intros (v & Hv); discriminate|congruence].
    + rewrite nmem_iff, nget_npop_other, nget_nset_other, <- nmem_iff by exact Hx. apply k_req0.
  - intros x k i. destruct (Nat.eq_dec x f) as [->|Hx].
    + rewrite nget_npop_same by exact k_nd4. discriminate.
    + rewrite nget_npop_other by exact Hx. apply k_reqid0.
  - intros x t. rewrite resolved_app, in_app_iff, k_res0. cbn [resolved_of flat_map app In].
    destruct (Nat.eq_dec x f) as [->|Hx].
    + rewrite nget_nset_same, Hrun. split.
      * intros [[A B]|[A|[]]]; [congruence|]. injection A as <-. auto.
      * intros [A B]. injection A as <-. auto.
    + rewrite nget_nset_other by exact Hx. split; [intros [A|[A|[]]]; [exact A|congruence]|auto].
  - rewrite resolved_app, map_app. cbn [resolved_of flat_map app map fst].
    apply NoDup_snoc; [exact k_once0|]. intros Hi. apply in_map_iff in Hi as ([g t] & <- & Hi).
    apply k_res0 in Hi as [A B]. cbn [fst] in *. congruence.
  - now apply npop_nodup.
  - now apply npop_nodup.
Qed.

(* frames *)
Lemma resume_quiet c fr below : quiet (snd (resume c fr below)).
Proof. destruct fr as [a [|x t]| |]; split; reflexivity. Qed.
Lemma leave_quiet c fr below e : quiet (snd (leave c fr below e)).
Proof. destruct fr as [a t| |]; split; reflexivity. Qed.
Lemma resume_same c fr below : let c' := fst (resume c fr below) in
  c_next c' = c_next c /\ c_made c' = c_made c /\ c_state c' = c_state c /\
  c_futures c' = c_futures c /\ c_requests c' = c_requests c /\ c_q c' = c_q c /\
  c_sentinel c' = c_sentinel c /\ c_tokens c' = c_tokens c /\ c_subs c' = c_subs c.
Proof. destruct fr as [a [|x t]| |]; cbn; repeat split. Qed.

Lemma core_service c ev fr below m : core c ev ->
  core (fst (service c fr below m)) (ev ++ snd (service c fr below m)).
Proof.
  intros K.
  assert (Hres : forall c0 ev0 fr0, core c0 ev0 -> core (fst (resume c0 fr0 below)) (ev0 ++ snd (resume c0 fr0 below))).
  { intros c0 ev0 fr0 K0. pose proof (resume_same c0 fr0 below) as (H1 & H2 & H3 & H4 & H5 & _).
    apply (core_quiet c0); auto. apply resume_quiet. }
  assert (Hlv : forall c0 ev0 e, core c0 ev0 -> core (fst (leave c0 fr below e)) (ev0 ++ snd (leave c0 fr below e))).
  { intros c0 ev0 e K0. apply (core_quiet c0); auto. apply leave_quiet. }
  destruct m as [id v|id e|id v| |t]; cbn [service].
  - destruct (resolve c id (Result v)) as [[c' f]|] eqn:E; [|now apply Hlv].
    assert (Hn : Result v <> Running) by discriminate.
    destruct (core_resolve _ _ _ _ _ _ K Hn E) as [K' _].
    specialize (Hres c' _ (set_todo fr (rem1 f (todo_of fr))) K').
    destruct (resume c' _ below) as [c'' o]. cbn [fst snd] in *. now rewrite <- app_assoc in Hres.
  - destruct (resolve c id (Failed e)) as [[c' f]|] eqn:E; [|now apply Hlv].
    assert (Hn : Failed e <> Running) by discriminate.
    destruct (core_resolve _ _ _ _ _ _ K Hn E) as [K' _].
    destruct (nin f (todo_of fr)).
    + specialize (Hlv c' _ (Remote e) K'). destruct (leave c' fr below _) as [c'' o]. cbn [fst snd] in *.
      now rewrite <- app_assoc in Hlv.
    + specialize (Hres c' _ fr K'). destruct (resume c' _ below) as [c'' o]. cbn [fst snd] in *.
      now rewrite <- app_assoc in Hres.
  - destruct (nmem id (c_subs c)); [|now apply Hres]. cbn [fst snd]. apply (core_quiet c); auto. split; reflexivity.
  - destruct (c_sentinel c); [now apply Hres|now apply Hlv].
  - destruct (c_sentinel c) as [t'|]; [|now apply Hres]. destruct (Nat.eqb t t'); [|now apply Hres].
    apply Hres. rewrite <- (app_nil_r ev). apply (core_quiet c); auto. split; reflexivity.
Qed.
Lemma core_q c ev q : core c ev -> core (upd_q c q) ev.
Proof. intros K. rewrite <- (app_nil_r ev). apply (core_quiet c); auto. split; reflexivity. Qed.
Lemma core_step c ev o : core c ev -> core (fst (step c o)) (ev ++ snd (step c o)).
Proof.
  intros K. assert (K0 : core c (ev ++ [])) by (now rewrite app_nil_r).
  assert (Q : forall c' e, quiet e -> c_next c' = c_next c -> c_made c' = c_made c -> c_state c' = c_state c ->
    c_futures c' = c_futures c -> c_requests c' = c_requests c -> core c' (ev ++ e)) by (intros; now apply (core_quiet c)).
  destruct o; cbn [step].
  - destruct (match c_stack c with FWait _ _ :: _ | FSleep :: _ => false | _ => true end); [|exact K0].
    now apply core_request.
  - destruct (match c_stack c with FWait _ _ :: _ | FSleep :: _ => false | _ => true end); [|exact K0].
    unfold unsubscribe. destruct (nmem f (c_pending c)); [apply Q; auto; split; reflexivity|].
    destruct (nget f (c_requests c)) as [[k id]|]; [|apply Q; auto; split; reflexivity].
    destruct (nmem id (c_subs c)); apply Q; auto; destruct there; split; reflexivity.
  - apply Q; auto. split; reflexivity.
  - apply Q; auto. split; reflexivity.
  - destruct m; apply Q; auto; split; reflexivity.
  - destruct (_ && _); [|exact K0]. destruct (not_done (c_state c) fs) as [e|[|x l]]; apply Q; auto; split; reflexivity.
  - destruct (match c_stack c with FWait _ _ :: _ | FSleep :: _ => false | _ => true end); apply Q; auto; split; reflexivity.
  - assert (G : forall fr below m q,
      core (fst (let (c', o) := service (upd_q c q) fr below m in (c', Took m :: o)))
           (ev ++ snd (let (c', o) := service (upd_q c q) fr below m in (c', Took m :: o)))).
    { intros fr below m q. pose proof (core_service (upd_q c q) (ev ++ [Took m]) fr below m) as G.
      destruct (service (upd_q c q) fr below m) as [c' o]. cbn [fst snd] in *.
      rewrite <- app_assoc in G. apply G. apply (core_quiet c); auto. split; reflexivity. }
    destruct (c_stack c) as [|[a t| |] below]; try exact K0; destruct (c_q c) as [|m q]; try exact K0; apply G.
  - destruct (c_stack c) as [|[a t| |] below]; try exact K0; destruct (c_q c) as [|m q]; try exact K0;
      apply Q; auto; split; reflexivity.
  - destruct (c_stack c) as [|[a t| |] [|fr below]]; try exact K0.
    pose proof (resume_same c (filtered c fr) below) as (H1 & H2 & H3 & H4 & H5 & _). apply Q; auto. apply resume_quiet.
  - destruct (c_stack c) as [|[a t| |] [|fr below]]; try exact K0. apply Q; auto. apply leave_quiet.
Qed.
Lemma core_init : core c_init [].
Proof.
  constructor; cbn; auto; try constructor; try tauto; try lia; try discriminate.
  - intros [_ H]. discriminate.
  - intros [H _]. discriminate.
Qed.
Lemma core_run ops : core (fst (run c_init ops)) (snd (run c_init ops)).
Proof.
  induction ops as [|o ops IH] using rev_ind; [apply core_init|]. rewrite run_snoc. cbn [fst snd].
  now apply core_step.
Qed.
