From Coq Require Import Bool Arith Lia List.
From Verif Require Import Ctx_Model Ctx_Spec Ctx_Proofs.
Import ListNotations.

(* ---------------- the queue ---------------- *)
Definition is_sentinel (m : msg) : Prop := exists t, m = MSentinel t.
Record qinv (c : ctx) (ops : list op) (ev : list event) : Prop := {
  q_fifo : Forall2 is_placed (taken_of ev ++ c_q c) (placed_of ops);
  q_old : forall t, In (MSentinel t) (c_q c) -> t < c_tokens c;
  q_sent : match c_sentinel c with
           | None => forall m, In m (c_q c) -> ~ is_sentinel m
           | Some t => exists a b, c_q c = a ++ MSentinel t :: b /\
                         (forall m, In m b -> ~ is_sentinel m) /\ ~ In (MSentinel t) a
           end
}.
Lemma service_same c fr below m : let c' := fst (service c fr below m) in
  c_q c' = c_q c /\ c_tokens c' = c_tokens c /\
  c_sentinel c' = match m with
                  | MSentinel t => match c_sentinel c with
                                   | Some t' => if Nat.eqb t t' then None else Some t'
                                   | None => None end
                  | _ => c_sentinel c end.
Proof.
  assert (Hres : forall c0 fr0, c_q (fst (resume c0 fr0 below)) = c_q c0 /\
    c_tokens (fst (resume c0 fr0 below)) = c_tokens c0 /\ c_sentinel (fst (resume c0 fr0 below)) = c_sentinel c0).
  { intros c0 fr0. pose proof (resume_same c0 fr0 below) as (_ & _ & _ & _ & _ & A & B & C & _). auto. }
  assert (Hr : forall id s c' f, resolve c id s = Some (c', f) -> c_q c' = c_q c /\ c_tokens c' = c_tokens c /\
    c_sentinel c' = c_sentinel c).
  { intros id s c' f H. unfold resolve in H. destruct (nget id (c_futures c)); [|discriminate].
    injection H as <- _. auto. }
  destruct m as [id v|id e|id v| |t]; cbn [service].
  - destruct (resolve c id (Result v)) as [[c' f]|] eqn:E; [|cbn; auto]. apply Hr in E as (A & B & C).
    specialize (Hres c' (set_todo fr (rem1 f (todo_of fr)))). destruct (resume c' _ below) as [c'' o].
    cbn [fst] in *. rewrite <- A, <- B, <- C. exact Hres.
  - destruct (resolve c id (Failed e)) as [[c' f]|] eqn:E; [|cbn; auto]. apply Hr in E as (A & B & C).
    destruct (nin f (todo_of fr)); [cbn; auto|].
    specialize (Hres c' fr). destruct (resume c' fr below) as [c'' o].
    cbn [fst] in *. rewrite <- A, <- B, <- C. exact Hres.
  - destruct (nmem id (c_subs c)); [cbn; auto|apply Hres].
  - destruct (c_sentinel c) eqn:E; [rewrite <- E; apply Hres|cbn; auto].
  - destruct (c_sentinel c) as [t'|] eqn:E.
    + destruct (Nat.eqb t t'); [apply (Hres (upd_sentinel c None))|rewrite <- E; apply Hres].
    + rewrite <- E. apply Hres.
Qed.
Lemma service_takes c fr below m : taken_of (snd (service c fr below m)) = [].
Proof.
  assert (Hres : forall c0 fr0, taken_of (snd (resume c0 fr0 below)) = [])
    by (intros c0 [a [|x t]| |]; reflexivity).
  destruct m as [id v|id e|id v| |t]; cbn [service].
  - destruct (resolve c id (Result v)) as [[c' f]|]; [|destruct fr; reflexivity].
    specialize (Hres c' (set_todo fr (rem1 f (todo_of fr)))). destruct (resume c' _ below) as [c'' o]. exact Hres.
  - destruct (resolve c id (Failed e)) as [[c' f]|]; [|destruct fr; reflexivity].
    destruct (nin f (todo_of fr)); [destruct fr; reflexivity|].
    specialize (Hres c' fr). destruct (resume c' _ below) as [c'' o]. exact Hres.
  - destruct (nmem id (c_subs c)); [reflexivity|apply Hres].
  - destruct (c_sentinel c); [apply Hres|destruct fr; reflexivity].
  - destruct (c_sentinel c) as [t'|]; [destruct (Nat.eqb t t'); apply Hres|apply Hres].
Qed.
Lemma qinv_same c ops ev c' o e : qinv c ops ev -> placed_of [o] = [] -> taken_of e = [] ->
  c_q c' = c_q c -> c_tokens c' = c_tokens c -> c_sentinel c' = c_sentinel c -> qinv c' (ops ++ [o]) (ev ++ e).
Proof.
  intros [] Hp Ht H1 H2 H3. constructor; rewrite ?H1, ?H2, ?H3, ?taken_app, ?placed_app, ?Hp, ?Ht, ?app_nil_r; assumption.
Qed.
Lemma qinv_put c ops ev c' o m : qinv c ops ev -> (exists p, placed_of [o] = [p] /\ is_placed m p) ->
  c_q c' = c_q c ++ [m] -> c_tokens c' = c_tokens c -> c_sentinel c' = c_sentinel c -> ~ is_sentinel m ->
  qinv c' (ops ++ [o]) (ev ++ []).
Proof.
  intros [] (p & Hp & Hm) H1 H2 H3 Hn. constructor; rewrite ?H1, ?H2, ?H3, ?app_nil_r.
  - rewrite placed_app, Hp, app_assoc. apply Forall2_app; [assumption|]. repeat constructor. exact Hm.
  - intros t Ht. apply in_app_or in Ht as [Ht|[Ht|[]]]; [auto|]. subst. exfalso. apply Hn. now exists t.
  - destruct (c_sentinel c) as [t|].
    + destruct q_sent0 as (a & b & -> & Hb & Ha). exists a, (b ++ [m]). rewrite <- app_assoc. split; [reflexivity|].
      split; [|exact Ha]. intros x Hx. apply in_app_or in Hx as [Hx|[<-|[]]]; auto.
    + intros x Hx. apply in_app_or in Hx as [Hx|[<-|[]]]; auto.
Qed.
Lemma qinv_step c ops ev o : qinv c ops ev -> qinv (fst (step c o)) (ops ++ [o]) (ev ++ snd (step c o)).
Proof.
  intros Q.
  assert (Same : placed_of [o] = [] -> qinv c (ops ++ [o]) (ev ++ [])) by (intros; now apply (qinv_same c)).
  destruct o; cbn [step].
  - destruct (match c_stack c with FWait _ _ :: _ | FSleep :: _ => false | _ => true end); [|now apply Same].
    apply (qinv_same c); auto. unfold request. destruct there; reflexivity.
  - destruct (match c_stack c with FWait _ _ :: _ | FSleep :: _ => false | _ => true end); [|now apply Same].
    unfold unsubscribe. destruct (nmem f (c_pending c)); [now apply (qinv_same c)|].
    destruct (nget f (c_requests c)) as [[k id]|]; [|now apply (qinv_same c)].
    destruct (nmem id (c_subs c)); [|now apply (qinv_same c)]. apply (qinv_same c); auto. destruct there; reflexivity.
  - apply (qinv_put c ops ev _ Stop MStop); auto; [now exists PStop|]. intros [t H]. discriminate.
  - cbn [fst snd]. destruct Q. unfold ignore_stops. constructor; cbn [c_q c_tokens c_sentinel].
    + rewrite placed_app, taken_app, app_assoc. apply Forall2_app; [now rewrite app_nil_r|].
      repeat constructor.
    + intros t Ht. apply in_app_or in Ht as [Ht|[Ht|[]]]; [apply q_old0 in Ht; lia|]. injection Ht as <-. lia.
    + exists (c_q c), []. split; [reflexivity|]. split; [intros m []|]. intros Hi. apply q_old0 in Hi. lia.
  - destruct m as [id v|id v|id v| |t]; try (now apply Same).
    + apply (qinv_put c ops ev _ _ (MReturn id v)); auto; [eexists; split; reflexivity|intros [t H]; discriminate].
    + apply (qinv_put c ops ev _ _ (MError id v)); auto; [eexists; split; reflexivity|intros [t H]; discriminate].
    + apply (qinv_put c ops ev _ _ (MUpdate id v)); auto; [eexists; split; reflexivity|intros [t H]; discriminate].
  - destruct (_ && _); [|now apply Same]. destruct (not_done (c_state c) fs) as [e|[|x l]]; now apply (qinv_same c).
  - destruct (match c_stack c with FWait _ _ :: _ | FSleep :: _ => false | _ => true end); now apply (qinv_same c).
  - assert (G : forall fr below m q, c_q c = m :: q ->
      qinv (fst (let (c', o) := service (upd_q c q) fr below m in (c', Took m :: o))) (ops ++ [Service])
           (ev ++ snd (let (c', o) := service (upd_q c q) fr below m in (c', Took m :: o)))).
    { intros fr below m q Eq. pose proof (service_same (upd_q c q) fr below m) as (A & B & C).
      pose proof (service_takes (upd_q c q) fr below m) as T.
      destruct (service (upd_q c q) fr below m) as [c' o]. cbn [fst snd c_q c_tokens c_sentinel upd_q] in *.
      destruct Q. rewrite Eq in *. constructor; rewrite ?A, ?B.
      - rewrite placed_app, taken_app. change (taken_of (Took m :: o)) with (m :: taken_of o). rewrite T.
        cbn [placed_of flat_map app]. rewrite <- app_assoc, app_nil_r. exact q_fifo0.
      - intros t Ht. apply q_old0. now right.
      - rewrite C. destruct (c_sentinel c) as [t'|] eqn:Es.
        + destruct q_sent0 as (a & b & E & Hb & Ha).
          assert (Hgen : m <> MSentinel t' -> exists a0 b0, q = a0 ++ MSentinel t' :: b0 /\
             (forall x, In x b0 -> ~ is_sentinel x) /\ ~ In (MSentinel t') a0).
          { intros Hm. destruct a as [|x a]; cbn [app] in E; [congruence|]. injection E as <- ->.
            exists a, b. split; [reflexivity|]. split; [exact Hb|]. intros Hi. apply Ha. now right. }
          destruct m as [id v|id e|id v| |t]; try (apply Hgen; discriminate).
          destruct (Nat.eqb_spec t t') as [->|Ht]; [|apply Hgen; congruence].
          destruct a as [|x a]; cbn [app] in E.
          * injection E as ->. exact Hb.
          * injection E as <- _. exfalso. apply Ha. now left.
        + assert (Hq : forall x, In x q -> ~ is_sentinel x) by (intros x Hx; apply q_sent0; now right).
          destruct m; exact Hq. }
    destruct (c_stack c) as [|[a t| |] below]; try (now apply Same); destruct (c_q c) as [|m q] eqn:Eq; try (now apply Same); now apply G.
  - destruct (c_stack c) as [|[a t| |] below]; try (now apply Same); destruct (c_q c) as [|m q] eqn:Eq; try (now apply Same); now apply (qinv_same c).
  - destruct (c_stack c) as [|[a t| |] [|fr below]]; try (now apply Same).
    pose proof (resume_same c (filtered c fr) below) as (_ & _ & _ & _ & _ & A & B & C & _). apply (qinv_same c); auto.
    destruct (filtered c fr) as [x [|y t]| |]; reflexivity.
  - destruct (c_stack c) as [|[a t| |] [|fr below]]; try (now apply Same). apply (qinv_same c); auto.
    destruct fr; reflexivity.
Qed.
Lemma qinv_run ops : qinv (fst (run c_init ops)) ops (snd (run c_init ops)).
Proof.
  induction ops as [|o ops IH] using rev_ind.
  - constructor; cbn; [constructor|intros t []|intros m []].
  - rewrite run_snoc. cbn [fst snd]. now apply qinv_step.
Qed.

(* ---------------- the stack ---------------- *)
Definition okf (st : ndict fstate) (fr : frame) : Prop :=
  match fr with
  | FWait a t => t <> [] /\ incl t a /\
      forall f, In f a -> nget f st <> None /\ (In f t \/ nget f st <> Some Running)
  | FSleep => True
  | FCall => False
  end.
Fixpoint calls (st : ndict fstate) (s : list frame) : Prop :=
  match s with
  | [] => True
  | FCall :: fr :: r => okf st fr /\ calls st r
  | _ => False
  end.
Definition wfs (st : ndict fstate) (s : list frame) : Prop :=
  calls st s \/ exists fr r, s = fr :: r /\ okf st fr /\ calls st r.
Definition mono (st st' : ndict fstate) : Prop :=
  forall f, (nget f st <> None -> nget f st' <> None) /\
            (nget f st <> None -> nget f st <> Some Running -> nget f st' <> Some Running).
Lemma okf_mono st st' fr : mono st st' -> okf st fr -> okf st' fr.
Proof.
  intros M. destruct fr as [a t| |]; cbn [okf]; auto. intros (H1 & H2 & H3). split; [exact H1|]. split; [exact H2|].
  intros f Hf. destruct (M f) as [A B], (H3 f Hf) as [C D]. split; [auto|]. destruct D as [D|D]; auto.
Qed.
Lemma calls_mono st st' : mono st st' -> forall n s, length s <= n -> calls st s -> calls st' s.
Proof.
  intros M. induction n as [|n IH]; intros s Hn; destruct s as [|fr s]; cbn [length] in Hn; auto; try lia.
  destruct fr; cbn [calls]; auto. destruct s as [|fr s]; auto. intros [A B]. split; [now apply (okf_mono st)|].
  apply IH; [cbn [length] in Hn; lia|exact B].
Qed.
Lemma mono_refl st : mono st st.
Proof. intros f. auto. Qed.
Lemma mono_nset st f s : (nget f st = None -> s = Running) -> (nget f st <> None -> s <> Running) -> mono st (nset f s st).
Proof.
  intros H1 H2 x. destruct (Nat.eq_dec x f) as [->|Hx].
  - rewrite nget_nset_same. split; [discriminate|]. intros A B. specialize (H2 A). congruence.
  - rewrite nget_nset_other by exact Hx. auto.
Qed.
(* what a step shows of waits that end *)
Definition honest (st : ndict fstate) (e : list event) : Prop :=
  (forall a, In (WaitDone a) e -> forall f, In f a -> nget f st <> None /\ nget f st <> Some Running) /\
  (forall a n, In (WaitRaised a (Remote n)) e -> exists f, In f a /\ nget f st = Some (Failed n)).
Lemma honest_nil st : honest st [].
Proof. split; intros; contradiction. Qed.

Lemma honest_other e st : (forall x, In x e -> (forall a, x <> WaitDone a) /\ (forall a n, x <> WaitRaised a (Remote n))) -> honest st e.
Proof.
  intros H. split.
  - intros a Ha. destruct (H _ Ha) as [A _]. destruct (A a eq_refl).
  - intros a n Ha. destruct (H _ Ha) as [_ A]. destruct (A a n eq_refl).
Qed.
Ltac hother := apply honest_other; intros x [<-|[]]; split; intros; congruence.
Lemma resume_wfs c fr below : (forall a t, fr = FWait a t -> incl t a /\
      forall f, In f a -> nget f (c_state c) <> None /\ (In f t \/ nget f (c_state c) <> Some Running)) ->
  fr <> FCall -> calls (c_state c) below ->
  wfs (c_state c) (c_stack (fst (resume c fr below))) /\ honest (c_state c) (snd (resume c fr below)).
Proof.
  intros Hf Hc Hb. destruct fr as [a [|x t]| |]; cbn [resume fst snd]; [| | |congruence].
  - split; [now left|]. destruct (Hf a [] eq_refl) as [_ H]. split.
    + intros a' [Ha|[]]. injection Ha as <-. intros f Hi. destruct (H f Hi) as [A [[]|B]]. auto.
    + intros a' n [Ha|[]]. discriminate.
  - split; [|apply honest_nil]. right. exists (FWait a (x :: t)), below. split; [reflexivity|]. split; [|exact Hb].
    destruct (Hf a (x :: t) eq_refl) as [A B]. split; [discriminate|]. auto.
  - split; [|apply honest_nil]. right. exists FSleep, below. cbn. auto.
Qed.
Lemma filtered_ok c ev fr : core c ev -> okf (c_state c) fr ->
  (forall a t, filtered c fr = FWait a t -> incl t a /\
      forall f, In f a -> nget f (c_state c) <> None /\ (In f t \/ nget f (c_state c) <> Some Running)) /\ filtered c fr <> FCall.
Proof.
  intros K H. destruct fr as [a t| |]; [|split; [intros x y Hx; discriminate Hx|discriminate]|destruct H].
  split; [|discriminate]. intros a' t' E. injection E as <- <-. destruct H as (_ & Hi & Hf). split.
  - eapply incl_tran; [apply sweep_incl|exact Hi].
  - intros f Ha. destruct (Hf f Ha) as [A B]. split; [exact A|]. destruct B as [B|B]; [|now right].
    destruct (nmem f (c_requests c)) eqn:E.
    + left. now apply sweep_keeps.
    + right. intros Hr. apply (k_req _ _ K) in Hr. congruence.
Qed.
Lemma honest_app st a b : honest st a -> honest st b -> honest st (a ++ b).
Proof.
  intros [A1 A2] [B1 B2]. split.
  - intros x Hx. apply in_app_or in Hx as [Hx|Hx]; eauto.
  - intros x n Hx. apply in_app_or in Hx as [Hx|Hx]; eauto.
Qed.
Lemma okf_frame st fr : okf st fr -> (forall a t, fr = FWait a t -> incl t a /\
      forall f, In f a -> nget f st <> None /\ (In f t \/ nget f st <> Some Running)) /\ fr <> FCall.
Proof. intros H. destruct fr as [a t| |]; cbn [okf] in H; [split; [|discriminate]; intros a' t' E; injection E as <- <-; tauto|split; [intros ? ? E; discriminate|discriminate]|contradiction]. Qed.
Lemma leave_wfs c fr below e : (forall n, e <> Remote n) -> calls (c_state c) below ->
  wfs (c_state c) (c_stack (fst (leave c fr below e))) /\ honest (c_state c) (snd (leave c fr below e)).
Proof.
  intros He Hb. split; [now left|]. destruct fr; cbn [leave snd]; hother.
Qed.
Lemma service_wfs c ev fr below m : core c ev -> okf (c_state c) fr -> calls (c_state c) below ->
  wfs (c_state (fst (service c fr below m))) (c_stack (fst (service c fr below m))) /\
  honest (c_state (fst (service c fr below m))) (snd (service c fr below m)).
Proof.
  intros K Hf Hb. pose proof (okf_frame _ _ Hf) as [Hf1 Hf2].
  assert (Rs : forall c0 fr0, c_state (fst (resume c0 fr0 below)) = c_state c0).
  { intros c0 fr0. apply (resume_same c0 fr0 below). }
  assert (Hl : forall e, (forall n, e <> Remote n) -> wfs (c_state (fst (leave c fr below e))) (c_stack (fst (leave c fr below e))) /\
     honest (c_state (fst (leave c fr below e))) (snd (leave c fr below e)))
    by (intros; change (c_state (fst (leave c fr below e))) with (c_state c); now apply leave_wfs).
  assert (Hr : wfs (c_state (fst (resume c fr below))) (c_stack (fst (resume c fr below))) /\
     honest (c_state (fst (resume c fr below))) (snd (resume c fr below))) by (rewrite Rs; now apply resume_wfs).
  assert (Mo : forall id s c' f, s <> Running -> resolve c id s = Some (c', f) ->
    mono (c_state c) (c_state c') /\ nget f (c_state c') = Some s /\ c_state c' = nset f s (c_state c)).
  { intros id s c' f Hs E. destruct (core_resolve _ _ _ _ _ _ K Hs E) as (_ & _ & A & B). rewrite B. split; [|split; [apply nget_nset_same|reflexivity]].
    apply mono_nset; [congruence|auto]. }
  destruct m as [id v|id e|id v| |t]; cbn [service].
  - destruct (resolve c id (Result v)) as [[c' f]|] eqn:E; [|apply Hl; discriminate].
    assert (Hs : Result v <> Running) by discriminate. destruct (Mo _ _ _ _ Hs E) as (M & Hg & Hst).
    assert (Hb' : calls (c_state c') below) by (eapply calls_mono; eauto).
    pose proof (resume_wfs c' (set_todo fr (rem1 f (todo_of fr))) below) as G.
    pose proof (Rs c' (set_todo fr (rem1 f (todo_of fr)))) as Rc.
    destruct (resume c' _ below) as [c'' o]. cbn [fst snd] in *. rewrite Rc. destruct G as [G1 G2].
    + intros a t Ea. destruct fr as [a0 t0| |]; cbn [set_todo todo_of] in Ea; try discriminate. injection Ea as <- <-.
      destruct (Hf1 a0 t0 eq_refl) as [A B]. split; [eapply incl_tran; [apply rem1_incl|exact A]|].
      intros g Hg0. destruct (B g Hg0) as [C D]. split; [now apply (M g)|].
      destruct (Nat.eq_dec g f) as [->|Hgf]; [right; congruence|]. destruct D as [D|D].
      * left. now apply rem1_other.
      * right. now apply (M g).
    + destruct fr; cbn [set_todo]; congruence.
    + exact Hb'.
    + split; [exact G1|]. apply (honest_app _ [_]); [|exact G2]. hother.
  - destruct (resolve c id (Failed e)) as [[c' f]|] eqn:E; [|apply Hl; discriminate].
    assert (Hs : Failed e <> Running) by discriminate. destruct (Mo _ _ _ _ Hs E) as (M & Hg & Hst).
    assert (Hb' : calls (c_state c') below) by (eapply calls_mono; eauto).
    assert (Hq : honest (c_state c') [Resolved f (Failed e)])
      by (hother).
    destruct (nin f (todo_of fr)) eqn:En.
    + split; [now left|]. apply (honest_app _ [_]); [exact Hq|]. cbn [leave fst snd upd_stack c_state]. apply nin_In in En.
      destruct fr as [a t| |]; [|destruct En|destruct En]. destruct (Hf1 a t eq_refl) as [A _].
      split; [intros a' [H|[]]; discriminate|]. intros a' n [H|[]]. injection H as <- <-. exists f. split; [now apply A|exact Hg].
    + pose proof (resume_wfs c' fr below) as G. pose proof (Rs c' fr) as Rc.
      destruct (resume c' _ below) as [c'' o]. cbn [fst snd] in *. rewrite Rc. destruct G as [G1 G2]; auto.
      * intros a t Ea. apply (okf_mono _ _ _ M) in Hf. apply okf_frame in Hf as [Hf _]. now apply Hf.
      * split; [exact G1|]. now apply (honest_app _ [_]).
  - destruct (nmem id (c_subs c)).
    + split; [left; cbn; auto|]. hother.
    + rewrite Rs. destruct (filtered_ok c ev fr K Hf) as [A B]. now apply resume_wfs.
  - destruct (c_sentinel c); [exact Hr|apply Hl; discriminate].
  - destruct (c_sentinel c) as [t'|]; [|exact Hr]. destruct (Nat.eqb t t'); [|exact Hr].
    rewrite Rs. now apply (resume_wfs (upd_sentinel c None)).
Qed.
Lemma not_done_spec st fs : (forall f, In f fs -> nget f st <> None) ->
  match not_done st fs with
  | inl e => exists f, In f fs /\ nget f st = Some (Failed e)
  | inr l => incl l fs /\ (NoDup fs -> NoDup l) /\ (forall f, In f l -> nget f st = Some Running) /\
             forall f, In f fs -> In f l \/ exists v, nget f st = Some (Result v)
  end.
Proof.
  induction fs as [|f r IH]; intros H; cbn [not_done].
  - split; [apply incl_refl|]. split; [auto|]. split; intros f [].
  - assert (Hr : forall x, In x r -> nget x st <> None) by (intros x Hx; apply H; now right). specialize (IH Hr).
    assert (Hfn := H f (or_introl eq_refl)).
    destruct (nget f st) as [[|v|e]|] eqn:E; [| | |congruence].
    + destruct (not_done st r) as [e|l].
      * destruct IH as (x & A & B). exists x. split; [now right|exact B].
      * destruct IH as (A & A2 & B & C). split; [intros x [<-|Hx]; [now left|right; auto]|]. split.
        { intros Hn. inversion Hn; subst. constructor; auto. }
        split; [intros x [<-|Hx]; auto|]. intros x [<-|Hx]; [left; now left|]. destruct (C x Hx); [left; now right|now right].
    + destruct (not_done st r) as [e|l].
      * destruct IH as (x & A & B). exists x. split; [now right|exact B].
      * destruct IH as (A & A2 & B & C). split; [intros x Hx; right; auto|]. split.
        { intros Hn. inversion Hn; subst. auto. }
        split; [auto|]. intros x [<-|Hx]; eauto.
    + exists f. split; [now left|exact E].
Qed.
Lemma wfs_user st s : wfs st s -> (match s with FWait _ _ :: _ | FSleep :: _ => false | _ => true end) = true -> calls st s.
Proof.
  intros [H|(fr & r & -> & A & B)] Hu; [exact H|]. destruct fr; [discriminate|discriminate|destruct A].
Qed.
Lemma wfs_step c ev o : core c ev -> wfs (c_state c) (c_stack c) ->
  wfs (c_state (fst (step c o))) (c_stack (fst (step c o))) /\ honest (c_state (fst (step c o))) (snd (step c o)).
Proof.
  intros K W.
  assert (Id : wfs (c_state c) (c_stack c) /\ honest (c_state c) []) by (split; [exact W|apply honest_nil]).
  assert (Hq : forall e st, (forall x, In x e -> (forall a, x <> WaitDone a) /\ (forall a n, x <> WaitRaised a (Remote n))) -> honest st e).
  { intros e st H. split.
    - intros a Ha. destruct (H _ Ha) as [A _]. destruct (A a eq_refl).
    - intros a n Ha. destruct (H _ Ha) as [_ A]. destruct (A a n eq_refl). }
  destruct o; cbn [step].
  - destruct (match c_stack c with FWait _ _ :: _ | FSleep :: _ => false | _ => true end) eqn:U; [|exact Id].
    cbn [request fst snd c_state c_stack]. split.
    + left. apply (calls_mono (c_state c)) with (n := length (c_stack c)); auto; [|now apply wfs_user].
      apply mono_nset; [auto|]. intros H. exfalso. apply H. apply (k_known _ _ K). lia.
    + apply Hq. intros x [<-|[]]. destruct there; split; intros; discriminate.
  - destruct (match c_stack c with FWait _ _ :: _ | FSleep :: _ => false | _ => true end); [|exact Id].
    unfold unsubscribe. destruct (nmem f (c_pending c)).
    { split; [exact W|]. apply Hq. intros x [<-|[]]. split; intros; discriminate. }
    destruct (nget f (c_requests c)) as [[k id]|].
    2:{ split; [exact W|]. apply Hq. intros x [<-|[]]. split; intros; discriminate. }
    destruct (nmem id (c_subs c)); (split; [exact W|]); apply Hq; intros x [<-|[]]; try destruct there; split; intros; discriminate.
  - exact Id.
  - exact Id.
  - destruct m; exact Id.
  - destruct (match c_stack c with FWait _ _ :: _ | FSleep :: _ => false | _ => true end) eqn:U; cbn [andb]; [|exact Id].
    destruct (forallb _ fs) eqn:Ef; [|exact Id]. rewrite forallb_forall in Ef.
    assert (Hkn : forall f, In f fs -> nget f (c_state c) <> None).
    { intros f Hf. specialize (Ef f Hf). unfold nmem in Ef. destruct (nget f (c_state c)); [discriminate|discriminate Ef]. }
    pose proof (not_done_spec _ _ Hkn) as N. destruct (not_done (c_state c) fs) as [e|[|x l]].
    + split; [exact W|]. split; [intros a [H|[]]; discriminate|]. intros a n [H|[]]. injection H as <- <-. exact N.
    + split; [exact W|]. destruct N as (_ & _ & _ & C). split; [|intros a n [H|[]]; discriminate].
      intros a [H|[]] f Hf. injection H as <-. destruct (C f Hf) as [[]|(v & Hv)]. cbn [fst]. split; congruence.
    + destruct N as (A & _ & B & C). split; [|apply honest_nil]. right. eexists _, _. split; [reflexivity|].
      split; [|now apply wfs_user]. split; [discriminate|]. split; [exact A|]. intros f Hf. split; [auto|].
      destruct (C f Hf) as [H|(v & Hv)]; [now left|]. right. cbn [fst upd_stack c_state]. congruence.
  - destruct (match c_stack c with FWait _ _ :: _ | FSleep :: _ => false | _ => true end) eqn:U; [|exact Id].
    split; [|apply honest_nil]. right. exists FSleep, (c_stack c). split; [reflexivity|]. split; [exact I|]. now apply wfs_user.
  - assert (G : forall fr below m q, okf (c_state c) fr -> calls (c_state c) below ->
       let r := (let (c', o) := service (upd_q c q) fr below m in (c', Took m :: o)) in
       wfs (c_state (fst r)) (c_stack (fst r)) /\ honest (c_state (fst r)) (snd r)).
    { intros fr below m q A B. pose proof (service_wfs (upd_q c q) ev fr below m (core_q _ _ _ K) A B) as [G1 G2].
      destruct (service (upd_q c q) fr below m) as [c' o]. cbn [fst snd] in *. split; [exact G1|].
      apply (honest_app _ [_]); [|exact G2]. apply Hq. intros x [<-|[]]. split; intros; discriminate. }
    destruct (c_stack c) as [|[a t| |] below] eqn:Es; try (cbn [fst snd]; rewrite Es; exact Id);
      destruct (c_q c) as [|m q]; try exact Id; try (cbn [fst snd]; rewrite Es; exact Id);
      (destruct W as [W|(fr & r & E & A & B)]; [contradiction|injection E as <- <-; now apply G]).
  - destruct (c_stack c) as [|[a t| |] below] eqn:Es; try (cbn [fst snd]; rewrite Es; exact Id);
      destruct (c_q c) as [|m q]; try (cbn [fst snd]; rewrite Es; exact Id);
      (destruct W as [W|(fr & r & E & A & B)]; [contradiction|injection E as <- <-]);
      (split; [left; exact B|]); apply Hq; intros x [<-|[]]; split; intros; discriminate.
  - destruct (c_stack c) as [|[a t| |] [|fr below]] eqn:Es; try (cbn [fst snd]; rewrite Es; exact Id).
    destruct W as [[A B]|(fr0 & r & E & A & B)]; [|injection E as <- <-; destruct A].
    destruct (filtered_ok c ev fr K A) as [H1 H2].
    pose proof (resume_same c (filtered c fr) below) as (_ & _ & -> & _). now apply resume_wfs.
  - destruct (c_stack c) as [|[a t| |] [|fr below]] eqn:Es; try (cbn [fst snd]; rewrite Es; exact Id).
    destruct W as [[A B]|(fr0 & r & E & A & B)]; [|injection E as <- <-; destruct A].
    change (c_state (fst (leave c fr below (Callback n)))) with (c_state c).
    apply leave_wfs; [discriminate|exact B].
Qed.
Lemma wfs_run ops : wfs (c_state (fst (run c_init ops))) (c_stack (fst (run c_init ops))).
Proof.
  induction ops as [|o ops IH] using rev_ind; [left; exact I|]. rewrite run_snoc. cbn [fst snd].
  eapply wfs_step; [apply core_run|exact IH].
Qed.

(* ---------------- no waits in callbacks ---------------- *)
Definition okflat (st : ndict fstate) (fr : frame) : Prop :=
  match fr with
  | FWait a t => (forall f, In f a -> (exists v, nget f st = Some (Result v)) \/ (In f t /\ nget f st = Some Running)) /\
                 (NoDup a -> NoDup t /\ forall f, In f t -> nget f st = Some Running)
  | _ => True
  end.
Definition fstack (st : ndict fstate) (s : list frame) : Prop :=
  s = [] \/ exists fr, (s = [fr] \/ s = [FCall; fr]) /\ fr <> FCall /\ okflat st fr.
Definition fhonest (st : ndict fstate) (e : list event) : Prop :=
  forall a, In (WaitDone a) e -> forall f, In f a -> exists v, nget f st = Some (Result v).
Lemma fhonest_other st e : (forall a, ~ In (WaitDone a) e) -> fhonest st e.
Proof. intros H a Ha. destruct (H a Ha). Qed.

Lemma resume_flat c fr : okflat (c_state c) fr -> fr <> FCall ->
  fstack (c_state c) (c_stack (fst (resume c fr []))) /\ fhonest (c_state c) (snd (resume c fr [])).
Proof.
  intros H Hc. destruct fr as [a [|x t]| |]; cbn [resume fst snd upd_stack c_stack c_state]; [| | |congruence].
  - split; [now left|]. intros a' [Ha|[]]. injection Ha as <-. intros f Hf. destruct H as [H _].
    destruct (H f Hf) as [A|[[] _]]. exact A.
  - split; [|apply fhonest_other; intros a' []]. right. exists (FWait a (x :: t)). split; [now left|]. split; [discriminate|exact H].
  - split; [|apply fhonest_other; intros a' []]. right. exists FSleep. split; [now left|]. split; [discriminate|exact I].
Qed.
Lemma sweep_nodup keep n : forall i l, NoDup l -> NoDup (sweep n i keep l).
Proof.
  induction n as [|n IH]; intros i l H; cbn [sweep]; [exact H|]. destruct (nth_error l i); [|exact H].
  destruct (keep n0); [auto|]. apply IH. now apply rem1_nodup.
Qed.
Lemma filtered_flat c ev fr : core c ev -> okflat (c_state c) fr -> fr <> FCall ->
  okflat (c_state c) (filtered c fr) /\ filtered c fr <> FCall.
Proof.
  intros K H Hc. destruct fr as [a t| |]; [|split; [exact I|discriminate]|congruence]. split; [|discriminate].
  destruct H as [H1 H2]. cbn [filtered set_todo todo_of okflat]. split.
  - intros f Hf. destruct (H1 f Hf) as [A|[A B]]; [now left|]. right. split; [|exact B]. apply sweep_keeps; [|exact A].
    now apply (k_req _ _ K).
  - intros Hn. destruct (H2 Hn) as [A B]. split; [now apply sweep_nodup|]. intros f Hf. apply B.
    now apply sweep_incl in Hf.
Qed.
Definition fmono (st st' : ndict fstate) : Prop :=
  forall f, (nget f st = Some Running \/ exists v, nget f st = Some (Result v)) -> nget f st' = nget f st.
Lemma okflat_same st st' fr : fmono st st' -> okflat st fr -> okflat st' fr.
Proof.
  intros M. destruct fr as [a t| |]; cbn [okflat]; auto. intros [H1 H2]. split.
  - intros f Hf. destruct (H1 f Hf) as [(v & Hv)|[A B]].
    + left. exists v. rewrite M; eauto.
    + right. split; [exact A|]. rewrite M; auto.
  - intros Hn. destruct (H2 Hn) as [A B]. split; [exact A|]. intros f Hf. rewrite M; auto.
Qed.
Lemma service_flat c ev fr m : core c ev -> okflat (c_state c) fr -> fr <> FCall ->
  fstack (c_state (fst (service c fr [] m))) (c_stack (fst (service c fr [] m))) /\ fhonest (c_state (fst (service c fr [] m))) (snd (service c fr [] m)).
Proof.
  intros K Hf Hc.
  assert (Rs : forall c0 fr0, c_state (fst (resume c0 fr0 [])) = c_state c0).
  { intros c0 fr0. apply (resume_same c0 fr0 []). }
  assert (Hl : forall c0 e, fstack (c_state (fst (leave c0 fr [] e))) (c_stack (fst (leave c0 fr [] e))) /\
     fhonest (c_state (fst (leave c0 fr [] e))) (snd (leave c0 fr [] e))).
  { intros c0 e. split; [now left|]. apply fhonest_other. destruct fr; cbn [leave snd]; intros a0 [H|[]]; discriminate. }
  assert (Hr : fstack (c_state (fst (resume c fr []))) (c_stack (fst (resume c fr []))) /\
     fhonest (c_state (fst (resume c fr []))) (snd (resume c fr []))) by (rewrite Rs; now apply resume_flat).
  destruct m as [id v|id e|id v| |t]; cbn [service].
  - destruct (resolve c id (Result v)) as [[c' f]|] eqn:E; [|apply Hl].
    assert (Hs : Result v <> Running) by discriminate.
    destruct (core_resolve _ _ _ _ _ _ K Hs E) as (_ & _ & Hrun & Hst).
    pose proof (resume_flat c' (set_todo fr (rem1 f (todo_of fr)))) as G.
    pose proof (Rs c' (set_todo fr (rem1 f (todo_of fr)))) as Rc.
    destruct (resume c' _ []) as [c'' o]. cbn [fst snd] in *. rewrite Rc. destruct G as [G1 G2].
    + rewrite Hst. destruct fr as [a t| |]; [|exact I|congruence]. cbn [set_todo todo_of okflat]. destruct Hf as [H1 H2]. split.
      * intros g Hg. destruct (Nat.eq_dec g f) as [->|Hgf]; [left; exists v; apply nget_nset_same|].
        rewrite nget_nset_other by exact Hgf. destruct (H1 g Hg) as [A|[A B]]; [now left|]. right. split; [|exact B].
        now apply rem1_other.
      * intros Hn. destruct (H2 Hn) as [A B]. destruct (rem1_nodup f t A) as [C D]. split; [exact C|].
        intros g Hg. assert (g <> f) by congruence. rewrite nget_nset_other by assumption. apply B. now apply rem1_incl in Hg.
    + destruct fr; cbn [set_todo]; congruence.
    + split; [exact G1|]. intros a [Ha|Ha]; [discriminate|]. now apply G2.
  - destruct (resolve c id (Failed e)) as [[c' f]|] eqn:E; [|apply Hl].
    assert (Hs : Failed e <> Running) by discriminate.
    destruct (core_resolve _ _ _ _ _ _ K Hs E) as (_ & _ & Hrun & Hst).
    destruct (nin f (todo_of fr)) eqn:En.
    + specialize (Hl c' (Remote e)). destruct (leave c' fr [] (Remote e)) as [c'' o]. cbn [fst snd] in *.
      destruct Hl as [A B]. split; [exact A|]. intros a [Ha|Ha]; [discriminate|]. now apply B.
    + pose proof (resume_flat c' fr) as G. pose proof (Rs c' fr) as Rc.
      destruct (resume c' _ []) as [c'' o]. cbn [fst snd] in *. rewrite Rc. destruct G as [G1 G2]; [|exact Hc|].
      * rewrite Hst. destruct fr as [a t| |]; [|exact I|congruence]. cbn [okflat todo_of] in *.
        assert (Hnt : ~ In f t) by (rewrite <- nin_In; congruence). destruct Hf as [H1 H2]. split.
        -- intros g Hg. destruct (Nat.eq_dec g f) as [->|Hgf].
           ++ destruct (H1 f Hg) as [(v & Hv)|[A _]]; [congruence|contradiction].
           ++ rewrite nget_nset_other by exact Hgf. auto.
        -- intros Hn. destruct (H2 Hn) as [A B]. split; [exact A|]. intros g Hg. rewrite nget_nset_other by congruence. auto.
      * split; [exact G1|]. intros a [Ha|Ha]; [discriminate|]. now apply G2.
  - destruct (nmem id (c_subs c)).
    + split; [|apply fhonest_other; intros a [H|[]]; discriminate]. right. exists fr. cbn. auto.
    + rewrite Rs. destruct (filtered_flat c ev fr K Hf Hc) as [A B]. now apply resume_flat.
  - destruct (c_sentinel c); [exact Hr|apply Hl].
  - destruct (c_sentinel c) as [t'|]; [|exact Hr]. destruct (Nat.eqb t t'); [|exact Hr].
    rewrite Rs. now apply (resume_flat (upd_sentinel c None)).
Qed.
Lemma flat_step c ev o : core c ev -> fstack (c_state c) (c_stack c) ->
  ((o = Sleep \/ exists fs, o = Wait fs) -> c_stack c = []) ->
  fstack (c_state (fst (step c o))) (c_stack (fst (step c o))) /\ fhonest (c_state (fst (step c o))) (snd (step c o)).
Proof.
  intros K F Hw.
  assert (Id : fstack (c_state c) (c_stack c) /\ fhonest (c_state c) []) by (split; [exact F|apply fhonest_other; intros a []]).
  destruct o; cbn [step].
  - destruct (match c_stack c with FWait _ _ :: _ | FSleep :: _ => false | _ => true end); [|exact Id].
    cbn [request fst snd c_state c_stack]. split.
    + destruct F as [->|(fr & Hs & Hc & Ho)]; [now left|]. right. exists fr. split; [exact Hs|]. split; [exact Hc|].
      apply (okflat_same (c_state c)); [|exact Ho]. intros f Hf. apply nget_nset_other. intros ->.
      assert (Hn : nget (c_made c) (c_state c) = None) by (apply (k_known _ _ K); lia). rewrite Hn in Hf.
      destruct Hf as [Hf|(v & Hf)]; discriminate.
    + apply fhonest_other. intros a [H|[]]. destruct there; discriminate.
  - destruct (match c_stack c with FWait _ _ :: _ | FSleep :: _ => false | _ => true end); [|exact Id].
    unfold unsubscribe. destruct (nmem f (c_pending c)).
    { split; [exact F|]. apply fhonest_other. intros a [H|[]]; discriminate. }
    destruct (nget f (c_requests c)) as [[k id]|].
    2:{ split; [exact F|]. apply fhonest_other. intros a [H|[]]; discriminate. }
    destruct (nmem id (c_subs c)); (split; [exact F|]); apply fhonest_other; intros a [H|[]]; try destruct there; discriminate.
  - exact Id.
  - exact Id.
  - destruct m; exact Id.
  - assert (Es : c_stack c = []) by (apply Hw; eauto). rewrite Es. cbn [andb].
    destruct (forallb _ fs) eqn:Ef; [|exact Id]. rewrite forallb_forall in Ef.
    assert (Hkn : forall f, In f fs -> nget f (c_state c) <> None).
    { intros f Hf. specialize (Ef f Hf). unfold nmem in Ef. destruct (nget f (c_state c)); [discriminate|discriminate Ef]. }
    pose proof (not_done_spec _ _ Hkn) as N. destruct (not_done (c_state c) fs) as [e|[|x l]].
    + split; [exact F|]. apply fhonest_other. intros a [H|[]]; discriminate.
    + split; [exact F|]. destruct N as (_ & _ & _ & C). intros a [H|[]] f Hf. injection H as <-.
      destruct (C f Hf) as [[]|Hv]. exact Hv.
    + destruct N as (A & A2 & B & C). split; [|apply fhonest_other; intros a []]. right. exists (FWait fs (x :: l)).
      split; [now left|]. split; [discriminate|]. split; [|auto]. intros f Hf. destruct (C f Hf) as [H|Hv]; [right; auto|now left].
  - assert (Es : c_stack c = []) by (apply Hw; auto). rewrite Es. split; [|apply fhonest_other; intros a []].
    right. exists FSleep. split; [now left|]. split; [discriminate|exact I].
  - assert (G : forall fr m q, okflat (c_state c) fr -> fr <> FCall ->
       let r := (let (c', o) := service (upd_q c q) fr [] m in (c', Took m :: o)) in
       fstack (c_state (fst r)) (c_stack (fst r)) /\ fhonest (c_state (fst r)) (snd r)).
    { intros fr m q A B. pose proof (service_flat (upd_q c q) ev fr m (core_q _ _ _ K) A B) as [G1 G2].
      destruct (service (upd_q c q) fr [] m) as [c' o]. cbn [fst snd] in *. split; [exact G1|].
      intros a [Ha|Ha]; [discriminate|]. now apply G2. }
    destruct F as [E|(fr & [E|E] & Hc & Ho)]; rewrite E.
    + exact Id.
    + destruct fr as [a t| |]; [| |congruence]; (destruct (c_q c) as [|m q]; [exact Id|now apply G]).
    + exact Id.
  - assert (N : forall c0 e, fstack (c_state c0) [] /\ fhonest (c_state c0) [WaitRaised e TimedOut] /\ fhonest (c_state c0) [SleepDone]).
    { intros c0 e. split; [now left|]. split; apply fhonest_other; intros a [H|[]]; discriminate. }
    destruct (c_stack c) as [|[a t| |] below] eqn:Es; try (cbn [fst snd]; rewrite Es; exact Id);
      destruct (c_q c) as [|m q]; try (cbn [fst snd]; rewrite Es; exact Id);
      (destruct F as [F|(fr & [F|F] & _)]; try discriminate); injection F as <- ->; cbn [fst snd upd_stack c_stack c_state]; split; apply (N c a) || apply (N c []).
  - destruct (c_stack c) as [|[a t| |] [|fr below]] eqn:Es; try (cbn [fst snd]; rewrite Es; exact Id).
    destruct F as [F|(fr0 & [F|F] & Hc & Ho)]; try discriminate. injection F as <- ->.
    destruct (filtered_flat c ev fr K Ho Hc) as [H1 H2].
    pose proof (resume_same c (filtered c fr) []) as (_ & _ & -> & _). now apply resume_flat.
  - destruct (c_stack c) as [|[a t| |] [|fr below]] eqn:Es; try (cbn [fst snd]; rewrite Es; exact Id).
    destruct F as [F|(fr0 & [F|F] & Hc & Ho)]; try discriminate. injection F as <- ->.
    split; [now left|]. apply fhonest_other. destruct fr; cbn [leave snd]; intros a [H|[]]; discriminate.
Qed.
Lemma flat_prefix ops o : flat (ops ++ [o]) -> flat ops.
Proof. intros H pre x post -> Hx. apply (H pre x (post ++ [o])); [|exact Hx]. now rewrite <- app_assoc. Qed.
Lemma flat_run ops : flat ops -> fstack (c_state (fst (run c_init ops))) (c_stack (fst (run c_init ops))).
Proof.
  induction ops as [|o ops IH] using rev_ind; intros Hf; [now left|]. rewrite run_snoc. cbn [fst snd].
  eapply flat_step; [apply core_run|apply IH; now apply flat_prefix in Hf|]. intros Ho. now apply (Hf ops o []).
Qed.
