(** C50, proofs. *)
From Coq Require Import String Bool ZArith Lia List.
From Verif Require Import Base Tree_Model Tree_Spec.
Import ListNotations.
Local Open Scope list_scope.

(** ** Objects and lookups *)

Definition wfo (o : obj) : Prop :=
  NoDup (dkeys (o_fields o)) /\
  forall n m, dget n (o_fields o) = Some (FMap m) -> NoDup (dkeys m).
Definition wfh (h : heap) : Prop := forall x, wfo (h x).
Definition shape (a b : obj) : Prop :=
  o_block a = o_block b /\ o_level a = o_level b /\ o_types a = o_types b /\ o_fields a = o_fields b.
Definition same_fields (h h' : heap) : Prop := forall x, o_fields (h' x) = o_fields (h x).

Lemma upd_same : forall h x o, upd h x o x = o.
Proof. intros. unfold upd. now rewrite Nat.eqb_refl. Qed.
Lemma upd_other : forall h x o y, y <> x -> upd h x o y = h y.
Proof. intros. unfold upd. destruct (Nat.eqb y x) eqn:E; auto. apply Nat.eqb_eq in E. contradiction. Qed.

Lemma In_kids : forall o s c, wfo o ->
  (In (s, c) (kids o) <-> exists n f, dget n (o_fields o) = Some f /\ In (s, c) (fkids n f)).
Proof.
  intros o s c [W _]. unfold kids. rewrite in_flat_map. split.
  - intros ([n f] & A & B). exists n, f. split; auto. now apply dget_In_nodup.
  - intros (n & f & A & B). exists (n, f). split; auto. now apply dget_Some_In.
Qed.

Lemma look_kid : forall h x s c q, wfo (h x) -> In (s, c) (kids (h x)) -> look h x (s ++ q) = look h c q.
Proof.
  intros h x s c q W H. apply In_kids in H; auto. destruct H as (n & f & A & B).
  destruct f as [d|i|m]; cbn [fkids] in B.
  - destruct B.
  - destruct B as [B|[]]. injection B as <- <-. cbn [app look]. now rewrite A.
  - apply in_map_iff in B. destruct B as ([k i] & B & C). injection B as <- <-. cbn [app look fst].
    rewrite A. destruct W as [_ W]. assert (D : dget k m = Some i) by (apply dget_In_nodup; [exact (W _ _ A) | exact C]).
    now rewrite D.
Qed.

Lemma kids_len : forall o s c, In (s, c) (kids o) -> 1 <= length s.
Proof.
  intros o s c H. unfold kids in H. apply in_flat_map in H. destruct H as ([n f] & _ & H).
  destruct f as [d|i|m]; cbn [fkids fst snd] in H; [destruct H| |].
  - destruct H as [H|[]]. injection H as <- <-. cbn. lia.
  - apply in_map_iff in H. destruct H as ([k i] & H & _). injection H as <- <-. cbn. lia.
Qed.

(** A way to a Model goes through a child. *)
Lemma look_inv : forall h x p y, wfo (h x) -> look h x p = Some (IModel y) ->
  (p = [] /\ y = x) \/ exists s c q, p = s ++ q /\ In (s, c) (kids (h x)) /\ look h c q = Some (IModel y).
Proof.
  intros h x p y W H. destruct p as [|n q].
  - left. cbn in H. injection H as ->. auto.
  - right. cbn [look] in H. destruct (dget n (o_fields (h x))) as [[d|c|m]|] eqn:E; try discriminate.
    + destruct q; discriminate.
    + exists [n], c, q. split; [reflexivity|]. split; auto. apply In_kids; auto. exists n, (FModel c). cbn. auto.
    + destruct q as [|k q']; [discriminate|]. destruct (dget k m) as [c|] eqn:E2; [|discriminate].
      exists [n; k], c, q'. split; [reflexivity|]. split; auto. apply In_kids; auto.
      exists n, (FMap m). split; auto. cbn [fkids]. apply in_map_iff. exists (k, c). split; auto.
      now apply dget_Some_In.
Qed.

Lemma look_app : forall h, wfh h -> forall k p x y q, length p <= k -> look h x p = Some (IModel y) ->
  look h x (p ++ q) = look h y q.
Proof.
  intros h W k; induction k as [|k IH]; intros p x y q L H.
  - destruct p; [|cbn in L; lia]. cbn in H. injection H as ->. reflexivity.
  - destruct (look_inv h x p y (W x) H) as [[-> ->]|(s & c & r & -> & A & B)]; [reflexivity|].
    rewrite <- app_assoc, (look_kid h x s c _ (W x) A). apply IH; auto.
    rewrite app_length in L. pose proof (kids_len _ _ _ A). lia.
Qed.

(** The other end of the way. *)
Lemma look_snoc : forall h, wfh h -> forall k p x y, length p <= k -> look h x p = Some (IModel y) ->
  (p = [] /\ y = x) \/
  exists p0 z s, p = p0 ++ s /\ look h x p0 = Some (IModel z) /\ In (s, y) (kids (h z)).
Proof.
  intros h W k; induction k as [|k IH]; intros p x y L H.
  - destruct p; [|cbn in L; lia]. cbn in H. injection H as ->. auto.
  - destruct (look_inv h x p y (W x) H) as [[-> ->]|(s & c & r & -> & A & B)]; auto.
    right. assert (Lr : length r <= k) by (rewrite app_length in L; pose proof (kids_len _ _ _ A); lia).
    destruct (IH r c y Lr B) as [[-> ->]|(p0 & z & t & -> & C & D)].
    + exists [], x, s. rewrite app_nil_r. auto.
    + exists (s ++ p0), z, t. split; [now rewrite app_assoc|]. split; auto.
      now rewrite (look_kid h x s c p0 (W x) A).
Qed.

(** Lookups that pass only attributes which two heaps share. *)
Lemma look_frame : forall h h' k q y, length q <= k ->
  (forall q0 nm q1 z, q = q0 ++ nm :: q1 -> look h y q0 = Some (IModel z) ->
     dget nm (o_fields (h' z)) = dget nm (o_fields (h z))) ->
  look h' y q = look h y q.
Proof.
  intros h h' k; induction k as [|k IH]; intros q y L H.
  - destruct q; [reflexivity | cbn in L; lia].
  - destruct q as [|n q]; [reflexivity|]. cbn [look]. rewrite (H [] n q y eq_refl eq_refl).
    cbn in L.
    destruct (dget n (o_fields (h y))) as [[d|c|m]|] eqn:E; auto.
    + apply IH; [lia|]. intros q0 nm q1 z -> Q. apply (H (n :: q0) nm q1 z eq_refl). cbn [look]. now rewrite E.
    + destruct q as [|k0 q']; auto. destruct (dget k0 m) as [c|] eqn:E2; auto.
      apply IH; [cbn in L; lia|]. intros q0 nm q1 z -> Q. apply (H (n :: k0 :: q0) nm q1 z eq_refl).
      cbn [look]. now rewrite E, E2.
Qed.
Lemma look_fields : forall h h' q y, same_fields h h' -> look h' y q = look h y q.
Proof. intros h h' q y S. apply look_frame with (k := length q); auto. intros. now rewrite S. Qed.
Lemma kids_fields : forall a b : obj, o_fields a = o_fields b -> kids a = kids b.
Proof. intros a b E. unfold kids. now rewrite E. Qed.
Lemma wfh_fields : forall h h', same_fields h h' -> wfh h -> wfh h'.
Proof. intros h h' S W x. unfold wfo. rewrite S. apply W. Qed.
Lemma same_trans : forall a b c, same_fields a b -> same_fields b c -> same_fields a c.
Proof. intros a b c A B x. now rewrite B, A. Qed.

(** ** set_notifier_path *)

(** Nothing but notifiers and paths changes. *)
Definition only_notifiers (h h' : heap) : Prop := forall x, shape (h' x) (h x).
Lemma on_refl : forall h, only_notifiers h h.
Proof. intros h x. repeat split. Qed.
Lemma on_trans : forall a b c, only_notifiers a b -> only_notifiers b c -> only_notifiers a c.
Proof.
  intros a b c A B x. destruct (A x) as (A1 & A2 & A3 & A4), (B x) as (B1 & B2 & B3 & B4).
  repeat split; congruence.
Qed.
Lemma on_fields : forall h h', only_notifiers h h' -> same_fields h h'.
Proof. intros h h' H x. apply (H x). Qed.

Lemma each_on : forall f l h h' b, (forall a c a' b', f a c = (a', b') -> only_notifiers a a') ->
  each f l h = (h', b) -> only_notifiers h h'.
Proof.
  intros f l; induction l as [|c r IH]; intros h h' b F H; cbn [each] in H.
  - injection H as <- <-. apply on_refl.
  - destruct (f h c) as [h1 [|]] eqn:E.
    + eapply on_trans; [exact (F _ _ _ _ E) | exact (IH _ _ _ F H)].
    + injection H as <- <-. exact (F _ _ _ _ E).
Qed.
Lemma on_upd : forall h x n p, only_notifiers h (upd h x (with_notifier n p (h x))).
Proof.
  intros h x n p y. unfold upd. destruct (Nat.eqb y x) eqn:E; [|repeat split].
  apply Nat.eqb_eq in E. subst y. repeat split.
Qed.
Lemma snp_on : forall f h x n p h' b, snp f h x n p = (h', b) -> only_notifiers h h'.
Proof.
  intros f; induction f as [|f IH]; intros h x n p h' b H; cbn [snp] in H.
  - injection H as <- <-. apply on_refl.
  - destruct (o_not (h x)) as [k|] eqn:E1; [destruct n as [n|]; [injection H as <- <-; apply on_refl|]|];
      (refine (on_trans _ _ _ (on_upd h x _ p) (each_on _ _ _ _ _ _ H)); intros a c a' b' Q; exact (IH _ _ _ _ _ _ Q)).
Qed.

(** Success of a call that attaches. *)
Definition attached_by (n : nat) (P : list string) (l : list (list string * nat)) (h h' : heap) : Prop :=
  (forall y, h' y = h y \/
     (o_not (h y) = None /\ o_not (h' y) = Some n /\
      (forall s c, In (s, c) (kids (h y)) -> o_not (h' c) = Some n /\ o_path (h' c) = o_path (h' y) ++ s) /\
      exists s c q, In (s, c) l /\ look h c q = Some (IModel y) /\ o_path (h' y) = P ++ s ++ q)) /\
  (forall s c, In (s, c) l -> o_not (h c) = None /\ o_not (h' c) = Some n /\ o_path (h' c) = P ++ s).

Lemma each_attach : forall (step : heap -> list string * nat -> heap * bool) n P (J : heap -> Prop),
  (forall a sc a' b', step a sc = (a', b') -> only_notifiers a a') ->
  forall l,
  (forall a sc a', In sc l -> wfh a -> J a -> step a sc = (a', true) ->
     attached_by n (P ++ fst sc) [([], snd sc)] a a' /\ J a') ->
  forall h h', wfh h -> J h -> each step l h = (h', true) -> attached_by n P l h h'.
Proof.
  intros step n P J ON l; induction l as [|[s0 c0] r IH]; intros ST h h' W HJ H; cbn [each] in H.
  - injection H as <-. split; [auto | intros s c []].
  - destruct (step h (s0, c0)) as [h1 [|]] eqn:E; [|discriminate].
    pose proof (ON _ _ _ _ E) as O1. pose proof (on_fields _ _ O1) as F1.
    destruct (ST _ _ _ (or_introl eq_refl) W HJ E) as [[A1 A2] HJ1]. cbn [fst snd] in A1, A2.
    assert (W1 : wfh h1) by (eapply wfh_fields; eauto).
    destruct (IH (fun a sc a' I => ST a sc a' (or_intror I)) h1 h' W1 HJ1 H) as [B1 B2]. clear IH.
    assert (KEEP : forall y, o_not (h1 y) = Some n -> h' y = h1 y).
    { intros y K. destruct (B1 y) as [X|(X & _)]; auto. congruence. }
    split.
    + intros y. destruct (A1 y) as [X|(X1 & X2 & X3 & s & c & q & X4 & X5 & X6)].
      * destruct (B1 y) as [Y|(Y1 & Y2 & Y3 & s & c & q & Y4 & Y5 & Y6)].
        -- left. congruence.
        -- right. rewrite X in Y1, Y3. split; [exact Y1|]. split; [exact Y2|]. split; [exact Y3|].
           exists s, c, q. split; [now right|]. rewrite (look_fields h h1 q c F1) in Y5. auto.
      * right. pose proof (KEEP y X2) as K. rewrite K. split; [exact X1|]. split; [exact X2|]. split.
        -- intros s1 c1 I. destruct (X3 _ _ I) as [Z1 Z2]. rewrite (KEEP _ Z1). auto.
        -- destruct X4 as [X4|[]]. injection X4 as <- <-. exists s0, c0, q. split; [now left|]. split; auto.
           rewrite X6. rewrite <- app_assoc. reflexivity.
    + intros s c [I|I].
      * injection I as <- <-. destruct (A2 [] c0 (or_introl eq_refl)) as (Z1 & Z2 & Z3).
        rewrite app_nil_r in Z3. rewrite (KEEP _ Z2). auto.
      * destruct (B2 s c I) as (Z1 & Z2 & Z3). split; [|auto].
        destruct (A1 c) as [X|(X & _)]; [now rewrite <- X | exact X].
Qed.

Lemma snp_attach : forall n f h x p h', wfh h -> snp f h x (Some n) p = (h', true) ->
  attached_by n p [([], x)] h h'.
Proof.
  intros n f; induction f as [|f IH]; intros h x p h' W H; cbn [snp] in H; [discriminate|].
  destruct (o_not (h x)) as [k|] eqn:E; [discriminate|].
  set (h1 := upd h x (with_notifier (Some n) p (h x))) in H.
  assert (O1 : only_notifiers h h1) by apply on_upd. pose proof (on_fields _ _ O1) as F1.
  assert (W1 : wfh h1) by (eapply wfh_fields; eauto).
  assert (V : attached_by n p (kids (h x)) h1 h').
  { refine (each_attach _ n p (fun _ => True) _ (kids (h x)) _ h1 h' W1 I H).
    - intros a sc a' b' S. eapply snp_on; eauto.
    - intros a sc a' _ Wa _ S. split; [exact (IH a (snd sc) (p ++ fst sc) a' Wa S) | exact I]. }
  destruct V as [V1 V2].
  assert (Hx : o_not (h1 x) = Some n /\ o_path (h1 x) = p) by (unfold h1; rewrite upd_same; auto).
  assert (Kx : h' x = h1 x) by (destruct (V1 x) as [X|(X & _)]; [auto | destruct Hx; congruence]).
  split.
  - intros y. destruct (Nat.eq_dec y x) as [->|N].
    + right. rewrite Kx. destruct Hx as [X1 X2]. split; [exact E|]. split; [exact X1|]. split.
      * intros s c I. rewrite X2. destruct (V2 _ _ I) as (_ & Z1 & Z2). auto.
      * exists [], x, []. split; [now left|]. split; [reflexivity|]. now rewrite X2, app_nil_r.
    + assert (Ey : h1 y = h y) by (unfold h1; now apply upd_other).
      destruct (V1 y) as [X|(X1 & X2 & X3 & s & c & q & X4 & X5 & X6)]; [left; congruence|].
      right. rewrite Ey in X1, X3. split; [exact X1|]. split; [exact X2|]. split; [exact X3|].
      exists [], x, (s ++ q). split; [now left|]. split.
      * rewrite (look_kid h x s c q (W x) X4). now rewrite (look_fields h h1 q c F1) in X5.
      * exact X6.
  - intros s c [I|[]]. injection I as <- <-. rewrite Kx. destruct Hx as [X1 X2].
    rewrite app_nil_r. auto.
Qed.

(** Success of a call that detaches. *)
Definition detached_by (l : list (list string * nat)) (h h' : heap) : Prop :=
  (forall y, h' y = h y \/
     (o_not (h' y) = None /\ exists s c q, In (s, c) l /\ look h c q = Some (IModel y))) /\
  (forall s c q y, In (s, c) l -> look h c q = Some (IModel y) -> o_not (h' y) = None).

Lemma each_detach : forall (step : heap -> list string * nat -> heap * bool) (J : heap -> Prop),
  (forall a sc a' b', step a sc = (a', b') -> only_notifiers a a') ->
  forall l,
  (forall a sc a', In sc l -> wfh a -> J a -> step a sc = (a', true) -> detached_by [([], snd sc)] a a' /\ J a') ->
  forall h h', wfh h -> J h -> each step l h = (h', true) -> detached_by l h h'.
Proof.
  intros step J ON l; induction l as [|[s0 c0] r IH]; intros ST h h' W HJ H; cbn [each] in H.
  - injection H as <-. split; [auto | intros s c q y []].
  - destruct (step h (s0, c0)) as [h1 [|]] eqn:E; [|discriminate].
    pose proof (ON _ _ _ _ E) as O1. pose proof (on_fields _ _ O1) as F1.
    destruct (ST _ _ _ (or_introl eq_refl) W HJ E) as [[A1 A2] HJ1]. cbn [fst snd] in A1, A2.
    assert (W1 : wfh h1) by (eapply wfh_fields; eauto).
    destruct (IH (fun a sc a' I => ST a sc a' (or_intror I)) h1 h' W1 HJ1 H) as [B1 B2]. clear IH.
    assert (KEEP : forall y, o_not (h1 y) = None -> o_not (h' y) = None).
    { intros y K. destruct (B1 y) as [X|(X & _)]; auto. congruence. }
    split.
    + intros y. destruct (A1 y) as [X|(X1 & s & c & q & X4 & X5)].
      * destruct (B1 y) as [Y|(Y1 & s & c & q & Y4 & Y5)]; [left; congruence|].
        right. split; auto. exists s, c, q. split; [now right|]. now rewrite (look_fields h h1 q c F1) in Y5.
      * right. split; [auto|]. destruct X4 as [X4|[]]. injection X4 as <- <-.
        exists s0, c0, q. split; [now left | auto].
    + intros s c q y [I|I] L.
      * injection I as <- <-. apply KEEP. exact (A2 [] c0 q y (or_introl eq_refl) L).
      * apply (B2 s c q y I). now rewrite (look_fields h h1 q c F1).
Qed.

Lemma snp_detach : forall f h x p h', wfh h -> snp f h x None p = (h', true) -> detached_by [([], x)] h h'.
Proof.
  intros f; induction f as [|f IH]; intros h x p h' W H; cbn [snp] in H; [discriminate|].
  assert (H2 : each (fun h' sc => snp f h' (snd sc) None (p ++ fst sc)) (kids (h x))
                 (upd h x (with_notifier None p (h x))) = (h', true)) by (destruct (o_not (h x)); exact H).
  clear H. set (h1 := upd h x (with_notifier None p (h x))) in H2.
  assert (O1 : only_notifiers h h1) by apply on_upd. pose proof (on_fields _ _ O1) as F1.
  assert (W1 : wfh h1) by (eapply wfh_fields; eauto).
  assert (V : detached_by (kids (h x)) h1 h').
  { refine (each_detach _ (fun _ => True) _ (kids (h x)) _ h1 h' W1 I H2).
    - intros a sc a' b' S. eapply snp_on; eauto.
    - intros a sc a' _ Wa _ S. split; [exact (IH a (snd sc) (p ++ fst sc) a' Wa S) | exact I]. }
  destruct V as [V1 V2].
  assert (Kx : o_not (h' x) = None).
  { destruct (V1 x) as [X|(X & _)]; auto. rewrite X. unfold h1. now rewrite upd_same. }
  split.
  - intros y. destruct (Nat.eq_dec y x) as [->|N].
    + right. split; auto. exists [], x, []. split; [now left | reflexivity].
    + assert (Ey : h1 y = h y) by (unfold h1; now apply upd_other).
      destruct (V1 y) as [X|(X1 & s & c & q & X4 & X5)]; [left; congruence|].
      right. split; auto. exists [], x, (s ++ q). split; [now left|].
      rewrite (look_kid h x s c q (W x) X4). now rewrite (look_fields h h1 q c F1) in X5.
  - intros s c q y [I|[]] L. injection I as <- <-.
    destruct (look_inv h x q y (W x) L) as [[-> ->]|(s & c & r & -> & A & B)]; auto.
    apply (V2 s c r y A). now rewrite (look_fields h h1 r c F1).
Qed.


(** The loops of set_endpoint_data. *)
Lemma set_notifier_path_on : forall h x n p h' b, set_notifier_path h x n p = (h', b) -> only_notifiers h h'.
Proof. intros h x n p h' b H. eapply snp_on; exact H. Qed.

Lemma detach_all_ok : forall l h h', wfh h -> detach_all l h = (h', true) ->
  detached_by l h h' /\ only_notifiers h h'.
Proof.
  intros l h h' W H. split.
  - refine (each_detach _ (fun _ => True) _ l _ h h' W I H).
    + intros a sc a' b' S. eapply set_notifier_path_on; exact S.
    + intros a sc a' _ Wa _ S. split; [|exact I]. exact (snp_detach _ _ _ _ _ Wa S).
  - eapply each_on; [|exact H]. intros a c a' b' S. eapply set_notifier_path_on; exact S.
Qed.

Lemma attach_all_on : forall x l h h' b, attach_all x l h = (h', b) -> only_notifiers h h'.
Proof. intros x l h h' b H. eapply each_on; [|exact H]. intros a c a' b' S. eapply set_notifier_path_on; exact S. Qed.

Lemma attach_all_ok : forall x n l h h', wfh h -> o_not (h x) = Some n -> attach_all x l h = (h', true) ->
  attached_by n (o_path (h x)) l h h'.
Proof.
  intros x n l h h' W N H.
  refine (each_attach _ n (o_path (h x)) (fun a => a x = h x) _ l _ h h' W eq_refl H).
  - intros a sc a' b' S. eapply set_notifier_path_on; exact S.
  - intros a sc a' _ Wa J S. rewrite J, N in S. pose proof (snp_attach _ _ _ _ _ _ Wa S) as A.
    split; [exact A|]. destruct A as [A _]. destruct (A x) as [E|(E & _)]; congruence.
Qed.

Lemma attach_none_ok : forall x l h h', wfh h -> o_not (h x) = None -> attach_all x l h = (h', true) ->
  detached_by l h h'.
Proof.
  intros x l h h' W N H.
  refine (each_detach _ (fun a => o_not (a x) = None) _ l _ h h' W N H).
  - intros a sc a' b' S. eapply set_notifier_path_on; exact S.
  - intros a sc a' _ Wa J S. rewrite J in S. pose proof (snp_detach _ _ _ _ _ Wa S) as A.
    split; [exact A|]. destruct A as [A _]. destruct (A x) as [E|(E & _)]; congruence.
Qed.

(** ** The invariant *)

Record inv (s : tstate) : Prop := mkInv {
  i_wf : wfh (t_heap s);
  i_level : forall x p c, In (p, c) (kids (t_heap s x)) -> o_level (t_heap s c) < o_level (t_heap s x);
  i_alloc : forall x p c, In (p, c) (kids (t_heap s x)) -> c < t_next s;
  i_blank : forall x, t_next s <= x -> t_heap s x = blank;
  i_types : forall x n l, dget n (o_types (t_heap s x)) = Some (CModel l) \/ dget n (o_types (t_heap s x)) = Some (CMap l) ->
    l < o_level (t_heap s x);
  i_block : forall x, o_block (t_heap s x) = true -> o_level (t_heap s x) = 6 /\
    forall n, dget n (o_types (t_heap s x)) <> Some CData;
  i_sync : forall x n, o_block (t_heap s x) = true -> dmem n (o_types (t_heap s x)) = false ->
    dget n (o_fields (t_heap s x)) = None;
  i_data : forall x n f, dget n (o_types (t_heap s x)) = Some CData -> dget n (o_fields (t_heap s x)) = Some f ->
    exists d, f = FData d;
  i_fresh : forall n r mri, root s n r mri -> n < length (t_roots s);
  i_nodup : NoDup (map fst (t_roots s));
  i_root : forall n r mri, root s n r mri -> o_not (t_heap s r) = Some n /\ o_path (t_heap s r) = [mri];
  i_kids : forall x n p c, o_not (t_heap s x) = Some n -> In (p, c) (kids (t_heap s x)) ->
    o_not (t_heap s c) = Some n /\ o_path (t_heap s c) = o_path (t_heap s x) ++ p;
  i_reach : forall x n, o_not (t_heap s x) = Some n ->
    exists r mri p, root s n r mri /\ o_path (t_heap s x) = mri :: p /\ look (t_heap s) r p = Some (IModel x) }.

Lemma root_fun : forall s n r mri r' mri', NoDup (map fst (t_roots s)) -> root s n r mri -> root s n r' mri' ->
  r = r' /\ mri = mri'.
Proof.
  intros s n r mri r' mri' N A B. unfold root in *. induction (t_roots s) as [|[k [y m]] l IH]; [destruct A|].
  inversion N as [|? ? X Y]; subst. cbn [In] in A, B. destruct A as [A|A], B as [B|B].
  - split; congruence.
  - injection A as -> -> ->. exfalso. apply X. apply in_map with (f := fst) in B. exact B.
  - injection B as -> -> ->. exfalso. apply X. apply in_map with (f := fst) in A. exact A.
  - auto.
Qed.

(** Everything inside an attached object is attached, at the path where it is. *)
Lemma sub_attached : forall s, inv s -> forall k q x n y, length q <= k -> o_not (t_heap s x) = Some n ->
  look (t_heap s) x q = Some (IModel y) -> o_not (t_heap s y) = Some n /\ o_path (t_heap s y) = o_path (t_heap s x) ++ q.
Proof.
  intros s I k; induction k as [|k IH]; intros q x n y L N H.
  - destruct q; [|cbn in L; lia]. cbn in H. injection H as ->. rewrite app_nil_r. auto.
  - destruct (look_inv _ x q y (i_wf s I x) H) as [[-> ->]|(t & c & r & -> & A & B)].
    + rewrite app_nil_r. auto.
    + destruct (i_kids s I x n t c N A) as [C1 C2].
      assert (Lr : length r <= k) by (rewrite app_length in L; pose proof (kids_len _ _ _ A); lia).
      destruct (IH r c n y Lr C1 B) as [D1 D2]. split; auto. now rewrite D2, C2, app_assoc.
Qed.

Theorem located : forall s, inv s -> forall n r mri, root s n r mri -> forall x p,
  look (t_heap s) r p = Some (IModel x) <-> o_not (t_heap s x) = Some n /\ o_path (t_heap s x) = mri :: p.
Proof.
  intros s I n r mri R x p. destruct (i_root s I n r mri R) as [R1 R2]. split.
  - intros H. destruct (sub_attached s I (length p) p r n x (le_n _) R1 H) as [A B]. rewrite R2 in B. auto.
  - intros [A B]. destruct (i_reach s I x n A) as (r' & mri' & p' & C & D & E).
    destruct (root_fun s n r mri r' mri' (i_nodup s I) R C) as [-> ->].
    rewrite B in D. injection D as <-. exact E.
Qed.

Lemma level_sub : forall s, inv s -> forall k q x y, length q <= k -> look (t_heap s) x q = Some (IModel y) ->
  o_level (t_heap s y) <= o_level (t_heap s x).
Proof.
  intros s I k; induction k as [|k IH]; intros q x y L H.
  - destruct q; [|cbn in L; lia]. cbn in H. injection H as ->. lia.
  - destruct (look_inv _ x q y (i_wf s I x) H) as [[-> ->]|(t & c & r & -> & A & B)]; [lia|].
    pose proof (i_level s I x t c A).
    assert (Lr : length r <= k) by (rewrite app_length in L; pose proof (kids_len _ _ _ A); lia).
    pose proof (IH r c y Lr B). lia.
Qed.

Lemma kid_form : forall o s c, wfo o -> In (s, c) (kids o) ->
  (exists nm, s = [nm] /\ dget nm (o_fields o) = Some (FModel c)) \/
  (exists nm k m, s = [nm; k] /\ dget nm (o_fields o) = Some (FMap m) /\ dget k m = Some c).
Proof.
  intros o s c W H. pose proof W as [_ W2]. apply In_kids in H; auto. destruct H as (nm & f & A & B).
  destruct f as [d|i|m]; cbn [fkids] in B; [destruct B| |].
  - destruct B as [B|[]]. injection B as <- <-. left. eauto.
  - apply in_map_iff in B. destruct B as ([k i] & B & C). injection B as <- <-. right.
    exists nm, k, m. cbn [fst]. split; auto. split; auto. apply dget_In_nodup; auto. exact (W2 _ _ A).
Qed.

(** An object has one parent in the blocks. *)
Lemma one_parent : forall s, inv s -> forall y z n m p q c, o_not (t_heap s y) = Some n -> o_not (t_heap s z) = Some m ->
  In (p, c) (kids (t_heap s y)) -> In (q, c) (kids (t_heap s z)) -> y = z /\ p = q.
Proof.
  intros s I y z n m p q c Ny Nz Ky Kz.
  destruct (i_kids s I y n p c Ny Ky) as [A1 A2], (i_kids s I z m q c Nz Kz) as [B1 B2].
  assert (n = m) by congruence. subst m.
  destruct (i_reach s I y n Ny) as (r & mri & py & Ry & Py & Ly).
  destruct (i_reach s I z n Nz) as (r' & mri' & pz & Rz & Pz & Lz).
  destruct (root_fun s n r mri r' mri' (i_nodup s I) Ry Rz) as [<- <-].
  assert (E : py ++ p = pz ++ q) by (rewrite A2, Py, Pz in B2; cbn in B2; injection B2; auto).
  pose proof (i_wf s I) as W.
  destruct (kid_form _ p c (W y) Ky) as [(a & -> & Fa)|(a & k & ma & -> & Fa & Ga)];
  destruct (kid_form _ q c (W z) Kz) as [(b & -> & Fb)|(b & l & mb & -> & Fb & Gb)].
  - apply app_inj_tail in E. destruct E as [-> ->]. split; congruence.
  - exfalso. change [b; l] with ([b] ++ [l]) in E. rewrite app_assoc in E. apply app_inj_tail in E.
    destruct E as [-> ->]. rewrite (look_app _ W (length pz) pz r z [b] (le_n _) Lz) in Ly.
    cbn [look] in Ly. rewrite Fb in Ly. discriminate.
  - exfalso. change [a; k] with ([a] ++ [k]) in E. rewrite app_assoc in E. apply app_inj_tail in E.
    destruct E as [<- ->]. rewrite (look_app _ W (length py) py r y [a] (le_n _) Ly) in Lz.
    cbn [look] in Lz. rewrite Fa in Lz. discriminate.
  - change [a; k] with ([a] ++ [k]) in E. change [b; l] with ([b] ++ [l]) in E. rewrite !app_assoc in E.
    apply app_inj_tail in E. destruct E as [E ->]. apply app_inj_tail in E. destruct E as [-> ->].
    split; congruence.
Qed.

(** Inside an attribute: what a lookup that starts with the name finds. *)
Lemma look_under : forall h x name q y, look h x (name :: q) = Some (IModel y) ->
  exists s c r, In (s, c) (olds h x name) /\ look h c r = Some (IModel y).
Proof.
  intros h x name q y H. cbn [look] in H. unfold olds.
  destruct (dget name (o_fields (h x))) as [[d|c|m]|] eqn:E; try discriminate.
  - destruct q; discriminate.
  - exists [name], c, q. cbn. auto.
  - destruct q as [|k q']; [discriminate|]. destruct (dget k m) as [c|] eqn:F; [|discriminate].
    exists [name; k], c, q'. split; auto. cbn [fkids]. apply in_map_iff. exists (k, c). split; auto.
    now apply dget_Some_In.
Qed.

Lemma olds_kids : forall h x name s c, wfo (h x) -> In (s, c) (olds h x name) -> In (s, c) (kids (h x)).
Proof.
  intros h x name s c W H. unfold olds in H. destruct (dget name (o_fields (h x))) as [f|] eqn:E; [|destruct H].
  apply In_kids; eauto.
Qed.
Lemma fkids_head : forall n f s c, In (s, c) (fkids n f) -> exists t, s = n :: t.
Proof.
  intros n f s c H. destruct f as [d|i|m]; cbn [fkids] in H; [destruct H| |].
  - destruct H as [H|[]]. injection H as <- <-. eauto.
  - apply in_map_iff in H. destruct H as ([k i] & H & _). injection H as <- <-. eauto.
Qed.
Lemma olds_head : forall h x name s c, In (s, c) (olds h x name) -> exists t, s = name :: t.
Proof.
  intros h x name s c H. unfold olds in H. destruct (dget name (o_fields (h x))) as [f|]; [|destruct H].
  eapply fkids_head; eauto.
Qed.
