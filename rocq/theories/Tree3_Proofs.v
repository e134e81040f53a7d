(** C50, proofs: the operations. *)
From Coq Require Import String Bool ZArith Lia List.
From Verif Require Import Base Tree_Model Tree_Spec Tree_Proofs Tree2_Proofs.
Import ListNotations.
Local Open Scope list_scope.

Lemma with_heap_heap : forall s h, t_heap (with_heap s h) = h. Proof. reflexivity. Qed.
Lemma with_heap_twice : forall s a b, with_heap (with_heap s a) b = with_heap s b. Proof. reflexivity. Qed.

Lemma announces_then : forall s cs1 s1 cs2 s2, t_roots s1 = t_roots s -> t_roots s2 = t_roots s1 ->
  announces s cs1 s1 -> announces s1 cs2 s2 ->
  (forall n p v p' v', In (n, p, v) cs1 -> In (n, p', v') cs2 -> ~ leads p' p) ->
  forall cs, (forall c, In c cs <-> In c cs1 \/ In c cs2) -> announces s cs s2.
Proof.
  intros s cs1 s1 cs2 s2 R1 R2 [A1 A2] [B1 B2] D cs U. split.
  - intros n p v H. apply U in H. destruct H as [H|H].
    + destruct (A1 n p v H) as (r & mri & q & X & -> & Y). exists r, mri, q.
      split. { unfold root in *. now rewrite R2. } split; [reflexivity|].
      rewrite <- Y. apply (B2 n r mri q X). intros p' v' K. exact (D n _ v p' v' H K).
    + exact (B1 n p v H).
  - intros n r mri q R H. rewrite (B2 n r mri q).
    + apply (A2 n r mri q R). intros p v K. apply (H p v). apply U. auto.
    + unfold root in *. now rewrite R1.
    + intros p v K. apply (H p v). apply U. auto.
Qed.

(** A swap with what it tells. *)
Lemma swap_announces : forall s x name v h1 h2, inv s -> x < t_next s ->
  detach_all (olds (t_heap s) x name) (t_heap s) = (h1, true) ->
  attach_all x (news name (option_map field_of v)) h1 = (h2, true) ->
  map_ok (option_map field_of v) ->
  (forall p c, In (p, c) (news name (option_map field_of v)) -> o_level (t_heap s c) < o_level (t_heap s x)) ->
  (forall p c, In (p, c) (news name (option_map field_of v)) -> c < t_next s) ->
  (o_not (t_heap s x) = None -> forall p c,
    In (p, c) (olds (t_heap s) x name) \/ In (p, c) (news name (option_map field_of v)) -> quiet (t_heap s) c) ->
  (o_block (t_heap s x) = true -> dmem name (o_types (t_heap s x)) = false -> option_map field_of v = None) ->
  (dget name (o_types (t_heap s x)) = Some CData -> forall f, option_map field_of v = Some f -> exists d, f = FData d) ->
  let h3 := put h2 x name (option_map field_of v) in
  inv (with_heap s h3) /\ announces s (tell (t_heap s x) name v) (with_heap s h3) /\ h2 x = t_heap s x.
Proof.
  intros s x name v h1 h2 I X D A M L N Q B C h3. split; [|split].
  - exact (swap_inv s x name _ h1 h2 I X D A M L N Q B C).
  - split.
    + intros n p v' H. pose proof (swap_told s x name _ h1 h2 I X D A M L N Q B C) as ST.
      unfold tell in H. destruct (o_not (t_heap s x)) as [k|] eqn:E; [|destruct H].
      destruct H as [H|[]]. assert (k = n) by congruence. assert (v = v') by congruence. subst k v'.
      assert (P : p = o_path (t_heap s x) ++ [name]) by congruence. subst p.
      destruct (ST n eq_refl) as (r & mri & q & R & P & K).
      exists r, mri, q. split; [exact R|]. split; [exact P|]. cbn [with_heap t_heap]. unfold h3. rewrite K.
      destruct v as [[d|i|m]|]; reflexivity.
    + intros n r mri q R H. cbn [with_heap t_heap].
      apply (swap_frame s x name _ h1 h2 I D A n r mri q R). intros p E ->.
      apply (H _ v). unfold tell. rewrite E. now left.
  - exact (x02 s x name _ h1 h2 I X D A L).
Qed.

Lemma store_put : forall h x name v, store h x name v = (put h x name (Some (field_of v)), Ok (tell (h x) name (Some v))).
Proof. reflexivity. Qed.

(** Plain data. *)
Lemma data_ok : forall s x name d, inv s -> x < t_next s -> dget name (o_types (t_heap s x)) = Some CData ->
  let h3 := put (t_heap s) x name (Some (FData d)) in
  inv (with_heap s h3) /\ announces s (tell (t_heap s x) name (Some (VData d))) (with_heap s h3).
Proof.
  intros s x name d I X T h3.
  assert (O : olds (t_heap s) x name = []).
  { unfold olds. destruct (dget name (o_fields (t_heap s x))) as [f|] eqn:E; auto.
    destruct (i_data s I x name f T E) as [d' ->]. reflexivity. }
  destruct (swap_announces s x name (Some (VData d)) (t_heap s) (t_heap s) I X) as (A & B & _).
  - now rewrite O.
  - reflexivity.
  - exact Logic.I.
  - intros p c [].
  - intros p c [].
  - intros _ p c [H|[]]. rewrite O in H. destruct H.
  - intros _ H. unfold dmem in H. rewrite T in H. discriminate.
  - intros _ f E. injection E as <-. eauto.
  - auto.
Qed.

Lemma in_fkids_ids : forall name v p c, In (p, c) (fkids name (field_of v)) -> In c (value_ids v).
Proof.
  intros name v p c H. destruct v as [d|i|m]; cbn [field_of fkids value_ids] in *.
  - destruct H.
  - destruct H as [H|[]]. injection H as _ ->. now left.
  - apply in_map_iff in H. destruct H as ([k j] & H & K). injection H as _ <-.
    apply in_map_iff. exists (k, j). auto.
Qed.
Lemma distinct_NoDup : forall l, distinct l = true -> NoDup l.
Proof.
  intros l; induction l as [|a r IH]; intros H; [constructor|]. cbn [distinct] in H.
  apply andb_true_iff in H. destruct H as [H1 H2]. constructor; auto.
  apply negb_true_iff in H1. now apply smem_false.
Qed.

Lemma set_data_ok : forall s x name v h' cs, inv s -> x < t_next s -> o_block (t_heap s x) = false ->
  value_ok s v = true -> disciplined s (TSet x name v) -> set_data (t_heap s) x name v = (h', Ok cs) ->
  inv (with_heap s h') /\ announces s cs (with_heap s h') /\ cs = tell (t_heap s x) name (Some v) /\
  (forall y, o_block (t_heap s y) = true -> h' y = t_heap s y \/
     o_block (h' y) = true /\ o_types (h' y) = o_types (t_heap s y) /\ o_fields (h' y) = o_fields (t_heap s y)) /\
  (forall y, o_block (h' y) = o_block (t_heap s y)).
Proof.
  intros s x name v h' cs I X Bk V Di H. unfold value_ok in V. apply andb_true_iff in V. destruct V as [V1 V2].
  rewrite forallb_forall in V1.
  assert (Qd : o_not (t_heap s x) = None -> forall p c,
    In (p, c) (olds (t_heap s) x name) \/ In (p, c) (fkids name (field_of v)) -> quiet (t_heap s) c).
  { intros E p c K. apply (Di x c); auto. cbn [touches]. split; auto. destruct K as [K|K].
    - left. apply in_map with (f := snd) in K. exact K.
    - right. eapply in_fkids_ids; eauto. }
  assert (Nx : forall p c, In (p, c) (fkids name (field_of v)) -> c < t_next s).
  { intros p c K. apply in_fkids_ids in K. apply V1 in K. now apply Nat.ltb_lt in K. }
  unfold set_data in H. destruct (dget name (o_types (t_heap s x))) as [[|l|l]|] eqn:T; [| | |discriminate].
  - destruct v as [d|i|m]; try discriminate. rewrite store_put in H. injection H as <- <-.
    destruct (data_ok s x name d I X T) as [D1 D2]. split; [exact D1|]. split; [exact D2|]. split; [reflexivity|].
    split. { intros y Y. left. apply put_other. intros ->. congruence. } intros y. apply put_block.
  - destruct v as [d|i|m]; try discriminate.
    destruct (detach_all (olds (t_heap s) x name) (t_heap s)) as [h1 [|]] eqn:D; [|discriminate].
    destruct (attach_all x [([name], i)] h1) as [h2 [|]] eqn:A; [|discriminate].
    destruct (Nat.leb (o_level (h2 i)) l) eqn:E; [|discriminate]. rewrite store_put in H. injection H as <- <-.
    apply Nat.leb_le in E.
    assert (ON : only_notifiers (t_heap s) h2).
    { destruct (detach_all_ok _ _ _ (i_wf s I) D) as [_ O1]. exact (on_trans _ _ _ O1 (attach_all_on _ _ _ _ _ A)). }
    assert (BK : (forall f y, o_block (t_heap s y) = true -> put h2 x name f y = t_heap s y \/
       o_block (put h2 x name f y) = true /\ o_types (put h2 x name f y) = o_types (t_heap s y) /\
       o_fields (put h2 x name f y) = o_fields (t_heap s y)) /\
       (forall f y, o_block (put h2 x name f y) = o_block (t_heap s y))).
    { split.
      - intros f y Y. right. assert (y <> x) by congruence. rewrite put_other by assumption.
        destruct (ON y) as (Z1 & _ & Z3 & Z4). repeat split; congruence.
      - intros f y. rewrite put_block. apply (ON y). }
    destruct BK as [BK1 BK2].
    assert (W : wfh (t_heap s)) by apply (i_wf s I).
    assert (Lv : o_level (h2 i) = o_level (t_heap s i)).
    { destruct (detach_all_ok _ _ _ W D) as [_ O1]. pose proof (attach_all_on _ _ _ _ _ A) as O2.
      destruct (on_trans _ _ _ O1 O2 i) as (_ & Z & _). exact Z. }
    destruct (swap_announces s x name (Some (VModel i)) h1 h2 I X D A Logic.I) as (R1 & R2 & R3); auto.
    + intros p c [K|[]]. injection K as _ <-. pose proof (i_types s I x name l (or_introl T)). lia.
    + congruence.
    + congruence.
    + rewrite R3. repeat (split; [first [exact R1 | exact R2 | reflexivity]|]). split; [apply BK1 | apply BK2].
  - destruct v as [d|i|m]; try discriminate.
    destruct (forallb (fun kc => Nat.leb (o_level (t_heap s (snd kc))) l) m) eqn:F; [|discriminate].
    destruct (detach_all (olds (t_heap s) x name) (t_heap s)) as [h1 [|]] eqn:D; [|discriminate].
    destruct (attach_all x (fkids name (FMap m)) h1) as [h2 [|]] eqn:A; [|discriminate].
    rewrite store_put in H. injection H as <- <-. rewrite forallb_forall in F.
    assert (ON : only_notifiers (t_heap s) h2).
    { destruct (detach_all_ok _ _ _ (i_wf s I) D) as [_ O1]. exact (on_trans _ _ _ O1 (attach_all_on _ _ _ _ _ A)). }
    assert (BK : (forall f y, o_block (t_heap s y) = true -> put h2 x name f y = t_heap s y \/
       o_block (put h2 x name f y) = true /\ o_types (put h2 x name f y) = o_types (t_heap s y) /\
       o_fields (put h2 x name f y) = o_fields (t_heap s y)) /\
       (forall f y, o_block (put h2 x name f y) = o_block (t_heap s y))).
    { split.
      - intros f y Y. right. assert (y <> x) by congruence. rewrite put_other by assumption.
        destruct (ON y) as (Z1 & _ & Z3 & Z4). repeat split; congruence.
      - intros f y. rewrite put_block. apply (ON y). }
    destruct BK as [BK1 BK2].
    destruct (swap_announces s x name (Some (VMap m)) h1 h2 I X D A) as (R1 & R2 & R3); auto.
    + now apply distinct_NoDup.
    + intros p c K. cbn [news option_map field_of fkids] in K. apply in_map_iff in K.
      destruct K as ([k j] & K & K2). injection K as _ <-. apply F in K2. apply Nat.leb_le in K2. cbn [snd] in *.
      pose proof (i_types s I x name l (or_intror T)). lia.
    + congruence.
    + congruence.
    + rewrite R3. repeat (split; [first [exact R1 | exact R2 | reflexivity]|]). split; [apply BK1 | apply BK2].
Qed.

(** The call_types of a block. *)
Definition retype (h : heap) (b : nat) (t : dict ct) : heap := upd h b (with_types t (h b)).
Lemma retype_fields : forall h b t y, o_fields (retype h b t y) = o_fields (h y).
Proof. intros. unfold retype, upd. destruct (Nat.eqb y b) eqn:E; auto. apply Nat.eqb_eq in E. now subst y. Qed.
Lemma retype_not : forall h b t y, o_not (retype h b t y) = o_not (h y).
Proof. intros. unfold retype, upd. destruct (Nat.eqb y b) eqn:E; auto. apply Nat.eqb_eq in E. now subst y. Qed.
Lemma retype_path : forall h b t y, o_path (retype h b t y) = o_path (h y).
Proof. intros. unfold retype, upd. destruct (Nat.eqb y b) eqn:E; auto. apply Nat.eqb_eq in E. now subst y. Qed.
Lemma retype_level : forall h b t y, o_level (retype h b t y) = o_level (h y).
Proof. intros. unfold retype, upd. destruct (Nat.eqb y b) eqn:E; auto. apply Nat.eqb_eq in E. now subst y. Qed.
Lemma retype_block : forall h b t y, o_block (retype h b t y) = o_block (h y).
Proof. intros. unfold retype, upd. destruct (Nat.eqb y b) eqn:E; auto. apply Nat.eqb_eq in E. now subst y. Qed.
Lemma retype_kids : forall h b t y, kids (retype h b t y) = kids (h y).
Proof. intros. apply kids_fields, retype_fields. Qed.
Lemma retype_look : forall h b t y q, look (retype h b t) y q = look h y q.
Proof. intros. apply look_fields. intro. apply retype_fields. Qed.
Lemma retype_types : forall h b t, o_types (retype h b t b) = t.
Proof. intros. unfold retype. now rewrite upd_same. Qed.
Lemma retype_other : forall h b t y, y <> b -> retype h b t y = h y.
Proof. intros. unfold retype. now apply upd_other. Qed.

Lemma retype_inv : forall s b t, inv s -> b < t_next s ->
  (forall n l, dget n t = Some (CModel l) \/ dget n t = Some (CMap l) -> l < o_level (t_heap s b)) ->
  (o_block (t_heap s b) = true -> forall n, dget n t <> Some CData) ->
  (forall n, o_block (t_heap s b) = true -> dmem n t = false -> dget n (o_fields (t_heap s b)) = None) ->
  (forall n f, dget n t = Some CData -> dget n (o_fields (t_heap s b)) = Some f -> exists d, f = FData d) ->
  inv (with_heap s (retype (t_heap s) b t)).
Proof.
  intros s b t I L T B S C. split; cbn [with_heap t_heap t_next t_roots].
  - eapply wfh_fields; [|apply (i_wf s I)]. intro. apply retype_fields.
  - intros x p c. rewrite retype_kids, !retype_level. apply (i_level s I).
  - intros x p c. rewrite retype_kids. apply (i_alloc s I).
  - intros x N. rewrite retype_other by lia. now apply (i_blank s I).
  - intros x n l. rewrite retype_level. destruct (Nat.eq_dec x b) as [->|E].
    + rewrite retype_types. apply T.
    + rewrite retype_other by assumption. apply (i_types s I).
  - intros x K. rewrite retype_block in K. rewrite retype_level. destruct (i_block s I x K) as [K1 K2]. split; [exact K1|].
    destruct (Nat.eq_dec x b) as [->|E].
    + rewrite retype_types. exact (B K).
    + rewrite retype_other by assumption. exact K2.
  - intros x n. rewrite retype_block, retype_fields. destruct (Nat.eq_dec x b) as [->|E].
    + rewrite retype_types. apply S.
    + rewrite retype_other by assumption. apply (i_sync s I).
  - intros x n f. rewrite retype_fields. destruct (Nat.eq_dec x b) as [->|E].
    + rewrite retype_types. apply C.
    + rewrite retype_other by assumption. apply (i_data s I).
  - apply (i_fresh s I).
  - apply (i_nodup s I).
  - intros n r mri R. rewrite retype_not, retype_path. exact (i_root s I n r mri R).
  - intros x n p c. rewrite retype_kids, !retype_not, !retype_path. apply (i_kids s I).
  - intros x n. rewrite retype_not, retype_path. intros H.
    destruct (i_reach s I x n H) as (r & mri & p & R & P & K). exists r, mri, p. now rewrite retype_look.
Qed.
Lemma retype_announces : forall s b t, announces s [] (with_heap s (retype (t_heap s) b t)).
Proof. intros s b t. split; [intros n p v []|]. intros n r mri q _ _. apply retype_look. Qed.

(** meta.fields *)
Lemma update_fields_ok : forall s b h' cs, inv s -> b < t_next s -> update_fields (t_heap s) b = (h', Ok cs) ->
  inv (with_heap s h') /\ announces s cs (with_heap s h') /\
  exists m, dget "meta" (o_fields (t_heap s b)) = Some (FModel m) /\
    h' = put (t_heap s) m "fields" (Some (FData (DNames (filter (fun k => negb (String.eqb k "meta")) (dkeys (o_types (t_heap s b))))))) /\
    cs = tell (t_heap s m) "fields" (Some (VData (DNames (filter (fun k => negb (String.eqb k "meta")) (dkeys (o_types (t_heap s b))))))).
Proof.
  intros s b h' cs I X H. unfold update_fields in H.
  destruct (dget "meta" (o_fields (t_heap s b))) as [[d|m|m]|] eqn:E; try discriminate.
  set (names := filter _ _) in H |- *.
  assert (M : In (["meta"%string], m) (kids (t_heap s b))).
  { apply In_kids; [apply (i_wf s I)|]. exists "meta"%string, (FModel m). cbn. auto. }
  pose proof (i_alloc s I b _ m M) as Mn.
  unfold set_data in H. destruct (dget "fields" (o_types (t_heap s m))) as [[|l|l]|] eqn:T; try discriminate.
  rewrite store_put in H. injection H as <- <-.
  destruct (data_ok s m "fields" (DNames names) I Mn T) as [A B]. split; [exact A|]. split; [exact B|].
  exists m. auto.
Qed.

Lemma tell_none : forall o name v, o_not o = None -> tell o name v = [].
Proof. intros o name v H. unfold tell. now rewrite H. Qed.
Lemma not_leads_short : forall p q, length q < length p -> ~ leads p q.
Proof. intros p q L [r ->]. rewrite app_length in L. lia. Qed.

(** One attribute of a block is replaced or removed, then the list of names. *)
Lemma block_swap : forall s b name v h1 h2 h4 c2, inv s -> b < t_next s -> o_block (t_heap s b) = true ->
  detach_all (olds (t_heap s) b name) (t_heap s) = (h1, true) ->
  attach_all b (news name (option_map field_of v)) h1 = (h2, true) ->
  (v = None \/ dmem name (o_types (t_heap s b)) = true /\ exists i, v = Some (VModel i) /\ i < t_next s /\ o_level (t_heap s i) <= 5) ->
  (o_not (t_heap s b) = None -> forall p c,
    In (p, c) (olds (t_heap s) b name) \/ In (p, c) (news name (option_map field_of v)) -> quiet (t_heap s) c) ->
  let h3 := put h2 b name (option_map field_of v) in
  forall t, (forall y, h4 y = retype h3 b t y) -> inv (with_heap s h4) -> forall h5, update_fields h4 b = (h5, Ok c2) ->
  inv (with_heap s h5) /\
  (forall cs, (forall c, In c cs <-> In c (tell (t_heap s b) name v) \/ In c c2) -> announces s cs (with_heap s h5)) /\
  look h5 b ["meta"; "fields"]%string =
    Some (IData (DNames (filter (fun k => negb (String.eqb k "meta")) (dkeys (o_types (h5 b)))))) /\
  o_types (h5 b) = t /\ o_fields (h5 b) = o_fields (h3 b) /\ o_not (h5 b) = o_not (t_heap s b) /\
  o_path (h5 b) = o_path (t_heap s b).
Proof.
  intros s b name v h1 h2 h4 c2 I X Bk D A V Q h3 t E4 I4 h5 U.
  destruct (i_block s I b Bk) as [Lb Cb].
  assert (Vk : forall p c, In (p, c) (news name (option_map field_of v)) -> c < t_next s /\ o_level (t_heap s c) <= 5).
  { intros p c K. destruct V as [->|(_ & i & -> & V1 & V2)]; [destruct K|].
    destruct K as [K|[]]. injection K as _ <-. auto. }
  destruct (swap_announces s b name v h1 h2 I X D A) as (R1 & R2 & R3).
  - destruct V as [->|(_ & i & -> & _)]; exact Logic.I.
  - intros p c K. apply Vk in K. lia.
  - intros p c K. apply Vk in K. tauto.
  - exact Q.
  - intros _ K. destruct V as [->|(V & _)]; [reflexivity | congruence].
  - intros K. exfalso. exact (Cb name K).
  - fold h3 in R1, R2.
    destruct (update_fields_ok (with_heap s h4) b h5 c2 I4 X U) as (U1 & U2 & m & U3 & U4 & U5).
    rewrite with_heap_twice in U1, U2. cbn [with_heap t_heap] in U3, U4, U5.
    assert (Ob3 : forall y, o_not (h3 y) = o_not (h2 y) /\ o_path (h3 y) = o_path (h2 y))
      by (intros y; unfold h3; now rewrite put_not, put_path).
    assert (Ob4 : forall y, o_not (h4 y) = o_not (h3 y) /\ o_path (h4 y) = o_path (h3 y))
      by (intros y; rewrite E4; now rewrite retype_not, retype_path).
    assert (Ob5 : forall y, o_not (h5 y) = o_not (h4 y) /\ o_path (h5 y) = o_path (h4 y))
      by (intros y; rewrite U4; now rewrite put_not, put_path).
    assert (Nb : o_not (h4 b) = o_not (t_heap s b) /\ o_path (h4 b) = o_path (t_heap s b)).
    { destruct (Ob4 b) as [-> ->], (Ob3 b) as [-> ->]. now rewrite R3. }
    assert (K4 : In (["meta"%string], m) (kids (h4 b))).
    { apply In_kids; [apply (i_wf _ I4)|]. exists "meta"%string, (FModel m). cbn. auto. }
    assert (Mb : m <> b) by (intros ->; pose proof (i_level _ I4 b _ b K4); lia).
    split; [exact U1|]. split; [|split; [|split; [|split; [|split]]]].
    + intros cs Hcs.
      assert (S1 : announces s (tell (t_heap s b) name v) (with_heap s h4)).
      { assert (RA : announces (with_heap s h3) [] (with_heap s h4)).
        { split; [intros n p w []|]. intros n r mri q _ _. cbn [with_heap t_heap]. apply look_fields.
          intros y. rewrite E4. apply retype_fields. }
        refine (announces_then s _ (with_heap s h3) [] (with_heap s h4) eq_refl eq_refl R2 RA _ _ _).
        - intros n p w p' w' _ [].
        - intros c. cbn. tauto. }
      refine (announces_then s _ (with_heap s h4) c2 (with_heap s h5) eq_refl eq_refl S1 U2 _ cs Hcs).
      intros n p w p' w' P1 P2. apply not_leads_short.
      unfold tell in P1. destruct (o_not (t_heap s b)) as [k|] eqn:Ek; [|destruct P1].
      destruct P1 as [P1|[]].
      assert (p = o_path (t_heap s b) ++ [name]) by congruence. subst p.
      destruct Nb as [Nb1 Nb2].
      destruct (i_kids _ I4 b k _ m Nb1 K4) as [M1 M2]. cbn [with_heap t_heap] in M1, M2.
      rewrite U5 in P2. unfold tell in P2. rewrite M1 in P2. destruct P2 as [P2|[]].
      assert (p' = o_path (h4 m) ++ ["fields"%string]) by congruence. subst p'.
      rewrite M2, Nb2, !app_length. cbn. lia.
    + cbn [look]. rewrite U4. rewrite put_other by congruence. rewrite U3. cbn [look].
      rewrite put_get by apply (i_wf _ I4). cbn. reflexivity.
    + rewrite U4. rewrite put_other by congruence. rewrite E4. now rewrite retype_types.
    + rewrite U4. rewrite put_other by congruence. rewrite E4. now rewrite retype_fields.
    + destruct (Ob5 b) as [-> _]. tauto.
    + destruct (Ob5 b) as [_ ->]. tauto.
Qed.

Lemma retype_self : forall h b y, h y = retype h b (o_types (h b)) y.
Proof.
  intros h b y. unfold retype, upd. destruct (Nat.eqb y b) eqn:E; auto. apply Nat.eqb_eq in E. subst y.
  destruct (h b); reflexivity.
Qed.

Definition block_result (s : tstate) (b : nat) (h' : heap) (cs : list change) : Prop :=
  inv (with_heap s h') /\ announces s cs (with_heap s h') /\
  look h' b ["meta"; "fields"]%string =
    Some (IData (DNames (filter (fun k => negb (String.eqb k "meta")) (dkeys (o_types (h' b)))))).

Lemma block_put_ok : forall s b name i h1 h2 h4 c2, inv s -> b < t_next s -> o_block (t_heap s b) = true ->
  i < t_next s -> o_level (t_heap s i) <= 5 -> dmem name (o_types (t_heap s b)) = true ->
  (o_not (t_heap s b) = None -> forall p c,
    In (p, c) (olds (t_heap s) b name) \/ In (p, c) [([name], i)] -> quiet (t_heap s) c) ->
  detach_all (olds (t_heap s) b name) (t_heap s) = (h1, true) -> attach_all b [([name], i)] h1 = (h2, true) ->
  update_fields (put h2 b name (Some (FModel i))) b = (h4, Ok c2) ->
  block_result s b h4 (tell (h2 b) name (Some (VModel i)) ++ c2) /\
  o_types (h4 b) = o_types (t_heap s b) /\ o_fields (h4 b) = dset name (FModel i) (o_fields (t_heap s b)).
Proof.
  intros s b name i h1 h2 h4 c2 I X Bk Xi Li Dm Q D A U.
  set (h3 := put h2 b name (Some (FModel i))) in U.
  destruct (i_block s I b Bk) as [Lb Cb].
  destruct (swap_announces s b name (Some (VModel i)) h1 h2 I X D A Logic.I) as (R1 & R2 & R3).
  { intros p c [K|[]]. injection K as _ <-. lia. }
  { intros p c [K|[]]. injection K as _ <-. exact Xi. }
  { exact Q. } { congruence. } { intros K. exfalso. exact (Cb name K). }
  cbn [option_map field_of] in R1, R2. fold h3 in R1, R2.
  destruct (block_swap s b name (Some (VModel i)) h1 h2 h3 c2 I X Bk D A) with (t := o_types (h3 b)) (h5 := h4)
    as (S1 & S2 & S3 & S4 & S5 & S6 & S7).
  - right. split; [exact Dm|]. exists i. auto.
  - exact Q.
  - apply retype_self.
  - exact R1.
  - exact U.
  - split; [split; [exact S1|split; [|exact S3]]|split].
    + apply S2. intros c. rewrite R3. apply in_app_iff.
    + rewrite S4. unfold h3. rewrite put_types. now rewrite R3.
    + rewrite S5. cbn [option_map field_of]. unfold put. rewrite upd_same. cbn [with_field o_fields]. now rewrite R3.
Qed.

Lemma block_set_ok : forall s b name i h' cs, inv s -> b < t_next s -> o_block (t_heap s b) = true ->
  i < t_next s -> disciplined s (TBlockSet b name i) -> block_set (t_heap s) b name i = (h', Ok cs) ->
  block_result s b h' cs /\
  o_types (h' b) = (if dmem name (o_types (t_heap s b)) then o_types (t_heap s b)
                    else dset name (CModel 5) (o_types (t_heap s b))) /\
  o_fields (h' b) = dset name (FModel i) (o_fields (t_heap s b)).
Proof.
  intros s b name i h' cs I X Bk Xi Di H. unfold block_set in H.
  destruct (block_takes (t_heap s) name i) eqn:T; [|discriminate]. cbn [negb] in H.
  unfold block_takes in T. apply andb_true_iff in T. destruct T as [Li _]. apply Nat.leb_le in Li.
  assert (Q : o_not (t_heap s b) = None -> forall p c,
    In (p, c) (olds (t_heap s) b name) \/ In (p, c) [([name], i)] -> quiet (t_heap s) c).
  { intros E p c K. apply (Di b c); auto. cbn [touches]. split; auto. destruct K as [K|[K|[]]].
    - left. apply in_map with (f := snd) in K. exact K.
    - right. congruence. }
  destruct (dmem name (o_types (t_heap s b))) eqn:Dm.
  - destruct (dget name (o_fields (t_heap s b))) as [f|] eqn:F; [|discriminate].
    destruct (detach_all (olds (t_heap s) b name) (t_heap s)) as [h1 [|]] eqn:D; [|discriminate].
    destruct (attach_all b [([name], i)] h1) as [h2 [|]] eqn:A; [|discriminate].
    rewrite store_put in H. destruct (update_fields (put h2 b name (Some (field_of (VModel i)))) b) as [h4 [c2|]] eqn:U; [|discriminate].
    injection H as <- <-.
    exact (block_put_ok s b name i h1 h2 h4 c2 I X Bk Xi Li Dm Q D A U).
  - set (t := dset name (CModel 5) (o_types (t_heap s b))) in H |- *.
    change (upd (t_heap s) b (with_types t (t_heap s b))) with (retype (t_heap s) b t) in H.
    set (s0 := with_heap s (retype (t_heap s) b t)).
    destruct (i_block s I b Bk) as [Lb Cb].
    assert (I0 : inv s0).
    { apply retype_inv; auto.
      - intros n l K. unfold t in K. rewrite dget_dset in K. destruct (String.eqb n name); [destruct K as [K|K]; [|discriminate]|].
        + injection K as <-. lia.
        + exact (i_types s I b n l K).
      - intros _ n. unfold t. rewrite dget_dset. destruct (String.eqb n name); [discriminate | apply Cb].
      - intros n _ K. unfold t, dmem in K. rewrite dget_dset in K. destruct (String.eqb n name); [discriminate|].
        apply (i_sync s I b n Bk K).
      - intros n f K. unfold t in K. rewrite dget_dset in K. destruct (String.eqb n name); [discriminate|].
        exfalso. exact (Cb n K). }
    assert (O : olds (t_heap s0) b name = []).
    { unfold olds, s0. cbn [with_heap t_heap]. rewrite retype_fields. now rewrite (i_sync s I b name Bk Dm). }
    destruct (attach_all b [([name], i)] (retype (t_heap s) b t)) as [h2 [|]] eqn:A; [|discriminate].
    rewrite store_put in H. destruct (update_fields (put h2 b name (Some (field_of (VModel i)))) b) as [h4 [c2|]] eqn:U; [|discriminate].
    injection H as <- <-.
    destruct (block_put_ok s0 b name i (t_heap s0) h2 h4 c2 I0 X) as ((B1 & B2 & B3) & B4 & B5).
    + unfold s0. cbn [with_heap t_heap]. now rewrite retype_block.
    + exact Xi.
    + unfold s0. cbn [with_heap t_heap]. now rewrite retype_level.
    + unfold s0, dmem, t. cbn [with_heap t_heap]. rewrite retype_types, dget_dset_same. reflexivity.
    + unfold s0. cbn [with_heap t_heap]. rewrite retype_not. intros E p c K q y L. rewrite retype_not.
      rewrite retype_look in L. refine (Q E p c _ q y L). destruct K as [K|K]; auto. exfalso.
      change (In (p, c) (olds (t_heap s0) b name)) in K. rewrite O in K. destruct K.
    + now rewrite O.
    + exact A.
    + exact U.
    + split; [split; [exact B1|split; [|exact B3]]|split].
      * pose proof (retype_announces s b t) as RA. fold s0 in RA.
        refine (announces_then s [] s0 _ (with_heap s h4) eq_refl eq_refl RA B2 _ _ _).
        -- intros n p v p' v' [].
        -- intros c. split; [auto | intros [[]|]; auto].
      * rewrite B4. unfold s0. cbn [with_heap t_heap]. apply retype_types.
      * rewrite B5. unfold s0. cbn [with_heap t_heap]. now rewrite retype_fields.
Qed.

Lemma block_remove_ok : forall s b name h' cs, inv s -> b < t_next s -> o_block (t_heap s b) = true ->
  disciplined s (TRemove b name) -> NoDup (dkeys (o_types (t_heap s b))) ->
  block_remove (t_heap s) b name = (h', Ok cs) ->
  block_result s b h' cs /\ o_types (h' b) = ddel name (o_types (t_heap s b)) /\
  o_fields (h' b) = ddel name (o_fields (t_heap s b)).
Proof.
  intros s b name h' cs I X Bk Di Nd H. unfold block_remove in H.
  destruct (dget name (o_fields (t_heap s b))) as [f|] eqn:F; [|discriminate].
  destruct (detach_all (olds (t_heap s) b name) (t_heap s)) as [h1 [|]] eqn:D; [|discriminate].
  destruct (dmem name (o_types (h1 b))) eqn:Dm; [|discriminate]. cbn [negb] in H.
  set (h3 := upd h1 b (with_field name None (h1 b))) in H. change h3 with (put h1 b name None) in H. clear h3.
  set (h3 := put h1 b name None) in H. set (t := ddel name (o_types (h3 b))) in H.
  change (upd h3 b (with_types t (h3 b))) with (retype h3 b t) in H.
  destruct (update_fields (retype h3 b t) b) as [h5 [c2|]] eqn:U; [|discriminate]. injection H as <- <-.
  destruct (i_block s I b Bk) as [Lb Cb].
  assert (Q : o_not (t_heap s b) = None -> forall p c,
    In (p, c) (olds (t_heap s) b name) \/ In (p, c) (news name None) -> quiet (t_heap s) c).
  { intros E p c K. apply (Di b c); auto. cbn [touches]. split; auto. destruct K as [K|[]].
    apply in_map with (f := snd) in K. exact K. }
  destruct (swap_announces s b name None h1 h1 I X D eq_refl Logic.I) as (R1 & R2 & R3).
  { intros p c []. } { intros p c []. } { exact Q. } { reflexivity. } { intros _ f' K. discriminate. }
  cbn [option_map] in R1, R2. fold h3 in R1, R2.
  assert (T3 : o_types (h3 b) = o_types (t_heap s b)) by (unfold h3; rewrite put_types; now rewrite R3).
  assert (F3 : o_fields (h3 b) = ddel name (o_fields (t_heap s b))).
  { unfold h3, put. rewrite upd_same. cbn [with_field o_fields]. now rewrite R3. }
  pose proof (i_wf s I b) as [Wf _].
  assert (I4 : inv (with_heap s (retype h3 b t))).
  { change (inv (with_heap (with_heap s h3) (retype (t_heap (with_heap s h3)) b t))).
    pose proof (i_block _ R1 b) as B3. cbn [with_heap t_heap] in B3.
    assert (Bk3 : o_block (h3 b) = true) by (unfold h3; rewrite put_block; now rewrite R3).
    destruct (B3 Bk3) as [L3 C3].
    assert (G : forall n, dget n t = if String.eqb n name then None else dget n (o_types (h3 b))).
    { intros n. unfold t. apply dget_ddel. now rewrite T3. }
    apply retype_inv; auto; cbn [with_heap t_heap t_next].
    - intros n l K. rewrite !G in K. destruct (String.eqb n name); [destruct K; discriminate|].
      exact (i_types _ R1 b n l K).
    - intros _ n. rewrite G. destruct (String.eqb n name); [discriminate | apply C3].
    - intros n _ K. unfold dmem in K. rewrite G in K. rewrite F3, dget_ddel by exact Wf.
      destruct (String.eqb n name) eqn:E; auto. rewrite T3 in K. exact (i_sync s I b n Bk K).
    - intros n f' K. rewrite G in K. destruct (String.eqb n name); [discriminate|]. exfalso. exact (C3 n K). }
  destruct (block_swap s b name None h1 h1 (retype h3 b t) c2 I X Bk D eq_refl) with (t := t) (h5 := h5)
    as (S1 & S2 & S3 & S4 & S5 & S6 & S7); auto.
  - split; [split; [exact S1|split; [|exact S3]]|split].
    + apply S2. intros c. rewrite in_app_iff. unfold tell. rewrite S6, S7. tauto.
    + rewrite S4. unfold t. now rewrite T3.
    + now rewrite S5, <- F3.
Qed.

(** ** New objects and publication *)

Lemma alloc_ok : forall s o, inv s -> o_not o = None -> o_fields o = [] ->
  (forall n l, dget n (o_types o) = Some (CModel l) \/ dget n (o_types o) = Some (CMap l) -> l < o_level o) ->
  (o_block o = true -> o_level o = 6 /\ forall n, dget n (o_types o) <> Some CData) ->
  let s' := mkT (upd (t_heap s) (t_next s) o) (S (t_next s)) (t_roots s) in
  inv s' /\ announces s [] s'.
Proof.
  intros s o I N F T B s'.
  assert (KO : kids o = []) by (unfold kids; now rewrite F).
  assert (E : forall y, y <> t_next s -> t_heap s' y = t_heap s y) by (intros y Y; now apply upd_other).
  assert (EN : t_heap s' (t_next s) = o) by apply upd_same.
  assert (AT : forall y m, o_not (t_heap s y) = Some m -> y <> t_next s).
  { intros y m H ->. rewrite (i_blank s I _ (le_n _)) in H. discriminate. }
  assert (LK : forall n r mri p, root s n r mri -> look (t_heap s') r p = look (t_heap s) r p).
  { intros n r mri p R. apply look_frame with (k := length p); auto. intros q0 nm q1 z _ L.
    apply (located s I n r mri R) in L. destruct L as [L _]. now rewrite (E z (AT z n L)). }
  split; [split|].
  - intros y. destruct (Nat.eq_dec y (t_next s)) as [->|Y].
    + rewrite EN. split; rewrite F; [constructor | discriminate].
    + rewrite (E y Y). apply (i_wf s I).
  - intros y p c K. destruct (Nat.eq_dec y (t_next s)) as [->|Y].
    + rewrite EN, KO in K. destruct K.
    + rewrite (E y Y) in K |- *. pose proof (i_alloc s I y p c K). rewrite E by lia. exact (i_level s I y p c K).
  - intros y p c K. cbn [s' t_next]. destruct (Nat.eq_dec y (t_next s)) as [->|Y].
    + rewrite EN, KO in K. destruct K.
    + rewrite (E y Y) in K. pose proof (i_alloc s I y p c K). lia.
  - intros y L. cbn [s' t_next] in L. rewrite E by lia. apply (i_blank s I). lia.
  - intros y n l. destruct (Nat.eq_dec y (t_next s)) as [->|Y].
    + rewrite EN. apply T.
    + rewrite (E y Y). apply (i_types s I).
  - intros y. destruct (Nat.eq_dec y (t_next s)) as [->|Y].
    + rewrite EN. apply B.
    + rewrite (E y Y). apply (i_block s I).
  - intros y n. destruct (Nat.eq_dec y (t_next s)) as [->|Y].
    + rewrite EN, F. reflexivity.
    + rewrite (E y Y). apply (i_sync s I).
  - intros y n f. destruct (Nat.eq_dec y (t_next s)) as [->|Y].
    + rewrite EN, F. discriminate.
    + rewrite (E y Y). apply (i_data s I).
  - apply (i_fresh s I).
  - apply (i_nodup s I).
  - intros n r mri R. destruct (i_root s I n r mri R) as [R1 R2]. rewrite (E r (AT r n R1)). auto.
  - intros y n p c H K. destruct (Nat.eq_dec y (t_next s)) as [->|Y]; [rewrite EN, KO in K; destruct K|].
    rewrite (E y Y) in H, K |- *. destruct (i_kids s I y n p c H K) as [C1 C2].
    rewrite (E c (AT c n C1)). auto.
  - intros y n H. destruct (Nat.eq_dec y (t_next s)) as [->|Y]; [rewrite EN in H; congruence|].
    rewrite (E y Y) in H |- *. destruct (i_reach s I y n H) as (r & mri & p & R & P & L).
    exists r, mri, p. split; [exact R|]. split; [exact P|]. rewrite (LK n r mri p R). exact L.
  - split; [intros n p v []|]. intros n r mri q R _. exact (LK n r mri q R).
Qed.

Lemma publish_ok : forall s b mri h', inv s -> b < t_next s ->
  set_notifier_path (t_heap s) b (Some (length (t_roots s))) [mri] = (h', true) ->
  let s' := mkT h' (t_next s) (t_roots s ++ [(length (t_roots s), (b, mri))]) in
  inv s' /\ announces s [] s' /\ only_notifiers (t_heap s) h'.
Proof.
  intros s b mri h' I X H s'. set (n := length (t_roots s)) in *.
  pose proof (i_wf s I) as W. pose proof (set_notifier_path_on _ _ _ _ _ _ H) as ON.
  pose proof (on_fields _ _ ON) as FF.
  destruct (snp_attach n _ _ _ _ _ W H) as [A1 A2].
  destruct (A2 [] b (or_introl eq_refl)) as (B1 & B2 & B3). rewrite app_nil_r in B3.
  assert (KEEP : forall y m, o_not (t_heap s y) = Some m -> h' y = t_heap s y).
  { intros y m Y. destruct (A1 y) as [Z|(Z & _)]; congruence. }
  assert (KF : forall y, kids (h' y) = kids (t_heap s y)) by (intros y; apply kids_fields, FF).
  split; [split|split; [|exact ON]]; cbn [s' t_heap t_next t_roots].
  - eapply wfh_fields; eauto.
  - intros y p c. rewrite KF. destruct (ON y) as (_ & -> & _), (ON c) as (_ & -> & _). apply (i_level s I).
  - intros y p c. rewrite KF. apply (i_alloc s I).
  - intros y L. destruct (A1 y) as [Z|(_ & _ & _ & p & c & q & [Z1|[]] & Z2 & _)].
    + rewrite Z. now apply (i_blank s I).
    + exfalso. injection Z1 as <- <-.
      destruct (look_snoc _ W (length q) q b y (le_n _) Z2) as [[-> ->]|(q0 & z & t & -> & _ & K)]; [lia|].
      pose proof (i_alloc s I z t y K). lia.
  - intros y nm l. destruct (ON y) as (_ & -> & -> & _). apply (i_types s I).
  - intros y. destruct (ON y) as (-> & -> & -> & _). apply (i_block s I).
  - intros y nm. destruct (ON y) as (-> & _ & -> & ->). apply (i_sync s I).
  - intros y nm f. destruct (ON y) as (_ & _ & -> & ->). apply (i_data s I).
  - intros k r m R. unfold root in R. cbn [s' t_roots] in *. rewrite app_length. cbn. apply in_app_iff in R.
    destruct R as [R|[R|[]]].
    + pose proof (i_fresh s I k r m R). lia.
    + injection R as <- _ _. fold n. lia.
  - rewrite map_app. cbn [map fst].
    assert (NI : ~ In n (map fst (t_roots s))).
    { intros K. apply in_map_iff in K. destruct K as ([k [r m]] & K1 & K2). cbn in K1. subst k.
      pose proof (i_fresh s I n r m K2). unfold n in *. lia. }
    assert (AD : Add n (map fst (t_roots s)) (map fst (t_roots s) ++ [n]))
      by (pose proof (Add_app n (map fst (t_roots s)) []) as AD; now rewrite app_nil_r in AD).
    apply (NoDup_Add AD). split; [apply (i_nodup s I) | exact NI].
  - intros k r m R. unfold root in R. cbn [s' t_roots] in R. apply in_app_iff in R. destruct R as [R|[R|[]]].
    + destruct (i_root s I k r m R) as [R1 R2]. rewrite (KEEP r k R1). auto.
    + injection R as <- <- <-. auto.
  - intros y m p c N K. rewrite KF in K. destruct (A1 y) as [Z|(Z1 & Z2 & Z3 & _)].
    + rewrite Z in N |- *. destruct (i_kids s I y m p c N K) as [C1 C2]. rewrite (KEEP c m C1). auto.
    + assert (m = n) by congruence. subst m. exact (Z3 p c K).
  - intros y m N. destruct (A1 y) as [Z|(Z1 & Z2 & _ & p & c & q & [Z4|[]] & Z5 & Z6)].
    + rewrite Z in N |- *. destruct (i_reach s I y m N) as (r & mr & p & R & P & L). exists r, mr, p.
      split. { unfold root. cbn [s' t_roots]. apply in_app_iff. now left. } split; [exact P|].
      now rewrite (look_fields _ _ p r FF).
    + assert (m = n) by congruence. subst m. injection Z4 as <- <-. exists b, mri, q. split.
      { unfold root. cbn [s' t_roots]. apply in_app_iff. right. now left. }
      split; [exact Z6|]. now rewrite (look_fields _ _ q b FF).
  - split; [intros k p v []|]. intros k r m q _ _. now apply look_fields.
Qed.

(** ** Steps *)

(** In a block call_types and attributes have the same names, in the same order. *)
Definition synced (s : tstate) : Prop := forall b, o_block (t_heap s b) = true ->
  dkeys (o_types (t_heap s b)) = dkeys (o_fields (t_heap s b)).
Definition good (s : tstate) : Prop := inv s /\ synced s.

Lemma good_init : good tinit.
Proof.
  split.
  - split; cbn; intros; try discriminate; try contradiction.
    + intros x. split; cbn; [constructor | discriminate].
    + reflexivity.
    + destruct H; discriminate.
    + constructor.
  - intros b B. discriminate.
Qed.

Lemma dkeys_dset_eq : forall A B k (v : A) (w : B) d e, dkeys d = dkeys e -> dkeys (dset k v d) = dkeys (dset k w e).
Proof.
  intros A B k v w d e H. destruct (in_dec string_dec k (dkeys d)) as [K|K].
  - rewrite !dkeys_dset_in; congruence.
  - rewrite !dkeys_dset_notin by congruence. now rewrite H.
Qed.
Lemma dkeys_ddel_eq : forall A B k (d : dict A) (e : dict B), dkeys d = dkeys e -> dkeys (ddel k d) = dkeys (ddel k e).
Proof.
  intros A B k d; induction d as [|[a v] r IH]; intros [|[a' w] e] H; try discriminate; auto.
  cbn in H. injection H as <- H. cbn [ddel]. destruct (String.eqb k a); auto. cbn. f_equal. exact (IH e H).
Qed.

Lemma fresh_quiet : forall h x, o_fields (h x) = [] -> o_not (h x) = None -> quiet h x.
Proof.
  intros h x F N q y L. destruct q as [|n q]; cbn [look] in L; [injection L as <-; exact N|].
  rewrite F in L. discriminate.
Qed.

(** Names of the fields that a block shows. *)
Definition field_names (h : heap) (b : nat) : list string :=
  filter (fun k => negb (String.eqb k "meta")) (dkeys (o_fields (h b))).

Lemma block_set_good : forall s b name i h' cs, good s -> b < t_next s -> o_block (t_heap s b) = true ->
  i < t_next s -> disciplined s (TBlockSet b name i) -> block_set (t_heap s) b name i = (h', Ok cs) ->
  (forall y, o_block (h' y) = true -> y <> b -> o_block (t_heap s y) = true /\
     dkeys (o_types (h' y)) = dkeys (o_types (t_heap s y)) /\ dkeys (o_fields (h' y)) = dkeys (o_fields (t_heap s y))) ->
  good (with_heap s h') /\ announces s cs (with_heap s h') /\
  look h' b ["meta"; "fields"]%string = Some (IData (DNames (field_names h' b))) /\
  o_fields (h' b) = dset name (FModel i) (o_fields (t_heap s b)).
Proof.
  intros s b name i h' cs [I Sy] X Bk Xi Di H O.
  destruct (block_set_ok s b name i h' cs I X Bk Xi Di H) as ((A1 & A2 & A3) & A4 & A5).
  assert (SB : dkeys (o_types (h' b)) = dkeys (o_fields (h' b))).
  { rewrite A4, A5. destruct (dmem name (o_types (t_heap s b))) eqn:Dm.
    - rewrite dkeys_dset_in; [exact (Sy b Bk)|]. rewrite <- (Sy b Bk). unfold dmem in Dm.
      destruct (dget name (o_types (t_heap s b))) eqn:G; [|discriminate]. now apply dget_Some_key in G.
    - apply dkeys_dset_eq. exact (Sy b Bk). }
  split; [split; [exact A1|]|split; [exact A2|split; [|exact A5]]].
  - intros y Y. cbn [with_heap t_heap] in *. destruct (Nat.eq_dec y b) as [->|N]; [exact SB|].
    destruct (O y Y N) as (O1 & O2 & O3). rewrite O2, O3. exact (Sy y O1).
  - rewrite A3. unfold field_names. now rewrite SB.
Qed.
