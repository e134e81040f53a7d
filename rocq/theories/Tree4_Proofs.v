(** C50, proofs: steps and runs. *)
From Coq Require Import String Bool ZArith Lia List.
From Verif Require Import Base Tree_Model Tree_Spec Tree_Proofs Tree2_Proofs Tree3_Proofs.
Import ListNotations.
Local Open Scope list_scope.

Lemma update_fields_shape : forall h b h' cs, update_fields h b = (h', Ok cs) ->
  exists m d, dget "meta" (o_fields (h b)) = Some (FModel m) /\ h' = put h m "fields" (Some (FData d)).
Proof.
  intros h b h' cs H. unfold update_fields in H.
  destruct (dget "meta" (o_fields (h b))) as [[d|m|m]|]; try discriminate.
  unfold set_data in H. destruct (dget "fields" (o_types (h m))) as [[|l|l]|]; try discriminate.
  rewrite store_put in H. injection H as <- _. exists m. eauto.
Qed.

Definition others_same (h h' : heap) (b : nat) : Prop :=
  exists m, (m = b \/ dget "meta" (o_fields (h' b)) = Some (FModel m)) /\
  forall y, y <> b -> y <> m -> shape (h' y) (h y).

Lemma shape_trans : forall a b c, shape a b -> shape b c -> shape a c.
Proof. intros a b c (A1 & A2 & A3 & A4) (B1 & B2 & B3 & B4). repeat split; congruence. Qed.

Lemma update_fields_others : forall h0 h b h' cs, (forall y, y <> b -> shape (h y) (h0 y)) ->
  update_fields h b = (h', Ok cs) -> others_same h0 h' b.
Proof.
  intros h0 h b h' cs S H. destruct (update_fields_shape h b h' cs H) as (m & d & E & ->).
  exists m. split.
  - destruct (Nat.eq_dec m b) as [-> |N]; [now left|]. right. rewrite put_other by congruence. exact E.
  - intros y Y1 Y2. rewrite put_other by assumption. exact (S y Y1).
Qed.

Lemma detach_on : forall l h h' b, detach_all l h = (h', b) -> only_notifiers h h'.
Proof. intros l h h' b H. eapply each_on; [|exact H]. intros a c a' b' S. eapply set_notifier_path_on; exact S. Qed.

Lemma block_set_others : forall h b name i h' cs, block_set h b name i = (h', Ok cs) -> others_same h h' b.
Proof.
  intros h b name i h' cs H. unfold block_set in H. destruct (negb (block_takes h name i)); [discriminate|].
  assert (G : forall h1, (forall y, y <> b -> shape (h1 y) (h y)) ->
    match attach_all b [([name], i)] h1 with
    | (h2, true) => match store h2 b name (VModel i) with
        | (h3, Ok c1) => match update_fields h3 b with (h4, Ok c2) => (h4, Ok (c1 ++ c2)) | (h4, Err e) => (h4, Err e) end
        | (h3, Err e) => (h3, Err e) end
    | (h2, false) => (h2, Err EBad)
    end = (h', Ok cs) -> others_same h h' b).
  { intros h1 S K. destruct (attach_all b [([name], i)] h1) as [h2 [|]] eqn:A; [|discriminate].
    rewrite store_put in K. destruct (update_fields (put h2 b name (Some (field_of (VModel i)))) b) as [h4 [c2|]] eqn:U; [|discriminate].
    injection K as <- _. refine (update_fields_others h _ b h4 c2 _ U).
    intros y Y. rewrite put_other by assumption. eapply shape_trans; [exact (attach_all_on _ _ _ _ _ A y) | exact (S y Y)]. }
  destruct (dmem name (o_types (h b))).
  - destruct (dget name (o_fields (h b))); [|discriminate].
    destruct (detach_all (olds h b name) h) as [h1 [|]] eqn:D; [|discriminate].
    refine (G h1 _ H). intros y _. exact (detach_on _ _ _ _ D y).
  - refine (G _ _ H). intros y Y. rewrite upd_other by assumption. repeat split.
Qed.
Lemma block_remove_others : forall h b name h' cs, block_remove h b name = (h', Ok cs) -> others_same h h' b.
Proof.
  intros h b name h' cs H. unfold block_remove in H. destruct (dget name (o_fields (h b))); [|discriminate].
  destruct (detach_all (olds h b name) h) as [h1 [|]] eqn:D; [|discriminate].
  destruct (negb (dmem name (o_types (h1 b)))); [discriminate|].
  set (h3 := upd (upd h1 b _) b _) in H. destruct (update_fields h3 b) as [h4 [c|]] eqn:U; [|discriminate].
  injection H as <- _. refine (update_fields_others h h3 b h4 c _ U).
  intros y Y. unfold h3. rewrite !upd_other by assumption. exact (detach_on _ _ _ _ D y).
Qed.

Lemma others_blocks : forall s b h', inv (with_heap s h') -> others_same (t_heap s) h' b -> o_block (h' b) = true ->
  forall y, o_block (h' y) = true -> y <> b -> o_block (t_heap s y) = true /\
     dkeys (o_types (h' y)) = dkeys (o_types (t_heap s y)) /\ dkeys (o_fields (h' y)) = dkeys (o_fields (t_heap s y)).
Proof.
  intros s b h' I (m & M & S) Bb y Y N. destruct (Nat.eq_dec y m) as [->|Nm].
  - exfalso. destruct M as [M|M]; [congruence|].
    assert (K : In (["meta"%string], m) (kids (h' b))).
    { apply In_kids; [apply (i_wf _ I)|]. exists "meta"%string, (FModel m). cbn. auto. }
    pose proof (i_level _ I b _ m K) as L. cbn [with_heap t_heap] in L.
    destruct (i_block _ I b Bb) as [L1 _], (i_block _ I m Y) as [L2 _]. cbn [with_heap t_heap] in L1, L2. lia.
  - destruct (S y N Nm) as (S1 & S2 & S3 & S4). rewrite S3, S4. split; [congruence | auto].
Qed.

Lemma alloc_good : forall s o, good s -> o_not o = None -> o_fields o = [] ->
  (forall n l, dget n (o_types o) = Some (CModel l) \/ dget n (o_types o) = Some (CMap l) -> l < o_level o) ->
  (o_block o = true -> o_level o = 6 /\ o_types o = []) ->
  let s' := mkT (upd (t_heap s) (t_next s) o) (S (t_next s)) (t_roots s) in
  good s' /\ announces s [] s'.
Proof.
  intros s o [I Sy] N F T B s'. destruct (alloc_ok s o I N F T) as [A1 A2].
  { intros K. destruct (B K) as [B1 B2]. rewrite B2. split; [exact B1 | discriminate]. }
  split; [split; [exact A1|]|exact A2].
  intros y Y. cbn [s' t_heap] in *. destruct (Nat.eq_dec y (t_next s)) as [->|E].
  - rewrite upd_same in *. destruct (B Y) as [_ ->]. now rewrite F.
  - rewrite upd_other in * by assumption. exact (Sy y Y).
Qed.

Definition step_result (s : tstate) (o : top) (s1 : tstate) (cs : list change) : Prop :=
  good s1 /\ announces s cs s1 /\
  match o with
  | TSet x name v => cs = tell (t_heap s x) name (Some v)
  | TBlockSet b name i =>
      look (t_heap s1) b ["meta"; "fields"]%string = Some (IData (DNames (field_names (t_heap s1) b))) /\
      o_fields (t_heap s1 b) = dset name (FModel i) (o_fields (t_heap s b))
  | TRemove b name =>
      look (t_heap s1) b ["meta"; "fields"]%string = Some (IData (DNames (field_names (t_heap s1) b))) /\
      o_fields (t_heap s1 b) = ddel name (o_fields (t_heap s b))
  | _ => True
  end.

Lemma block_of : forall h b name i h' cs, block_set h b name i = (h', Ok cs) -> o_block (h' b) = o_block (h b).
Proof.
  intros h b name i h' cs H. unfold block_set in H. destruct (negb (block_takes h name i)); [discriminate|].
  assert (G : forall h1, o_block (h1 b) = o_block (h b) ->
    match attach_all b [([name], i)] h1 with
    | (h2, true) => match store h2 b name (VModel i) with
        | (h3, Ok c1) => match update_fields h3 b with (h4, Ok c2) => (h4, Ok (c1 ++ c2)) | (h4, Err e) => (h4, Err e) end
        | (h3, Err e) => (h3, Err e) end
    | (h2, false) => (h2, Err EBad)
    end = (h', Ok cs) -> o_block (h' b) = o_block (h b)).
  { intros h1 S K. destruct (attach_all b [([name], i)] h1) as [h2 [|]] eqn:A; [|discriminate].
    rewrite store_put in K. destruct (update_fields (put h2 b name (Some (field_of (VModel i)))) b) as [h4 [c2|]] eqn:U; [|discriminate].
    injection K as <- _. destruct (update_fields_shape _ _ _ _ U) as (m & d & _ & ->).
    rewrite !put_block. rewrite <- S. apply (attach_all_on _ _ _ _ _ A b). }
  destruct (dmem name (o_types (h b))).
  - destruct (dget name (o_fields (h b))); [|discriminate].
    destruct (detach_all (olds h b name) h) as [h1 [|]] eqn:D; [|discriminate].
    refine (G h1 _ H). apply (detach_on _ _ _ _ D b).
  - refine (G _ _ H). rewrite upd_same. reflexivity.
Qed.

Theorem step_good : forall s o s1 cs, good s -> disciplined s o -> tstep s o = (s1, Ok cs) -> step_result s o s1 cs.
Proof.
  intros s o s1 cs G Di H. pose proof G as [I Sy]. destruct o as [lv ts| |b mri|x name v|b name i|b name]; cbn [tstep] in H.
  - destruct (Nat.leb lv 5 && forallb (fun nc => below lv (snd nc)) ts && distinct (dkeys ts)) eqn:E; [|discriminate].
    injection H as <- <-. apply andb_true_iff in E. destruct E as [E E3]. apply andb_true_iff in E. destruct E as [E1 E2].
    rewrite forallb_forall in E2.
    destruct (alloc_good s (mkObj false lv None [] ts []) G eq_refl eq_refl) as [A1 A2].
    + cbn. intros n l K. destruct K as [K|K]; apply dget_Some_In in K; apply E2 in K; cbn in K;
        now apply Nat.ltb_lt in K.
    + discriminate.
    + split; [exact A1|]. split; [exact A2 | exact Logic.I].
  - set (b := t_next s) in *. set (o1 := mkObj true 6 None [] [] []) in *.
    destruct (alloc_good s o1 G eq_refl eq_refl) as [A1 A2]. { cbn. intros n l [K|K]; discriminate. } { auto. }
    fold b in A1, A2. set (sa := mkT (upd (t_heap s) b o1) (S b) (t_roots s)) in *.
    destruct (alloc_good sa block_meta A1 eq_refl eq_refl) as [B1 B2].
    { cbn. intros n l K.
      repeat (match type of K with context [if ?c then _ else _] => destruct c end; [destruct K; discriminate|]).
      destruct K; discriminate. }
    { discriminate. }
    cbn [sa t_heap t_next t_roots] in B1, B2. set (sb := mkT (upd (upd (t_heap s) b o1) (S b) block_meta) (S (S b)) (t_roots s)) in *.
    unfold lift in H.
    destruct (block_set (upd (upd (t_heap s) b o1) (S b) block_meta) b "meta" (S b)) as [h' r] eqn:K.
    cbn [fst snd] in H. injection H as <- ->.
    assert (Hb : t_heap sb b = o1) by (cbn [sb t_heap]; rewrite upd_other by lia; apply upd_same).
    assert (Hm : t_heap sb (S b) = block_meta) by (cbn [sb t_heap]; apply upd_same).
    assert (Db : disciplined sb (TBlockSet b "meta" (S b))).
    { intros x c (-> & [Z| ->]) _.
      - unfold olds in Z. rewrite Hb in Z. destruct Z.
      - apply fresh_quiet; rewrite Hm; reflexivity. }
    assert (Bb : o_block (t_heap sb b) = true) by now rewrite Hb.
    assert (X1 : b < t_next sb) by (cbn; lia). assert (X2 : S b < t_next sb) by (cbn; lia).
    pose proof (block_set_ok sb b "meta" (S b) h' cs (proj1 B1) X1 Bb X2 Db K) as ((C1 & _) & _).
    assert (Bb' : o_block (h' b) = true) by (rewrite (block_of _ _ _ _ _ _ K); exact Bb).
    pose proof (others_blocks sb b h' C1 (block_set_others _ _ _ _ _ _ K) Bb') as OB.
    destruct (block_set_good sb b "meta" (S b) h' cs B1 X1 Bb X2 Db K OB) as (D1 & D2 & _).
    change (with_heap sb h') with (mkT h' (S (S b)) (t_roots s)) in D1, D2.
    split; [exact D1|]. split; [|exact Logic.I].
    refine (announces_then s [] sb cs (mkT h' (S (S b)) (t_roots s)) eq_refl eq_refl _ D2 _ cs _).
    + refine (announces_then s [] sa [] sb eq_refl eq_refl A2 B2 _ [] _).
      * intros n p v p' v' [].
      * intros c. cbn. tauto.
    + intros n p v p' v' [].
    + intros c. cbn. tauto.
  - destruct (o_block (t_heap s b) && Nat.ltb b (t_next s)) eqn:E; [|discriminate].
    apply andb_true_iff in E. destruct E as [E1 E2]. apply Nat.ltb_lt in E2.
    destruct (set_notifier_path (t_heap s) b (Some (length (t_roots s))) [mri]) as [h' [|]] eqn:K; [|discriminate].
    injection H as <- <-. destruct (publish_ok s b mri h' I E2 K) as (A1 & A2 & A3).
    split; [split; [exact A1|]|split; [exact A2 | exact Logic.I]].
    intros y Y. cbn [t_heap] in *. destruct (A3 y) as (S1 & _ & S3 & S4). rewrite S3, S4. apply Sy. congruence.
  - destruct (negb (o_block (t_heap s x)) && Nat.ltb x (t_next s) && value_ok s v) eqn:E; [|discriminate].
    apply andb_true_iff in E. destruct E as [E E3]. apply andb_true_iff in E. destruct E as [E1 E2].
    apply Nat.ltb_lt in E2. apply negb_true_iff in E1.
    unfold lift in H. destruct (set_data (t_heap s) x name v) as [h' r] eqn:K. cbn [fst snd] in H.
    injection H as <- ->. destruct (set_data_ok s x name v h' cs I E2 E1 E3 Di K) as (A1 & A2 & A3 & A4 & A5).
    split; [split; [exact A1|]|split; [exact A2 | exact A3]].
    intros y Y. cbn [with_heap t_heap] in *. rewrite A5 in Y. destruct (A4 y Y) as [->|(_ & -> & ->)]; exact (Sy y Y).
  - destruct (o_block (t_heap s b) && Nat.ltb b (t_next s) && Nat.ltb i (t_next s)) eqn:E; [|discriminate].
    apply andb_true_iff in E. destruct E as [E E3]. apply andb_true_iff in E. destruct E as [E1 E2].
    apply Nat.ltb_lt in E2, E3.
    unfold lift in H. destruct (block_set (t_heap s) b name i) as [h' r] eqn:K. cbn [fst snd] in H. injection H as <- ->.
    pose proof (block_set_ok s b name i h' cs I E2 E1 E3 Di K) as ((C1 & _) & _).
    assert (Bb' : o_block (h' b) = true) by (rewrite (block_of _ _ _ _ _ _ K); exact E1).
    pose proof (others_blocks s b h' C1 (block_set_others _ _ _ _ _ _ K) Bb') as OB.
    destruct (block_set_good s b name i h' cs G E2 E1 E3 Di K OB) as (D1 & D2 & D3 & D4).
    split; [exact D1|]. split; [exact D2|]. auto.
  - destruct (o_block (t_heap s b) && Nat.ltb b (t_next s)) eqn:E; [|discriminate].
    apply andb_true_iff in E. destruct E as [E1 E2]. apply Nat.ltb_lt in E2.
    unfold lift in H. destruct (block_remove (t_heap s) b name) as [h' r] eqn:K. cbn [fst snd] in H. injection H as <- ->.
    assert (Nd : NoDup (dkeys (o_types (t_heap s b)))) by (rewrite (Sy b E1); apply (i_wf s I b)).
    destruct (block_remove_ok s b name h' cs I E2 E1 Di Nd K) as ((C1 & C2 & C3) & C4 & C5).
    assert (SB : dkeys (o_types (h' b)) = dkeys (o_fields (h' b))).
    { rewrite C4, C5. apply dkeys_ddel_eq. exact (Sy b E1). }
    assert (Bb' : o_block (h' b) = true).
    { unfold block_remove in K. destruct (dget name (o_fields (t_heap s b))); [|discriminate].
      destruct (detach_all (olds (t_heap s) b name) (t_heap s)) as [h1 [|]] eqn:D; [|discriminate].
      destruct (negb (dmem name (o_types (h1 b)))); [discriminate|].
      set (h3 := upd (upd h1 b _) b _) in K. destruct (update_fields h3 b) as [h4 [c|]] eqn:U; [|discriminate].
      injection K as <- _. destruct (update_fields_shape _ _ _ _ U) as (m & d & _ & ->).
      rewrite put_block. unfold h3. rewrite !upd_same. cbn. destruct (detach_on _ _ _ _ D b) as (-> & _). exact E1. }
    pose proof (others_blocks s b h' C1 (block_remove_others _ _ _ _ _ K) Bb') as OB.
    split; [split; [exact C1|]|split; [exact C2|split]].
    + intros y Y. cbn [with_heap t_heap] in *. destruct (Nat.eq_dec y b) as [-> |N]; [exact SB|].
      destruct (OB y Y N) as (O1 & -> & ->). exact (Sy y O1).
    + cbn [with_heap t_heap]. rewrite C3. unfold field_names. now rewrite SB.
    + exact C5.
Qed.

Theorem runs_good : forall s os s', runs s os s' -> good s -> good s'.
Proof.
  intros s os s' R. induction R as [s|s o s1 cs os s2 D H R IH]; intros G; auto.
  apply IH. exact (proj1 (step_good s o s1 cs G D H)).
Qed.

(** ** Fuel *)

Definition leveled (h : heap) : Prop := forall x p c, In (p, c) (kids (h x)) -> o_level (h c) < o_level (h x).
Lemma leveled_on : forall h h', only_notifiers h h' -> leveled h -> leveled h'.
Proof.
  intros h h' O L x p c K. destruct (O x) as (_ & -> & _ & F), (O c) as (_ & -> & _).
  apply (L x p c). now rewrite <- (kids_fields _ _ F).
Qed.

Lemma each_ext : forall (f g : heap -> list string * nat -> heap * bool) (J : heap -> Prop) l h, J h ->
  (forall a c, In c l -> J a -> f a c = g a c) -> (forall a c, In c l -> J a -> J (fst (f a c))) ->
  each f l h = each g l h.
Proof.
  intros f g J l; induction l as [|c r IH]; intros h Hh E P; [reflexivity|]. cbn [each].
  rewrite <- (E h c (or_introl eq_refl) Hh). pose proof (P h c (or_introl eq_refl) Hh) as P1.
  destruct (f h c) as [h1 [|]]; [|reflexivity]. apply IH; [exact P1| |].
  - intros a d I. apply E. now right.
  - intros a d I. apply P. now right.
Qed.

Lemma snp_fuel : forall f g h x n p, leveled h -> o_level (h x) < f -> o_level (h x) < g ->
  snp f h x n p = snp g h x n p.
Proof.
  intros f; induction f as [|f IH]; intros g h x n p L F G; [lia|]. destruct g as [|g]; [lia|].
  cbn [snp].
  assert (E : each (fun h' sc => snp f h' (snd sc) n (p ++ fst sc)) (kids (h x)) (upd h x (with_notifier n p (h x))) =
              each (fun h' sc => snp g h' (snd sc) n (p ++ fst sc)) (kids (h x)) (upd h x (with_notifier n p (h x)))).
  { apply (each_ext _ _ (fun a => only_notifiers h a)).
    - apply on_upd.
    - intros a [s c] K O. cbn [fst snd]. apply IH; [eapply leveled_on; eauto| |];
        destruct (O c) as (_ & -> & _); pose proof (L x s c K); lia.
    - intros a [s c] _ O. eapply on_trans; [exact O|]. destruct (snp f a c n (p ++ s)) as [a' b] eqn:Z.
      cbn [fst snd]. rewrite Z. exact (snp_on _ _ _ _ _ _ _ Z). }
  now rewrite E.
Qed.

(** ** What is accepted *)

Lemma NoDup_join : forall (A : Type) (l m : list A), NoDup l -> NoDup m -> (forall a, In a l -> ~ In a m) -> NoDup (l ++ m).
Proof.
  intros A l m L M D. induction L as [|a l N L IH]; [exact M|]. cbn. constructor.
  - rewrite in_app_iff. intros [K|K]; [auto|]. exact (D a (or_introl eq_refl) K).
  - apply IH. intros b K. apply D. now right.
Qed.

Lemma NoDup_kids : forall o, wfo o -> NoDup (map fst (kids o)).
Proof.
  intros o [W1 W2]. unfold kids.
  assert (W2' : forall n m, In (n, FMap m) (o_fields o) -> NoDup (dkeys m)).
  { intros n m K. apply (W2 n). now apply dget_In_nodup. }
  clear W2. induction (o_fields o) as [|[n f] l IH]; [constructor|].
  cbn [dkeys map fst] in W1. inversion W1 as [|? ? N1 N2]; subst. cbn [flat_map]. rewrite map_app. apply NoDup_join.
  - cbn [fst snd]. destruct f as [d|c|m]; cbn [fkids].
    + constructor.
    + repeat constructor. intros [].
    + pose proof (W2' n m (or_introl eq_refl)) as M. rewrite map_map. cbn [fst]. clear - M.
      induction m as [|[k c] m IHm]; [constructor|]. cbn [dkeys map fst] in *. inversion M as [|? ? M1 M2]; subst.
      constructor; [|now apply IHm]. intros K. apply in_map_iff in K. destruct K as ([k' c'] & K1 & K2).
      cbn [fst] in K1. injection K1 as ->. apply M1. apply in_map_iff. exists (k, c'). auto.
  - apply IH; [exact N2|]. intros n' m K. apply (W2' n' m). now right.
  - intros s K1 K2.
    assert (H1 : exists t, s = n :: t).
    { apply in_map_iff in K1. destruct K1 as ([s1 c1] & <- & K1). cbn [fst snd] in *. destruct f as [d|c|m]; cbn [fkids] in K1.
      - destruct K1.
      - destruct K1 as [K1|[]]. injection K1 as <- _. now exists [].
      - apply in_map_iff in K1. destruct K1 as (kc & K1 & _). injection K1 as <- _. now exists [fst kc]. }
    destruct H1 as [t ->]. apply in_map_iff in K2. destruct K2 as ([s2 c2] & E2 & K2). cbn [fst] in E2. subst s2.
    apply in_flat_map in K2. destruct K2 as ([n2 f2] & K2 & K3). cbn [fst snd] in K3.
    assert (n2 = n).
    { destruct f2 as [d|c|m]; cbn [fkids] in K3.
      - destruct K3.
      - destruct K3 as [K3|[]]. congruence.
      - apply in_map_iff in K3. destruct K3 as (kc & K3 & _). congruence. }
    subst n2. apply N1. apply in_map_iff. exists (n, f2). auto.
Qed.

Lemma kid_prefix : forall o s c s' c' q q', wfo o -> In (s, c) (kids o) -> In (s', c') (kids o) ->
  s ++ q = s' ++ q' -> s = s'.
Proof.
  intros o s c s' c' q q' W K K' E.
  destruct (kid_form o s c W K) as [(a & -> & A)|(a & k & m & -> & A & B)];
  destruct (kid_form o s' c' W K') as [(a' & -> & A')|(a' & k' & m' & -> & A' & B')]; cbn in E; congruence.
Qed.

Lemma snp_accept : forall n f h x p, wfh h -> leveled h -> o_level (h x) < f -> quiet h x -> single h x ->
  snd (snp f h x (Some n) p) = true.
Proof.
  intros n f; induction f as [|f IH]; intros h x p W L F Q U; [lia|]. cbn [snp].
  rewrite (Q [] x eq_refl).
  set (h1 := upd h x (with_notifier (Some n) p (h x))).
  assert (O1 : only_notifiers h h1) by apply on_upd.
  assert (Q1 : forall s c, In (s, c) (kids (h x)) -> quiet h1 c).
  { intros s c K q y Y. rewrite (look_fields _ _ q c (on_fields _ _ O1)) in Y.
    rewrite <- (look_kid h x s c q (W x) K) in Y. pose proof (Q _ _ Y) as Z. unfold h1.
    destruct (Nat.eq_dec y x) as [->|N]; [|now rewrite upd_other].
    exfalso. pose proof (U (s ++ q) [] x Y eq_refl) as E. apply kids_len in K. destruct s; [cbn in K; lia | discriminate]. }
  clearbody h1. pose proof (NoDup_kids (h x) (W x)) as Nd.
  assert (Sub : forall s c, In (s, c) (kids (h x)) -> In (s, c) (kids (h x))) by auto.
  revert Q1 Nd Sub. generalize (kids (h x)) at 1 2 3 5 as l.
  intros l; revert h1 O1; induction l as [|[s c] r IHr]; intros h1 O1 Q1 Nd Sub; [reflexivity|].
  cbn [each fst snd]. assert (K : In (s, c) (kids (h x))) by (apply Sub; now left).
  pose proof (on_fields _ _ O1) as F1.
  assert (A : snd (snp f h1 c (Some n) (p ++ s)) = true).
  { apply IH.
    - eapply wfh_fields; eauto.
    - eapply leveled_on; eauto.
    - destruct (O1 c) as (_ & -> & _). pose proof (L x s c K). lia.
    - apply (Q1 s c). now left.
    - intros q q' y Y Y'. rewrite (look_fields _ _ q c F1) in Y. rewrite (look_fields _ _ q' c F1) in Y'.
      rewrite <- (look_kid h x s c q (W x) K) in Y. rewrite <- (look_kid h x s c q' (W x) K) in Y'. apply (app_inv_head s). exact (U _ _ _ Y Y'). }
  destruct (snp f h1 c (Some n) (p ++ s)) as [h2 b] eqn:E. cbn [snd] in A. subst b.
  pose proof (snp_on _ _ _ _ _ _ _ E) as O2.
  assert (W1 : wfh h1) by (eapply wfh_fields; eauto).
  destruct (snp_attach _ _ _ _ _ _ W1 E) as [T _].
  inversion Nd as [|? ? N1 N2]; subst. apply IHr.
  - eapply on_trans; eauto.
  - intros s' c' K' q y Y. rewrite (look_fields _ _ q c' (on_fields _ _ O2)) in Y.
    destruct (T y) as [->|(_ & _ & _ & s0 & c0 & q0 & T1 & T2 & _)]; [exact (Q1 s' c' (or_intror K') q y Y)|].
    exfalso. destruct T1 as [T1|[]]. injection T1 as <- <-.
    rewrite (look_fields _ _ q c' F1) in Y. rewrite (look_fields _ _ q0 c F1) in T2.
    assert (K2 : In (s', c') (kids (h x))) by (apply Sub; now right).
    rewrite <- (look_kid h x s' c' _ (W x) K2) in Y. rewrite <- (look_kid h x s c _ (W x) K) in T2.
    pose proof (U _ _ _ Y T2) as E2. apply (kid_prefix (h x) s' c' s c q q0 (W x) K2 K) in E2. subst s'.
    apply N1. apply in_map_iff. exists (s, c'). auto.
  - exact N2.
  - intros s' c' K'. apply Sub. now right.
Qed.

Lemma snp_detaches : forall f h x p, leveled h -> o_level (h x) < f -> snd (snp f h x None p) = true.
Proof.
  intros f; induction f as [|f IH]; intros h x p L F; [lia|]. cbn [snp].
  assert (G : forall l h1, only_notifiers h h1 -> (forall s c, In (s, c) l -> In (s, c) (kids (h x))) ->
     snd (each (fun h' sc => snp f h' (snd sc) None (p ++ fst sc)) l h1) = true).
  { intros l; induction l as [|[s c] r IHr]; intros h1 O1 Sub; [reflexivity|]. cbn [each fst snd].
    assert (A : snd (snp f h1 c None (p ++ s)) = true).
    { apply IH; [eapply leveled_on; eauto|]. destruct (O1 c) as (_ & -> & _).
      pose proof (L x s c (Sub s c (or_introl eq_refl))). lia. }
    destruct (snp f h1 c None (p ++ s)) as [h2 b] eqn:E. cbn [snd] in A. subst b.
    apply IHr; [|intros s' c' K; apply Sub; now right]. eapply on_trans; [exact O1|]. exact (snp_on _ _ _ _ _ _ _ E). }
  destruct (o_not (h x)); apply G; auto using on_upd.
Qed.

Lemma detach_all_true : forall l h, leveled h -> snd (detach_all l h) = true.
Proof.
  intros l; induction l as [|[s c] r IH]; intros h L; [reflexivity|]. unfold detach_all in *. cbn [each fst snd].
  assert (A : snd (set_notifier_path h c None []) = true) by (apply snp_detaches; [exact L | lia]).
  destruct (set_notifier_path h c None []) as [h1 b] eqn:E. cbn [snd] in A. subst b.
  apply IH. eapply leveled_on; [exact (set_notifier_path_on _ _ _ _ _ _ E) | exact L].
Qed.

(** A Model that is in no block, nor anything in it, and that holds nothing twice, is taken. *)
Lemma set_accepted : forall s x name l i, good s -> o_block (t_heap s x) = false -> x < t_next s -> i < t_next s ->
  dget name (o_types (t_heap s x)) = Some (CModel l) -> o_level (t_heap s i) <= l ->
  quiet (t_heap s) i -> single (t_heap s) i ->
  exists s1 cs, tstep s (TSet x name (VModel i)) = (s1, Ok cs).
Proof.
  intros s x name l i [I _] Bx X Xi T Li Q U. cbn [tstep]. rewrite Bx.
  assert (V : value_ok s (VModel i) = true).
  { unfold value_ok. cbn [value_ids forallb]. rewrite (proj2 (Nat.ltb_lt i (t_next s)) Xi). reflexivity. }
  rewrite V, (proj2 (Nat.ltb_lt x (t_next s)) X). cbn [negb andb].
  assert (G : exists h' cs, set_data (t_heap s) x name (VModel i) = (h', Ok cs)).
  { unfold set_data. rewrite T. pose proof (i_level s I) as Lv. pose proof (i_wf s I) as W.
    pose proof (detach_all_true (olds (t_heap s) x name) (t_heap s) Lv) as D.
    destruct (detach_all (olds (t_heap s) x name) (t_heap s)) as [h1 b] eqn:E. cbn [snd] in D. subst b.
    destruct (detach_all_ok _ _ _ W E) as [[D1 _] O1]. pose proof (on_fields _ _ O1) as F1.
    assert (A : snd (attach_all x [([name], i)] h1) = true).
    { unfold attach_all. cbn [each fst snd].
      assert (Z : snd (set_notifier_path h1 i (o_not (h1 x)) (o_path (h1 x) ++ [name])) = true).
      { unfold set_notifier_path. assert (L1 : leveled h1) by (eapply leveled_on; eauto).
        destruct (o_not (h1 x)) as [n|].
        - apply snp_accept; auto.
          + eapply wfh_fields; eauto.
          + intros q y Y. rewrite (look_fields _ _ q i F1) in Y. destruct (D1 y) as [->|[Z _]]; [exact (Q q y Y) | exact Z].
          + intros q q' y. rewrite !(look_fields _ _ _ i F1). apply U.
        - apply snp_detaches; auto. }
      destruct (set_notifier_path h1 i (o_not (h1 x)) (o_path (h1 x) ++ [name])) as [h2 b]. cbn [snd] in Z. now subst b. }
    destruct (attach_all x [([name], i)] h1) as [h2 b] eqn:E2. cbn [snd] in A. subst b.
    pose proof (on_trans _ _ _ O1 (attach_all_on _ _ _ _ _ E2)) as O2. destruct (O2 i) as (_ & -> & _).
    rewrite (proj2 (Nat.leb_le _ _) Li). unfold store. eauto. }
  destruct G as (h' & cs & G). unfold lift. rewrite G. cbn. eauto.
Qed.
