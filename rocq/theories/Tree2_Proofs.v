(** C50, proofs: one attribute is replaced. *)
From Coq Require Import String Bool ZArith Lia List.
From Verif Require Import Base Tree_Model Tree_Spec Tree_Proofs.
Import ListNotations.
Local Open Scope list_scope.

Definition news (name : string) (nf : option field) : list (list string * nat) :=
  match nf with Some f => fkids name f | None => [] end.
Definition put (h : heap) (x : nat) (name : string) (nf : option field) : heap :=
  upd h x (with_field name nf (h x)).

Lemma put_not : forall h x name nf y, o_not (put h x name nf y) = o_not (h y).
Proof.
  intros. unfold put, upd. destruct (Nat.eqb y x) eqn:E; auto. apply Nat.eqb_eq in E. now subst y.
Qed.
Lemma put_path : forall h x name nf y, o_path (put h x name nf y) = o_path (h y).
Proof.
  intros. unfold put, upd. destruct (Nat.eqb y x) eqn:E; auto. apply Nat.eqb_eq in E. now subst y.
Qed.
Lemma put_level : forall h x name nf y, o_level (put h x name nf y) = o_level (h y).
Proof.
  intros. unfold put, upd. destruct (Nat.eqb y x) eqn:E; auto. apply Nat.eqb_eq in E. now subst y.
Qed.
Lemma put_types : forall h x name nf y, o_types (put h x name nf y) = o_types (h y).
Proof.
  intros. unfold put, upd. destruct (Nat.eqb y x) eqn:E; auto. apply Nat.eqb_eq in E. now subst y.
Qed.
Lemma put_block : forall h x name nf y, o_block (put h x name nf y) = o_block (h y).
Proof.
  intros. unfold put, upd. destruct (Nat.eqb y x) eqn:E; auto. apply Nat.eqb_eq in E. now subst y.
Qed.
Lemma put_other : forall h x name nf y, y <> x -> put h x name nf y = h y.
Proof. intros. unfold put. now apply upd_other. Qed.
Lemma put_get : forall h x name nf nm, wfo (h x) ->
  dget nm (o_fields (put h x name nf x)) = if String.eqb nm name then nf else dget nm (o_fields (h x)).
Proof.
  intros h x name nf nm [W _]. unfold put. rewrite upd_same. unfold with_field. cbn [o_fields].
  destruct nf as [f|]; [apply dget_dset | now apply dget_ddel].
Qed.
Definition map_ok (nf : option field) : Prop := match nf with Some (FMap m) => NoDup (dkeys m) | _ => True end.
Lemma put_wf : forall h x name nf, map_ok nf -> wfh h -> wfh (put h x name nf).
Proof.
  intros h x name nf M W y. destruct (Nat.eq_dec y x) as [->|N]; [|rewrite put_other; auto].
  pose proof (W x) as [W1 W2]. split.
  - unfold put. rewrite upd_same. cbn [with_field o_fields]. destruct nf; [now apply dset_nodup | now apply ddel_nodup].
  - intros nm m H. rewrite put_get in H; auto. destruct (String.eqb nm name) eqn:E; [|eauto].
    subst nf. exact M.
Qed.
Lemma put_kids : forall h x name nf s c, wfh h -> map_ok nf ->
  (In (s, c) (kids (put h x name nf x)) <->
   In (s, c) (news name nf) \/ exists nm f, nm <> name /\ dget nm (o_fields (h x)) = Some f /\ In (s, c) (fkids nm f)).
Proof.
  intros h x name nf s c W M. rewrite In_kids by (now apply put_wf). split.
  - intros (nm & f & A & B). rewrite put_get in A by apply W. destruct (String.eqb nm name) eqn:E.
    + left. apply String.eqb_eq in E. subst nm nf. exact B.
    + right. exists nm, f. apply String.eqb_neq in E. auto.
  - intros [A|(nm & f & N & A & B)].
    + destruct nf as [f|]; [|destruct A]. exists name, f. rewrite put_get by apply W. now rewrite String.eqb_refl.
    + exists nm, f. rewrite put_get by apply W. apply String.eqb_neq in N. now rewrite N.
Qed.

Section swap.
  Variables (s : tstate) (x : nat) (name : string) (nf : option field) (h1 h2 : heap).
  Hypothesis I : inv s.
  Hypothesis Hx : x < t_next s.
  Hypothesis Hd : detach_all (olds (t_heap s) x name) (t_heap s) = (h1, true).
  Hypothesis Ha : attach_all x (news name nf) h1 = (h2, true).
  Hypothesis Hm : map_ok nf.
  Hypothesis Hl : forall p c, In (p, c) (news name nf) -> o_level (t_heap s c) < o_level (t_heap s x).
  Hypothesis Hn : forall p c, In (p, c) (news name nf) -> c < t_next s.
  Hypothesis Hq : o_not (t_heap s x) = None -> forall p c,
    In (p, c) (olds (t_heap s) x name) \/ In (p, c) (news name nf) -> quiet (t_heap s) c.
  Hypothesis Hb : o_block (t_heap s x) = true -> dmem name (o_types (t_heap s x)) = false -> nf = None.
  Hypothesis Hc : dget name (o_types (t_heap s x)) = Some CData -> forall f, nf = Some f -> exists d, f = FData d.

  Let h := t_heap s.
  Let h3 := put h2 x name nf.

  Lemma W0 : wfh h. Proof. apply (i_wf s I). Qed.
  Lemma on01 : only_notifiers h h1. Proof. apply (detach_all_ok _ _ _ W0 Hd). Qed.
  Lemma on12 : only_notifiers h1 h2. Proof. eapply attach_all_on; exact Ha. Qed.
  Lemma on02 : only_notifiers h h2. Proof. eapply on_trans; [apply on01 | apply on12]. Qed.
  Lemma W1 : wfh h1. Proof. eapply wfh_fields; [apply on_fields, on01 | apply W0]. Qed.
  Lemma W2 : wfh h2. Proof. eapply wfh_fields; [apply on_fields, on02 | apply W0]. Qed.
  Lemma W3 : wfh h3. Proof. apply put_wf; [exact Hm | apply W2]. Qed.
  Lemma f02 : forall y, o_fields (h2 y) = o_fields (h y). Proof. intros y. apply on02. Qed.
  Lemma f01 : forall y, o_fields (h1 y) = o_fields (h y). Proof. intros y. apply on01. Qed.

  (* x keeps its notifier and path: it is in no child of its own. *)
  Lemma x_not_under : forall p c q, In (p, c) (olds h x name) \/ In (p, c) (news name nf) ->
    look h c q <> Some (IModel x).
  Proof.
    intros p c q H L. pose proof (level_sub s I (length q) q c x (le_n _) L).
    assert (o_level (t_heap s c) < o_level (t_heap s x)); [|lia].
    destruct H as [H|H]; [|exact (Hl p c H)]. apply (i_level s I x p c). eapply olds_kids; [apply W0 | exact H].
  Qed.
  Lemma x01 : h1 x = h x.
  Proof.
    destruct (detach_all_ok _ _ _ W0 Hd) as [[D _] _]. destruct (D x) as [E|(_ & p & c & q & A & B)]; auto.
    exfalso. exact (x_not_under p c q (or_introl A) B).
  Qed.
  Lemma x12 : h2 x = h1 x.
  Proof.
    destruct (o_not (h1 x)) as [n|] eqn:E.
    - destruct (attach_all_ok x n _ h1 h2 W1 E Ha) as [D _]. destruct (D x) as [F|(F & _)]; auto. congruence.
    - destruct (attach_none_ok x _ h1 h2 W1 E Ha) as [D _]. destruct (D x) as [F|(_ & p & c & q & A & B)]; auto.
      exfalso. apply (x_not_under p c q (or_intror A)). rewrite <- B. symmetry. apply look_fields. intro; apply f01.
  Qed.
  Lemma x02 : h2 x = h x.
  Proof. now rewrite x12, x01. Qed.

  Lemma get3 : forall y nm, y <> x \/ nm <> name -> dget nm (o_fields (h3 y)) = dget nm (o_fields (h y)).
  Proof.
    intros y nm H. destruct (Nat.eq_dec y x) as [->|N].
    - unfold h3. rewrite put_get by apply W2. destruct H as [H|H]; [contradiction|].
      apply String.eqb_neq in H. now rewrite H, f02.
    - unfold h3. rewrite put_other; auto. now rewrite f02.
  Qed.
  Lemma kids3 : forall y, y <> x -> kids (h3 y) = kids (h y).
  Proof. intros y N. apply kids_fields. unfold h3. rewrite put_other; auto. apply f02. Qed.
  Lemma kids3x : forall p c, In (p, c) (kids (h3 x)) <->
    In (p, c) (news name nf) \/ exists nm f, nm <> name /\ dget nm (o_fields (h x)) = Some f /\ In (p, c) (fkids nm f).
  Proof. intros p c. unfold h3. rewrite put_kids; [|apply W2 | exact Hm]. now rewrite f02. Qed.

  (* Lookups that do not pass the attribute. *)
  Lemma look3 : forall y q, (forall q0 q1, q = q0 ++ name :: q1 -> look h y q0 <> Some (IModel x)) ->
    look h3 y q = look h y q.
  Proof.
    intros y q H. apply look_frame with (k := length q); auto. intros q0 nm q1 z -> L.
    apply get3. destruct (Nat.eq_dec z x) as [->|N]; auto. right. intros ->. exact (H q0 q1 eq_refl L).
  Qed.

  (** Objects that are attached afterwards were attached and stayed so, or are new. *)
  Definition under_old (y : nat) : Prop := exists p c q, In (p, c) (olds h x name) /\ look h c q = Some (IModel y).
  Definition is_new (n : nat) (y : nat) : Prop :=
    o_not (h x) = Some n /\ o_not (h2 y) = Some n /\ y <> x /\
    (forall p c, In (p, c) (kids (h y)) -> o_not (h2 c) = Some n /\ o_path (h2 c) = o_path (h2 y) ++ p) /\
    exists p c q, In (p, c) (news name nf) /\ look h c q = Some (IModel y) /\ o_path (h2 y) = o_path (h x) ++ p ++ q.

  Lemma status : forall y m, o_not (h2 y) = Some m -> (h2 y = h y /\ ~ under_old y) \/ is_new m y.
  Proof.
    intros y m N. destruct (detach_all_ok _ _ _ W0 Hd) as [[D1 D2] _].
    destruct (o_not (h x)) as [n|] eqn:E.
    - assert (E1 : o_not (h1 x) = Some n) by now rewrite x01.
      destruct (attach_all_ok x n _ h1 h2 W1 E1 Ha) as [A1 A2].
      destruct (A1 y) as [F|(F1 & F2 & F3 & p & c & q & F4 & F5 & F6)].
      + left. rewrite F in N. split.
        * destruct (D1 y) as [G|(G & _)]; [congruence | rewrite G in N; discriminate].
        * intros (p & c & q & U1 & U2). rewrite (D2 p c q y U1 U2) in N. discriminate.
      + right. assert (m = n) by congruence. subst m. split; [exact E|]. split; [exact F2|]. split; [congruence|].
        split. { intros p' c' K. apply F3. rewrite (kids_fields (h1 y) (h y)); [exact K | apply f01]. }
        exists p, c, q. split; [exact F4|]. split.
        * rewrite <- F5. symmetry. apply look_fields. intro; apply f01.
        * now rewrite x01 in F6.
    - left. assert (E1 : o_not (h1 x) = None) by now rewrite x01.
      destruct (attach_none_ok x _ h1 h2 W1 E1 Ha) as [A1 A2].
      destruct (A1 y) as [F|(F & _)]; [|congruence]. rewrite F in N. split.
      + destruct (D1 y) as [G|(G & _)]; [congruence | rewrite G in N; discriminate].
      + intros (p & c & q & U1 & U2). rewrite (D2 p c q y U1 U2) in N. discriminate.
  Qed.

  (** What was attached and is not under the old value stays. *)
  Lemma stays : forall y m, o_not (h y) = Some m -> ~ under_old y -> h2 y = h y.
  Proof.
    intros y m N U. destruct (detach_all_ok _ _ _ W0 Hd) as [[D1 D2] _].
    assert (G : h1 y = h y).
    { destruct (D1 y) as [G|(_ & p & c & q & G1 & G2)]; auto. exfalso. apply U. exists p, c, q. auto. }
    destruct (o_not (h x)) as [n|] eqn:E.
    - assert (E1 : o_not (h1 x) = Some n) by now rewrite x01.
      destruct (attach_all_ok x n _ h1 h2 W1 E1 Ha) as [A1 _]. destruct (A1 y) as [F|(F & _)]; congruence.
    - assert (E1 : o_not (h1 x) = None) by now rewrite x01.
      destruct (attach_none_ok x _ h1 h2 W1 E1 Ha) as [A1 _].
      destruct (A1 y) as [F|(_ & p & c & q & F1 & F2)]; [congruence|].
      exfalso. rewrite (look_fields h h1 q c f01) in F2.
      pose proof (Hq E p c (or_intror F1) q y F2) as Z. unfold h in N. congruence.
  Qed.

  Lemma not_under_kid : forall y m p c, o_not (h y) = Some m -> ~ under_old y -> In (p, c) (kids (h y)) ->
    (y = x -> exists nm f, nm <> name /\ In (p, c) (fkids nm f)) -> ~ under_old c.
  Proof.
    intros y m p c N U K X (p0 & c0 & q & A & B).
    pose proof (olds_kids h x name p0 c0 (W0 x) A) as A'.
    destruct (o_not (h x)) as [n|] eqn:E.
    - destruct (look_snoc h W0 (length q) q c0 c (le_n _) B) as [[-> ->]|(q0 & z & t & -> & L & K2)].
      + destruct (one_parent s I y x m n p p0 c0 N E K A') as [-> ->].
        destruct (X eq_refl) as (nm & f & Nm & F). destruct (fkids_head _ _ _ _ F) as [t ->].
        destruct (olds_head _ _ _ _ _ A) as [t' T]. injection T as T _. contradiction.
      + destruct (i_kids s I x n p0 c0 E A') as [C1 C2].
        destruct (sub_attached s I (length q0) q0 c0 n z (le_n _) C1 L) as [Z1 _].
        destruct (one_parent s I y z m n p t c N Z1 K K2) as [-> _].
        apply U. exists p0, c0, q0. auto.
    - destruct (i_kids s I y m p c N K) as [C1 _].
      rewrite (Hq E p0 c0 (or_introl A) q c B) in C1. discriminate.
  Qed.

  Lemma kid_names : forall y p c, In (p, c) (kids (h y)) ->
    exists nm f, dget nm (o_fields (h y)) = Some f /\ In (p, c) (fkids nm f).
  Proof. intros y p c K. apply In_kids in K; [exact K | apply W0]. Qed.

  Lemma x_old_free : o_not (h x) <> None -> ~ under_old x.
  Proof. intros _ (p & c & q & A & B). exact (x_not_under p c q (or_introl A) B). Qed.

  (** Where the objects are afterwards. *)
  Lemma reach3 : forall y m, o_not (h y) = Some m -> ~ under_old y ->
    exists r mri p, root s m r mri /\ o_path (h y) = mri :: p /\ look h r p = Some (IModel y) /\
                    look h3 r p = Some (IModel y).
  Proof.
    intros y m N U. destruct (i_reach s I y m N) as (r & mri & p & R & P & L).
    exists r, mri, p. split; [exact R|]. split; [exact P|]. split; [exact L|].
    rewrite look3; [exact L|]. intros q0 q1 -> L0. apply U.
    change (look h r (q0 ++ name :: q1) = Some (IModel y)) in L.
    rewrite (look_app _ W0 (length q0) q0 r x (name :: q1) (le_n _) L0) in L.
    destruct (look_under _ _ _ _ _ L) as (p & c & q & A & B). exists p, c, q. auto.
  Qed.

  Lemma look3_new : forall p c q, In (p, c) (news name nf) -> look h3 c q = look h c q.
  Proof.
    intros p c q K. apply look3. intros q0 q1 _ L. exact (x_not_under p c q0 (or_intror K) L).
  Qed.

  Theorem swap_inv : inv (with_heap s h3).
  Proof.
    split; cbn [t_heap t_next t_roots with_heap].
    - apply W3.
    - intros y p c K. unfold h3. rewrite !put_level.
      destruct (on02 c) as (_ & E1 & _). destruct (on02 y) as (_ & E2 & _). rewrite E1, E2.
      destruct (Nat.eq_dec y x) as [->|N].
      + apply kids3x in K. destruct K as [K|(nm & f & _ & A & B)]; [exact (Hl p c K)|].
        apply (i_level s I x p c). apply In_kids; [apply W0 | eauto].
      + rewrite kids3 in K by assumption. exact (i_level s I y p c K).
    - intros y p c K. destruct (Nat.eq_dec y x) as [->|N].
      + apply kids3x in K. destruct K as [K|(nm & f & _ & A & B)]; [exact (Hn p c K)|].
        apply (i_alloc s I x p c). apply In_kids; [apply W0 | eauto].
      + rewrite kids3 in K by assumption. exact (i_alloc s I y p c K).
    - intros y L. assert (y <> x) by lia. unfold h3. rewrite put_other by assumption.
      assert (B : h y = blank) by (apply (i_blank s I); exact L).
      destruct (o_not (h2 y)) as [m|] eqn:E.
      + exfalso. destruct (status y m E) as [[F _]|(_ & _ & _ & _ & p & c & q & F1 & F2 & _)].
        * rewrite F, B in E. discriminate.
        * destruct (look_snoc h W0 (length q) q c y (le_n _) F2) as [[-> ->]|(q0 & z & t & -> & _ & K)].
          -- pose proof (Hn p c F1). lia.
          -- pose proof (i_alloc s I z t y K). lia.
      + (* nothing reaches an object that does not exist *)
        assert (U : forall p c q, In (p, c) (olds h x name) \/ In (p, c) (news name nf) -> look h c q <> Some (IModel y)).
        { intros p c q A Lk. destruct (look_snoc h W0 (length q) q c y (le_n _) Lk) as [[-> ->]|(q0 & z & t & -> & _ & K)].
          - destruct A as [A|A]; [|pose proof (Hn p c A); lia].
            pose proof (i_alloc s I x p c (olds_kids h x name p c (W0 x) A)). lia.
          - pose proof (i_alloc s I z t y K). lia. }
        destruct (detach_all_ok _ _ _ W0 Hd) as [[D1 _] _].
        assert (G : h1 y = h y).
        { destruct (D1 y) as [G|(_ & p & c & q & G1 & G2)]; auto. exfalso. exact (U p c q (or_introl G1) G2). }
        destruct (o_not (h1 x)) as [n|] eqn:E1.
        * destruct (attach_all_ok x n _ h1 h2 W1 E1 Ha) as [A1 _].
          destruct (A1 y) as [F|(_ & F & _)]; congruence.
        * destruct (attach_none_ok x _ h1 h2 W1 E1 Ha) as [A1 _].
          destruct (A1 y) as [F|(_ & p & c & q & F1 & F2)]; [congruence|].
          exfalso. rewrite (look_fields h h1 q c f01) in F2. exact (U p c q (or_intror F1) F2).
    - intros y nm l. unfold h3. rewrite put_level, put_types. destruct (on02 y) as (_ & E2 & E3 & _).
      rewrite E2, E3. apply (i_types s I).
    - intros y. unfold h3. rewrite put_block, put_level, put_types. destruct (on02 y) as (E1 & E2 & E3 & _).
      rewrite E1, E2, E3. apply (i_block s I).
    - intros y nm B T. unfold h3 in B, T. rewrite put_block in B. rewrite put_types in T.
      destruct (on02 y) as (E1 & _ & E3 & _). rewrite E1 in B. rewrite E3 in T.
      destruct (Nat.eq_dec y x) as [->|N].
      + unfold h3. rewrite put_get by apply W2. destruct (String.eqb nm name) eqn:E.
        * apply String.eqb_eq in E. subst nm. exact (Hb B T).
        * rewrite f02. exact (i_sync s I x nm B T).
      + unfold h3. rewrite put_other by assumption. rewrite f02. exact (i_sync s I y nm B T).
    - intros y nm f T F. unfold h3 in T, F. rewrite put_types in T. destruct (on02 y) as (_ & _ & E3 & _).
      rewrite E3 in T. destruct (Nat.eq_dec y x) as [->|N].
      + rewrite put_get in F by apply W2. destruct (String.eqb nm name) eqn:E.
        * apply String.eqb_eq in E. subst nm. exact (Hc T f F).
        * rewrite f02 in F. exact (i_data s I x nm f T F).
      + rewrite put_other in F by assumption. rewrite f02 in F. exact (i_data s I y nm f T F).
    - apply (i_fresh s I).
    - apply (i_nodup s I).
    - intros n r mri R. destruct (i_root s I n r mri R) as [R1 R2]. unfold h3. rewrite put_not, put_path.
      rewrite (stays r n R1); [auto|]. intros (p & c & q & A & B).
      pose proof (olds_kids h x name p c (W0 x) A) as A'.
      destruct (o_not (h x)) as [k|] eqn:E.
      + destruct (i_kids s I x k p c E A') as [C1 C2].
        destruct (sub_attached s I (length q) q c k r (le_n _) C1 B) as [_ D].
        destruct (i_reach s I x k E) as (r' & mri' & p' & _ & P & _).
        unfold h in *. rewrite C2, P in D. rewrite R2 in D. pose proof (kids_len _ _ _ A').
        apply f_equal with (f := @length string) in D. cbn in D. rewrite !app_length in D. lia.
      + pose proof (Hq E p c (or_introl A) q r B) as Z. congruence.
    - intros y m p c N K. unfold h3 in N |- *. rewrite put_not in N. rewrite !put_not, !put_path.
      destruct (status y m N) as [[F U]|(F1 & F2 & F3 & F4 & _)].
      + rewrite F in N |- *. destruct (Nat.eq_dec y x) as [->|Ny].
        * apply kids3x in K. destruct K as [K|(nm & f & Nm & A & B)].
          -- assert (E1 : o_not (h1 x) = Some m) by now rewrite x01.
             destruct (attach_all_ok x m _ h1 h2 W1 E1 Ha) as [_ A2]. destruct (A2 p c K) as (_ & Z1 & Z2).
             rewrite x01 in Z2. auto.
          -- assert (K : In (p, c) (kids (h x))) by (apply In_kids; [apply W0 | eauto]).
             destruct (i_kids s I x m p c N K) as [C1 C2].
             rewrite (stays c m C1); [auto|]. apply (not_under_kid x m p c N U K). intros _. eauto.
        * rewrite kids3 in K by assumption. destruct (i_kids s I y m p c N K) as [C1 C2].
          rewrite (stays c m C1); [auto|]. apply (not_under_kid y m p c N U K). intros ->. contradiction.
      + rewrite kids3 in K by assumption. exact (F4 p c K).
    - intros y m N. unfold h3 in N |- *. rewrite put_not in N. rewrite put_path. fold h3.
      destruct (status y m N) as [[F U]|(F1 & F2 & F3 & F4 & p & c & q & G1 & G2 & G3)].
      + rewrite F in N |- *. destruct (reach3 y m N U) as (r & mri & p & R & P & _ & L). exists r, mri, p. auto.
      + assert (Nx : o_not (h x) <> None) by congruence.
        destruct (reach3 x m F1 (x_old_free Nx)) as (r & mri & px & R & P & _ & L).
        exists r, mri, (px ++ p ++ q). split; [exact R|]. split; [now rewrite G3, P|].
        rewrite (look_app h3 W3 (length px) px r x _ (le_n _) L).
        rewrite (look_kid h3 x p c q (W3 x)); [|apply kids3x; auto].
        now rewrite (look3_new p c q G1).
  Qed.

  (** What is told is what changed. *)
  Theorem swap_frame : forall n r mri q, root s n r mri ->
    (forall p, o_not (h x) = Some n -> p = o_path (h x) ++ [name] -> ~ leads p (mri :: q)) ->
    look h3 r q = look h r q.
  Proof.
    intros n r mri q R H. apply look3. intros q0 q1 -> L.
    apply (located s I n r mri R) in L. destruct L as [L1 L2].
    apply (H (o_path (h x) ++ [name]) L1 eq_refl). exists q1.
    unfold h. rewrite L2. cbn. now rewrite <- app_assoc.
  Qed.
  Theorem swap_told : forall n, o_not (h x) = Some n -> exists r mri p, root s n r mri /\
    o_path (h x) ++ [name] = mri :: p /\
    look h3 r p = match nf with
                  | Some (FData d) => Some (IData d)
                  | Some (FModel i) => Some (IModel i)
                  | Some (FMap m) => Some (IMap m)
                  | None => None
                  end.
  Proof.
    intros n N. assert (Nx : o_not (h x) <> None) by congruence.
    destruct (reach3 x n N (x_old_free Nx)) as (r & mri & px & R & P & _ & L).
    exists r, mri, (px ++ [name]). split; [exact R|]. split; [now rewrite P|].
    rewrite (look_app h3 W3 (length px) px r x _ (le_n _) L). cbn [look].
    unfold h3. rewrite put_get by apply W2. rewrite String.eqb_refl.
    destruct nf as [[d|i|m]|]; reflexivity.
  Qed.
End swap.
