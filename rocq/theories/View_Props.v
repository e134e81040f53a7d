(** C99: what is in hand through a view is what the block has; arguments reach the method. *)
From Coq Require Import String Ascii Bool ZArith Lia Permutation Sorted List.
From Verif Require Import Base Reg_Model View_Model.
Import ListNotations.
Local Open Scope string_scope.
Local Open Scope list_scope.
Local Infix "+++" := String.append (at level 60, right associativity).

(** ** Specification *)

(** Block [mri] has model [i] as its field [n]. *)
Definition field_at (s : st) (mri n : string) (i : nat) : Prop :=
  exists b, dget mri (s_blocks s) = Some b /\ In n (b_types b) /\ dget n (b_attrs b) = Some i.
(** It lists [n] as a field. *)
Definition listed (s : st) (mri n : string) : Prop :=
  exists b, dget mri (s_blocks s) = Some b /\ In n (b_types b).
Definition has_block (s : st) (mri : string) : Prop := exists b, dget mri (s_blocks s) = Some b.
Definition attribute (s : st) (i : nat) : Prop := exists x, m_kind (s_heap s i) = KAttr x.
Definition method (s : st) (i : nat) : Prop := exists t, m_kind (s_heap s i) = KMeth t.

(** The names of fields are checked when parts register them (C25). *)
Definition named (os : list op) : Prop := forall mri n i, In (OSet mri n i) os -> camel n = true.
(** The operation did not raise. *)
Definition succeeds (s : st) (o : op) : Prop :=
  match o with
  | OSet mri n i => snd (set_field s mri n i) = Ok tt
  | ORemove mri n => snd (remove_field s mri n) = Ok tt
  | _ => True
  end.
Fixpoint all_succeed (s : st) (os : list op) : Prop :=
  match os with [] => True | o :: r => succeeds s o /\ all_succeed (step s o) r end.

(** ** Invariants *)

Record inv (s : st) : Prop := mkInv {
  i_nodup : NoDup (dkeys (s_blocks s));
  i_blk : forall mri b, dget mri (s_blocks s) = Some b ->
            NoDup (dkeys (b_attrs b)) /\ NoDup (b_types b) /\
            (forall n i, dget n (b_attrs b) = Some i -> In n (b_types b)) /\ ~ In "meta" (b_types b);
  i_held : forall i, (m_not (s_heap s i) = false /\ m_path (s_heap s i) = []) \/
                     (exists mri n, m_not (s_heap s i) = true /\ m_path (s_heap s i) = [mri; n] /\ field_at s mri n i) }.

Lemma upd_same h i m : upd h i m i = m.
Proof. unfold upd. now rewrite Nat.eqb_refl. Qed.
Lemma upd_other h i m j : j <> i -> upd h i m j = h j.
Proof. intros N. unfold upd. destruct (Nat.eqb_spec j i); congruence. Qed.

Lemma start_inv kinds : inv (start kinds).
Proof.
  constructor; cbn.
  - constructor.
  - discriminate.
  - intros i. left. split; reflexivity.
Qed.

Lemma not_in_filter name l : ~ In name (filter (fun k => negb (String.eqb k name)) l).
Proof. intros H. apply filter_In in H. destruct H as [_ H]. now rewrite String.eqb_refl in H. Qed.

Lemma NoDup_snoc {A} (l : list A) x : NoDup l -> ~ In x l -> NoDup (l ++ [x]).
Proof.
  induction l as [|y r IH]; intros N H; cbn.
  - constructor; [intros []|constructor].
  - inversion N as [|y' r' N1 N2]; subst. constructor.
    + intros C. apply in_app_or in C. destruct C as [C|[->|[]]]; [now apply N1|]. apply H. now left.
    + apply IH; [exact N2|]. intros C. apply H. now right.
Qed.

(** What stays where it is when block [mri] is replaced. *)
Lemma field_at_other s mri b h mri' n i : mri' <> mri ->
  field_at s mri' n i -> field_at (with_block s mri b h) mri' n i.
Proof.
  intros N (b0 & A & B & C). exists b0. split; [|split; assumption].
  cbn [with_block s_blocks]. rewrite dget_dset. destruct (String.eqb_spec mri' mri); [congruence|exact A].
Qed.
Lemma field_at_same s mri b h n i : In n (b_types b) -> dget n (b_attrs b) = Some i ->
  field_at (with_block s mri b h) mri n i.
Proof. intros A B. exists b. cbn [with_block s_blocks]. rewrite dget_dset_same. repeat split; assumption. Qed.

Lemma with_block_blk s mri b h :
  inv s -> (NoDup (dkeys (b_attrs b)) /\ NoDup (b_types b) /\
            (forall n i, dget n (b_attrs b) = Some i -> In n (b_types b)) /\ ~ In "meta" (b_types b)) ->
  forall mri' b', dget mri' (s_blocks (with_block s mri b h)) = Some b' ->
            NoDup (dkeys (b_attrs b')) /\ NoDup (b_types b') /\
            (forall n i, dget n (b_attrs b') = Some i -> In n (b_types b')) /\ ~ In "meta" (b_types b').
Proof.
  intros I P mri' b' G. cbn [with_block s_blocks] in G. rewrite dget_dset in G.
  destruct (String.eqb_spec mri' mri) as [->|N]; [injection G as <-; exact P | exact (i_blk s I mri' b' G)].
Qed.

(** Attaching a model where it is put. *)
Lemma step_inv s o : inv s -> inv (step s o).
Proof.
  intros I. destruct o as [mri|mri n i|mri n|i v]; cbn [step].
  - unfold new_block. destruct (dmem mri (s_blocks s)) eqn:E; [exact I|]. apply dmem_false in E.
    assert (N0 : dget mri (s_blocks s) = None).
    { destruct (dget mri (s_blocks s)) as [b|] eqn:G; [|reflexivity]. apply dget_Some_key in G. contradiction. }
    constructor; cbn [s_blocks s_heap].
    + apply dset_nodup. exact (i_nodup s I).
    + intros mri' b' G. rewrite dget_dset in G. destruct (String.eqb_spec mri' mri) as [->|N].
      * injection G as <-. cbn. repeat split; try constructor; try discriminate. intros [].
      * exact (i_blk s I mri' b' G).
    + intros i. destruct (i_held s I i) as [A|(m & n & A & B & b & C & D & F)]; [left; exact A|].
      right. exists m, n. split; [exact A|]. split; [exact B|]. exists b. cbn [s_blocks].
      rewrite dget_dset. destruct (String.eqb_spec m mri) as [->|N]; [congruence|]. repeat split; assumption.
  - unfold set_field. destruct (dget mri (s_blocks s)) as [b|] eqn:Gb; [|exact I].
    destruct (b_broken b); [exact I|]. destruct (String.eqb_spec n "meta") as [|Nm]; [exact I|]. cbv zeta.
    destruct (i_blk s I mri b Gb) as (Nk & Nt & Kt & Mt).
    set (known := smem n (b_types b)).
    set (old := if known then dget n (b_attrs b) else None).
    set (types := if known then b_types b else b_types b ++ [n]).
    assert (Ty : NoDup types /\ ~ In "meta" types /\ In n types /\ forall k, In k (b_types b) -> In k types).
    { unfold types, known. destruct (smem n (b_types b)) eqn:Es.
      - apply smem_In in Es. repeat split; try assumption. tauto.
      - apply smem_false in Es. repeat split.
        + apply NoDup_snoc; assumption.
        + intros C. apply in_app_or in C. destruct C as [C|[C|[]]]; [exact (Mt C)|congruence].
        + apply in_or_app. right. now left.
        + intros k Hk. apply in_or_app. now left. }
    destruct Ty as (T1 & T2 & T3 & T4).
    set (h1 := match old with Some j => detach j (s_heap s) | None => s_heap s end).
    assert (D : forall j, m_not (h1 j) = false /\ m_path (h1 j) = [] \/
                 (exists m k, m_not (h1 j) = true /\ m_path (h1 j) = [m; k] /\ field_at s m k j /\
                              ~ (m = mri /\ k = n))).
    { intros j. unfold h1. unfold old, known. destruct (smem n (b_types b)) eqn:Es.
      - destruct (dget n (b_attrs b)) as [o|] eqn:Go.
        + unfold detach. destruct (Nat.eq_dec j o) as [->|Nj].
          * rewrite upd_same. cbn. left. split; reflexivity.
          * rewrite (upd_other _ _ _ _ Nj). destruct (i_held s I j) as [A|(m & k & A & B & F)]; [left; exact A|].
            right. exists m, k. split; [exact A|]. split; [exact B|]. split; [exact F|].
            intros [-> ->]. destruct F as (b' & F1 & F2 & F3). congruence.
        + destruct (i_held s I j) as [A|(m & k & A & B & F)]; [left; exact A|].
          right. exists m, k. split; [exact A|]. split; [exact B|]. split; [exact F|].
          intros [-> ->]. destruct F as (b' & F1 & F2 & F3). congruence.
      - destruct (i_held s I j) as [A|(m & k & A & B & F)]; [left; exact A|].
        right. exists m, k. split; [exact A|]. split; [exact B|]. split; [exact F|].
        intros [-> ->]. destruct F as (b' & F1 & F2 & F3). apply smem_false in Es. congruence. }
    assert (R : forall bb h, NoDup (dkeys (b_attrs bb)) -> b_types bb = types ->
                (forall k j, dget k (b_attrs bb) = Some j -> In k types) ->
                (forall j, m_not (h j) = false /\ m_path (h j) = [] \/
                   exists m k, m_not (h j) = true /\ m_path (h j) = [m; k] /\ field_at (with_block s mri bb h) m k j) ->
                inv (with_block s mri bb h)).
    { intros bb h B1 B2 B3 B4. constructor.
      - cbn [with_block s_blocks]. apply dset_nodup. exact (i_nodup s I).
      - apply with_block_blk; [exact I|]. rewrite B2. repeat split; try assumption.
      - exact B4. }
    assert (Go : inv (fst (match attach i mri n h1 with
             | Some h2 => (with_block s mri (mkBlk types (dset n i (b_attrs b)) (smem n own_of_model)) h2,
                           if smem n own_of_model then Err TypeErr else Ok tt)
             | None => (with_block s mri (mkBlk types (b_attrs b) false) h1, Err AssertionErr)
             end))).
    { unfold attach. destruct (m_not (h1 i)) eqn:Ni; cbn [fst].
      - apply R; cbn [b_attrs b_types]; [exact Nk|reflexivity| |].
        + intros k j G. apply T4. exact (Kt k j G).
        + intros j. destruct (D j) as [A|(m & k & A & B & F & G)]; [left; exact A|].
          right. exists m, k. split; [exact A|]. split; [exact B|].
          destruct (string_dec m mri) as [->|Nmri]; [|now apply field_at_other].
          destruct F as (b' & F1 & F2 & F3). assert (b' = b) by congruence. subst b'.
          apply field_at_same; cbn; [now apply T4|exact F3].
      - apply R; cbn [b_attrs b_types]; [now apply dset_nodup|reflexivity| |].
        + intros k j G. rewrite dget_dset in G. destruct (String.eqb_spec k n) as [->|Nk']; [exact T3|].
          apply T4. exact (Kt k j G).
        + intros j. destruct (Nat.eq_dec j i) as [->|Nj].
          * right. exists mri, n. rewrite upd_same. cbn [m_not m_path]. split; [reflexivity|].
            split; [reflexivity|]. apply field_at_same; cbn; [exact T3|apply dget_dset_same].
          * rewrite (upd_other _ _ _ _ Nj).
            destruct (D j) as [A|(m & k & A & B & F & G)]; [left; exact A|].
            right. exists m, k. split; [exact A|]. split; [exact B|].
            destruct (string_dec m mri) as [->|Nmri]; [|now apply field_at_other].
            destruct F as (b' & F1 & F2 & F3). assert (b' = b) by congruence. subst b'.
            apply field_at_same; cbn; [now apply T4|]. rewrite dget_dset.
            destruct (String.eqb_spec k n) as [->|]; [exfalso; apply G; split; reflexivity|exact F3]. }
    destruct known; [destruct old|]; [exact Go|exact I|exact Go].
  - unfold remove_field. destruct (dget mri (s_blocks s)) as [b|] eqn:Gb; [|exact I].
    destruct (b_broken b); [exact I|]. destruct (dget n (b_attrs b)) as [i|] eqn:Gi; [|exact I]. cbn [fst].
    destruct (i_blk s I mri b Gb) as (Nk & Nt & Kt & Mt).
    constructor.
    + cbn [with_block s_blocks]. apply dset_nodup. exact (i_nodup s I).
    + apply with_block_blk; [exact I|]. cbn [b_attrs b_types].
      split; [now apply ddel_nodup|]. split; [now apply NoDup_filter|]. split.
      * intros k j G. rewrite (dget_ddel _ _ _ Nk) in G. destruct (String.eqb_spec k n) as [->|N]; [discriminate|].
        apply filter_In. split; [exact (Kt k j G)|]. destruct (String.eqb_spec k n); [congruence|reflexivity].
      * intros C. apply filter_In in C. exact (Mt (proj1 C)).
    + intros j. cbn [with_block s_heap]. unfold detach. destruct (Nat.eq_dec j i) as [->|Nj].
      * left. rewrite upd_same. split; reflexivity.
      * rewrite (upd_other _ _ _ _ Nj). destruct (i_held s I j) as [A|(m & k & A & B & F)]; [left; exact A|].
        right. exists m, k. split; [exact A|]. split; [exact B|].
        destruct (string_dec m mri) as [->|Nmri]; [|now apply field_at_other].
        destruct F as (b' & F1 & F2 & F3). assert (b' = b) by congruence. subst b'.
        assert (k <> n) by congruence.
        apply field_at_same; cbn [b_types b_attrs].
        -- apply filter_In. split; [exact F2|]. destruct (String.eqb_spec k n); [congruence|reflexivity].
        -- rewrite (dget_ddel _ _ _ Nk). destruct (String.eqb_spec k n); [congruence|exact F3].
  - unfold set_value. destruct (m_kind (s_heap s i)) as [x|t] eqn:K; [|exact I].
    constructor; cbn [s_blocks s_heap].
    + exact (i_nodup s I).
    + exact (i_blk s I).
    + intros j. destruct (Nat.eq_dec j i) as [->|Nj].
      * rewrite upd_same. cbn [m_not m_path]. exact (i_held s I i).
      * rewrite (upd_other _ _ _ _ Nj). exact (i_held s I j).
Qed.

Lemma steps_inv os : forall s, inv s -> inv (steps s os).
Proof. induction os as [|o r IH]; intros s I; [exact I|]. cbn. apply IH. now apply step_inv. Qed.
Lemma reach_inv kinds os : inv (steps (start kinds) os).
Proof. apply steps_inv, start_inv. Qed.

Lemma step_block s o mri : has_block s mri -> has_block (step s o) mri.
Proof.
  intros (b & H).
  assert (W : forall s' m b0 h, has_block s' mri -> has_block (with_block s' m b0 h) mri).
  { intros s' m b0 h (b1 & H1). unfold has_block. cbn [with_block s_blocks]. rewrite dget_dset.
    destruct (String.eqb mri m); eexists; [reflexivity|exact H1]. }
  assert (H0 : has_block s mri) by (exists b; exact H).
  destruct o as [m|m n i|m n|i v]; cbn [step].
  - unfold new_block. destruct (dmem m (s_blocks s)); [exact H0|]. unfold has_block. cbn [s_blocks].
    rewrite dget_dset. destruct (String.eqb mri m); eexists; [reflexivity|exact H].
  - unfold set_field. destruct (dget m (s_blocks s)) as [b0|]; [|exact H0].
    destruct (b_broken b0); [exact H0|]. destruct (String.eqb n "meta"); [exact H0|]. cbv zeta.
    destruct (smem n (b_types b0)); [destruct (dget n (b_attrs b0))|];
      try exact H0; destruct (attach _ _ _ _); apply W; exact H0.
  - unfold remove_field. destruct (dget m (s_blocks s)) as [b0|]; [|exact H0].
    destruct (b_broken b0); [exact H0|]. destruct (dget n (b_attrs b0)); [|exact H0]. apply W. exact H0.
  - unfold set_value. destruct (m_kind (s_heap s i)); exact H0.
Qed.
Lemma steps_block os : forall s mri, has_block s mri -> has_block (steps s os) mri.
Proof. induction os as [|o r IH]; intros s mri H; [exact H|]. cbn. apply IH. now apply step_block. Qed.

Lemma steps_app s a b : steps s (a ++ b) = steps (steps s a) b.
Proof. unfold steps. apply fold_left_app. Qed.

(** ** Names *)

Fixpoint has_underscore (s : string) : bool :=
  match s with EmptyString => false | String c r => Ascii.eqb c "_" || has_underscore r end.

Lemma underscore_rest s : has_underscore s = true -> camel_rest s = false.
Proof.
  induction s as [|c r IH]; cbn [has_underscore camel_rest]; [discriminate|]. intros H.
  destruct (Ascii.eqb_spec c "_") as [->|N].
  - cbn [lower upper digit]. destruct r; reflexivity.
  - cbn [orb] in H. specialize (IH H). rewrite IH. destruct r as [|c' r']; [discriminate|].
    destruct (lower c || upper c || digit c); reflexivity.
Qed.
Lemma underscore_camel s : has_underscore s = true -> camel s = false.
Proof.
  destruct s as [|c r]; cbn [has_underscore camel]; [reflexivity|]. intros H.
  destruct (Ascii.eqb_spec c "_") as [->|N]; [reflexivity|]. cbn [orb] in H.
  rewrite (underscore_rest r H). apply andb_false_r.
Qed.
Lemma async_underscore m : has_underscore (async_name m) = true.
Proof. unfold async_name. induction m as [|c r IH]; [reflexivity|]. cbn in *. rewrite IH. apply orb_true_r. Qed.
Lemma str_len a b : String.length (a +++ b) = String.length a + String.length b.
Proof. induction a as [|c r IH]; cbn; [reflexivity|]. now rewrite IH. Qed.
Lemma async_inj m m' : async_name m = async_name m' -> m = m'.
Proof.
  unfold async_name. revert m'. induction m as [|c r IH]; intros [|c' r'] H; [reflexivity| | |].
  - exfalso. apply (f_equal String.length) in H. cbn in H. rewrite (str_len r') in H. cbn in H. lia.
  - exfalso. apply (f_equal String.length) in H. cbn in H. rewrite (str_len r) in H. cbn in H. lia.
  - cbn in H. injection H as -> H. f_equal. now apply IH.
Qed.

(** ** Views of blocks *)

Lemma block_view_ok s mri v : block_view s mri = Ok v ->
  exists b, dget mri (s_blocks s) = Some b /\ v = mkView mri ("meta" :: b_types b) (filter (is_method s mri) (b_types b)).
Proof.
  unfold block_view. destruct (dget mri (s_blocks s)) as [b|]; [|discriminate].
  destruct (smem "typeid" (b_types b)); [discriminate|].
  destruct (forallb _ _); [|discriminate]. intros H. exists b. split; [reflexivity|]. now injection H as <-.
Qed.

Lemma child_field s mri n i : inv s -> n <> "meta" ->
  (child s mri n = Ok (Field i) <-> field_at s mri n i).
Proof.
  intros I Nm. unfold child, item, field_at. destruct (dget mri (s_blocks s)) as [b|].
  - destruct (String.eqb_spec n "meta"); [congruence|].
    destruct (smem n (b_types b)) eqn:E.
    + apply smem_In in E. destruct (dget n (b_attrs b)) as [j|] eqn:G.
      * split; [intros H; injection H as <-; exists b; auto|].
        intros (b' & A & _ & C). injection A as <-. congruence.
      * split; [discriminate|]. intros (b' & A & _ & C). injection A as <-. congruence.
    + apply smem_false in E. split; [discriminate|]. intros (b' & A & B & _). injection A as <-. contradiction.
  - split; [discriminate|]. intros (b' & A & _). discriminate.
Qed.

Lemma child_none s mri n : has_block s mri -> n <> "meta" -> (forall i, ~ field_at s mri n i) ->
  child s mri n = Err KeyErr.
Proof.
  intros (b & H) Nm No. unfold child, item. rewrite H. destruct (String.eqb_spec n "meta"); [congruence|].
  destruct (smem n (b_types b)) eqn:E; [|reflexivity]. apply smem_In in E.
  destruct (dget n (b_attrs b)) as [j|] eqn:G; [|reflexivity]. exfalso. apply (No j). exists b. auto.
Qed.

Lemma no_async n l : camel n = true -> find (fun m => String.eqb n (async_name m)) l = None.
Proof.
  intros C. induction l as [|m r IH]; [reflexivity|]. cbn. destruct (String.eqb_spec n (async_name m)) as [->|]; [|exact IH].
  rewrite (underscore_camel _ (async_underscore m)) in C. discriminate.
Qed.
Lemma no_class n : camel n = true -> smem n class_names = false.
Proof.
  intros C. destruct (smem n class_names) eqn:E; [|reflexivity]. apply smem_In in E.
  cbn in E. decompose [or] E; subst; try discriminate. contradiction.
Qed.
Lemma no_instance n : camel n = true -> n <> "typeid" -> smem n instance_names = false.
Proof.
  intros C N. destruct (smem n instance_names) eqn:E; [|reflexivity]. apply smem_In in E.
  cbn in E. decompose [or] E; subst; try discriminate; contradiction.
Qed.

Lemma getattr_camel v s n : camel n = true -> n <> "mri" -> n <> "typeid" -> getattr v s n = child s (v_mri v) n.
Proof.
  intros C N1 N2. unfold getattr. destruct (smem n (v_props v)); [reflexivity|].
  destruct (String.eqb_spec n "mri"); [contradiction|]. rewrite (no_instance n C N2), (no_async n _ C), (no_class n C).
  reflexivity.
Qed.

(** However long a view of a block is held and whatever happens to the block, an attribute of the view is the
    field the block has under that name now; a name it has no field for raises. *)
Theorem C99_current : forall kinds os os' mri v n,
  block_view (steps (start kinds) os) mri = Ok v -> camel n = true -> ~ In n ["mri"; "typeid"; "meta"] ->
  let s := steps (start kinds) (os ++ os') in
  (forall i, getattr v s n = Ok (Field i) <-> field_at s mri n i) /\
  (getattr v s n = Err KeyErr <-> forall i, ~ field_at s mri n i).
Proof.
  intros kinds os os' mri v n V C N s. destruct (block_view_ok _ _ _ V) as (b & Gb & ->).
  assert (N1 : n <> "mri") by (intros ->; apply N; now left).
  assert (N2 : n <> "typeid") by (intros ->; apply N; right; now left).
  assert (N3 : n <> "meta") by (intros ->; apply N; right; right; now left).
  assert (I : inv s) by apply reach_inv.
  assert (B : has_block s mri).
  { unfold s. rewrite steps_app. apply steps_block. exists b. exact Gb. }
  rewrite (getattr_camel _ s n C N1 N2). cbn [v_mri]. split.
  - intros i. now apply child_field.
  - split; [|now apply child_none]. intros E i F. apply (child_field s mri n i I N3) in F. congruence.
Qed.

(** The fields that were there when the view was made are found under any name, also "mri". *)
Theorem C99_known : forall kinds os os' mri v n i,
  let s0 := steps (start kinds) os in
  let s := steps (start kinds) (os ++ os') in
  block_view s0 mri = Ok v -> listed s0 mri n -> (getattr v s n = Ok (Field i) <-> field_at s mri n i).
Proof.
  intros kinds os os' mri v n i s0 s V (b & Gb & L). destruct (block_view_ok _ _ _ V) as (b' & Gb' & ->).
  assert (b' = b) by congruence. subst b'.
  assert (Nm : n <> "meta"). { intros ->. exact (proj2 (proj2 (proj2 (i_blk s0 (reach_inv kinds os) mri b Gb))) L). }
  unfold getattr. cbn [v_props v_mri]. assert (E : smem n ("meta" :: b_types b) = true) by (apply smem_In; now right).
  rewrite E. apply child_field; [apply reach_inv | exact Nm].
Qed.

(** The meta of the block is always there. *)
Theorem C99_meta : forall kinds os os' mri v, block_view (steps (start kinds) os) mri = Ok v ->
  getattr v (steps (start kinds) (os ++ os')) "meta" = Ok Meta /\ v_mri v = mri.
Proof.
  intros kinds os os' mri v V. destruct (block_view_ok _ _ _ V) as (b & Gb & ->).
  assert (B : has_block (steps (start kinds) (os ++ os')) mri).
  { rewrite steps_app. apply steps_block. exists b. exact Gb. }
  destruct B as (b' & B). split; [|reflexivity].
  unfold getattr, child, item. cbn [v_props v_mri smem String.eqb]. cbn. now rewrite B.
Qed.

(** A view can be made of a block to which nothing was refused, unless a field is called typeid; it lists the
    fields, and has an async function for each method. *)
Lemma succeed_app a : forall s b, all_succeed s (a ++ b) <-> all_succeed s a /\ all_succeed (steps s a) b.
Proof.
  induction a as [|o r IH]; intros s b; cbn [all_succeed app]; [cbn; tauto|]. rewrite IH. cbn. tauto.
Qed.

(** Nothing refused: every listed field has its model, at its path, and nothing is broken. *)
Record whole (s : st) : Prop := mkWhole {
  w_inv : inv s;
  w_set : forall mri b n, dget mri (s_blocks s) = Some b -> In n (b_types b) ->
            exists i, dget n (b_attrs b) = Some i /\ m_not (s_heap s i) = true /\ m_path (s_heap s i) = [mri; n] }.

Lemma start_whole kinds : whole (start kinds).
Proof. constructor; [apply start_inv|]. cbn. discriminate. Qed.

Lemma step_whole s o : whole s -> succeeds s o -> whole (step s o).
Proof.
  intros [I W] S. assert (I' : inv (step s o)) by now apply step_inv. constructor; [exact I'|]. clear I'.
  destruct o as [mri|mri n i|mri n|i v]; cbn [step].
  - unfold new_block. destruct (dmem mri (s_blocks s)) eqn:E; [exact W|].
    intros m b n G L. cbn [s_blocks s_heap] in *. rewrite dget_dset in G.
    destruct (String.eqb_spec m mri) as [->|N]; [injection G as <-; destruct L | exact (W m b n G L)].
  - cbn [succeeds] in S. revert S. unfold set_field.
    destruct (dget mri (s_blocks s)) as [b|] eqn:Gb; [|discriminate].
    destruct (b_broken b); [discriminate|]. destruct (String.eqb_spec n "meta") as [|Nm]; [discriminate|]. cbv zeta.
    destruct (smem n (b_types b)) eqn:Es.
    + destruct (dget n (b_attrs b)) as [o|] eqn:Go; [|discriminate]. unfold attach.
      destruct (m_not (detach o (s_heap s) i)) eqn:Ni; [discriminate|]. intros _. cbn [fst].
      intros m b' k G L. cbn [with_block s_blocks s_heap] in *. rewrite dget_dset in G.
      assert (O : forall m' b1 k' j, dget m' (s_blocks s) = Some b1 -> In k' (b_types b1) ->
                    dget k' (b_attrs b1) = Some j -> m_not (s_heap s j) = true -> m_path (s_heap s j) = [m'; k'] ->
                    ~ (m' = mri /\ k' = n) ->
                    m_not (upd (detach o (s_heap s)) i (mkMdl (m_kind (detach o (s_heap s) i)) true [mri; n]) j) = true /\
                    m_path (upd (detach o (s_heap s)) i (mkMdl (m_kind (detach o (s_heap s) i)) true [mri; n]) j) = [m'; k']).
      { intros m' b1 k' j A B C D F Nx.
        assert (j <> o).
        { intros ->. destruct (W mri b n Gb (proj1 (smem_In _ _) Es)) as (o' & X & Y & Z).
          assert (o' = o) by congruence. subst o'. rewrite Z in F. injection F as <- <-. apply Nx. split; reflexivity. }
        assert (Hj : detach o (s_heap s) j = s_heap s j) by (unfold detach; now apply upd_other).
        assert (j <> i). { intros ->. rewrite Hj in Ni. congruence. }
        rewrite upd_other by assumption. rewrite Hj. split; assumption. }
      destruct (String.eqb_spec m mri) as [->|N].
      * injection G as <-. cbn [b_types b_attrs] in *. rewrite dget_dset.
        destruct (String.eqb_spec k n) as [->|Nk].
        -- exists i. rewrite upd_same. repeat split; reflexivity.
        -- destruct (W mri b k Gb L) as (j & A & B & C). exists j. split; [exact A|].
           apply (O mri b k j Gb L A B C). intros [_ X]. contradiction.
      * destruct (W m b' k G L) as (j & A & B & C). exists j. split; [exact A|].
        apply (O m b' k j G L A B C). intros [X _]. contradiction.
    + unfold attach. destruct (m_not (s_heap s i)) eqn:Ni; [discriminate|]. intros _. cbn [fst].
      intros m b' k G L. cbn [with_block s_blocks s_heap] in *. rewrite dget_dset in G.
      assert (O : forall j m' k', m_not (s_heap s j) = true -> m_path (s_heap s j) = [m'; k'] ->
                    m_not (upd (s_heap s) i (mkMdl (m_kind (s_heap s i)) true [mri; n]) j) = true /\
                    m_path (upd (s_heap s) i (mkMdl (m_kind (s_heap s i)) true [mri; n]) j) = [m'; k']).
      { intros j m' k' D F. assert (j <> i) by congruence. rewrite upd_other by assumption. split; assumption. }
      destruct (String.eqb_spec m mri) as [->|N].
      * injection G as <-. cbn [b_types b_attrs] in *. rewrite dget_dset.
        destruct (String.eqb_spec k n) as [->|Nk].
        -- exists i. rewrite upd_same. repeat split; reflexivity.
        -- apply in_app_or in L. destruct L as [L|[L|[]]]; [|congruence].
           destruct (W mri b k Gb L) as (j & A & B & C). exists j. split; [exact A|]. now apply O.
      * destruct (W m b' k G L) as (j & A & B & C). exists j. split; [exact A|]. now apply O.
  - cbn [succeeds] in S. revert S. unfold remove_field.
    destruct (dget mri (s_blocks s)) as [b|] eqn:Gb; [|discriminate].
    destruct (b_broken b); [discriminate|]. destruct (dget n (b_attrs b)) as [i|] eqn:Gi; [|discriminate].
    intros _. cbn [fst]. intros m b' k G L. cbn [with_block s_blocks s_heap] in *. rewrite dget_dset in G.
    destruct (i_blk s I mri b Gb) as (Nk & Nt & Kt & Mt).
    destruct (W mri b n Gb (Kt n i Gi)) as (i' & X & Y & Z). assert (i' = i) by congruence. subst i'.
    assert (O : forall j m' k', m_not (s_heap s j) = true -> m_path (s_heap s j) = [m'; k'] -> ~ (m' = mri /\ k' = n) ->
                  m_not (detach i (s_heap s) j) = true /\ m_path (detach i (s_heap s) j) = [m'; k']).
    { intros j m' k' D F Nx. assert (j <> i). { intros ->. rewrite Z in F. injection F as <- <-. apply Nx. now split. }
      unfold detach. rewrite upd_other by assumption. split; assumption. }
    destruct (String.eqb_spec m mri) as [->|N].
    + injection G as <-. cbn [b_types b_attrs] in *. apply filter_In in L. destruct L as [L1 L2].
      assert (k <> n). { intros ->. now rewrite String.eqb_refl in L2. }
      destruct (W mri b k Gb L1) as (j & A & B & C). exists j. split.
      * rewrite (dget_ddel _ _ _ Nk). destruct (String.eqb_spec k n); [contradiction|exact A].
      * apply O; [exact B|exact C|]. intros [_ E]. contradiction.
    + destruct (W m b' k G L) as (j & A & B & C). exists j. split; [exact A|].
      apply O; [exact B|exact C|]. intros [E _]. contradiction.
  - unfold set_value. destruct (m_kind (s_heap s i)) as [x|t] eqn:K; [|exact W].
    intros m b k G L. cbn [s_blocks s_heap] in *. destruct (W m b k G L) as (j & A & B & C). exists j.
    split; [exact A|]. destruct (Nat.eq_dec j i) as [->|Nj].
    + rewrite upd_same. split; assumption.
    + rewrite upd_other by assumption. split; assumption.
Qed.

Lemma steps_whole os : forall s, whole s -> all_succeed s os -> whole (steps s os).
Proof.
  induction os as [|o r IH]; intros s W A; [exact W|]. destruct A as [A B]. cbn. apply IH; [|exact B].
  now apply step_whole.
Qed.
Lemma reach_whole kinds os : all_succeed (start kinds) os -> whole (steps (start kinds) os).
Proof. intros A. apply steps_whole; [apply start_whole|exact A]. Qed.

Theorem C99_viewable : forall kinds os mri, all_succeed (start kinds) os ->
  let s := steps (start kinds) os in
  has_block s mri -> ~ listed s mri "typeid" ->
  exists v, block_view s mri = Ok v /\
            (forall n, In n (v_props v) <-> n = "meta" \/ listed s mri n) /\
            (forall m, In m (v_async v) <-> exists i, field_at s mri m i /\ method s i).
Proof.
  intros kinds os mri A s (b & Gb) Nt. assert (W : whole s) by now apply reach_whole.
  assert (T : smem "typeid" (b_types b) = false).
  { apply smem_false. intros H. apply Nt. exists b. split; assumption. }
  assert (F : forallb (fun n => dmem n (b_attrs b)) (b_types b) = true).
  { apply forallb_forall. intros n L. destruct (w_set s W mri b n Gb L) as (i & G & _).
    apply dmem_In. now apply dget_Some_key in G. }
  unfold block_view. rewrite Gb, T, F. eexists. split; [reflexivity|]. cbn [v_props v_async]. split.
  - intros n. cbn [In]. unfold listed. rewrite Gb. split.
    + intros [<-|H]; [now left|]. right. exists b. split; [reflexivity|exact H].
    + intros [->|(b' & X & Y)]; [now left|]. injection X as <-. now right.
  - intros m. rewrite filter_In. split.
    + intros [L M]. destruct (w_set s W mri b m Gb L) as (i & G & _). exists i.
      assert (Fi : field_at s mri m i) by (exists b; auto). split; [exact Fi|].
      assert (Nm : m <> "meta"). { intros ->. exact (proj2 (proj2 (proj2 (i_blk s (w_inv s W) mri b Gb))) L). }
      unfold is_method in M. apply (child_field s mri m i (w_inv s W) Nm) in Fi. unfold child in Fi.
      destruct (item s mri m) as [[j|]|e]; try discriminate. injection Fi as ->.
      unfold method. destruct (m_kind (s_heap s i)) as [x|t]; [discriminate|]. exists t. reflexivity.
    + intros (i & Fi & t & K). assert (Fi' := Fi). destruct Fi' as (b' & X & Y & Z). rewrite Gb in X. injection X as <-.
      split; [exact Y|].
      assert (Nm : m <> "meta"). { intros ->. exact (proj2 (proj2 (proj2 (i_blk s (w_inv s W) mri b Gb))) Y). }
      unfold is_method. apply (child_field s mri m i (w_inv s W) Nm) in Fi. unfold child in Fi.
      destruct (item s mri m) as [[j|]|e]; try discriminate. injection Fi as ->. now rewrite K.
Qed.

(** ** Fields in hand *)

Lemma target_ok s path meth i : target s path meth = Ok i ->
  exists mri n rest, path = mri :: n :: rest /\ item s mri n = Ok (Some i) /\
    match m_kind (s_heap s i) with KAttr _ => meth = false | KMeth _ => meth = true end.
Proof.
  unfold target, controller_of. destruct path as [|mri rest]; [discriminate|].
  destruct (dmem mri (s_blocks s)); [|discriminate]. destruct rest as [|n rest]; [discriminate|].
  destruct (item s mri n) as [[j|]|e] eqn:It; try discriminate; [|destruct e; discriminate].
  intros H. exists mri, n, rest. split; [reflexivity|].
  destruct (m_kind (s_heap s j)) eqn:K; destruct meth; try discriminate; injection H as <-;
    rewrite K; split; reflexivity || exact It.
Qed.

(** However long a view of a field is held, and whatever was refused meanwhile: what is put through it, or
    posted, reaches that same model while it is a field of a block, or is refused. *)
Theorem C99_held : forall kinds os i,
  let s := steps (start kinds) os in
  (forall j, target s (put_path s i) false = Ok j -> j = i /\ exists mri n, field_at s mri n i) /\
  (forall j, target s (post_path s i) true = Ok j -> j = i /\ exists mri n, field_at s mri n i).
Proof.
  intros kinds os i s. assert (I : inv s) by apply reach_inv.
  assert (P : forall rest meth j, target s (m_path (s_heap s i) ++ rest) meth = Ok j -> length rest <= 1 ->
              j = i /\ exists mri n, field_at s mri n i).
  { intros rest meth j T L. apply target_ok in T. destruct T as (mri & n & r & E & It & _).
    destruct (i_held s I i) as [(_ & P)|(m & k & _ & P & b & Fb & Ft & Fa)].
    - rewrite P in E. cbn in E. subst rest. cbn in L. lia.
    - rewrite P in E. cbn in E. injection E as -> -> _.
      assert (F : field_at s mri n i) by (exists b; auto). split; [|exists mri, n; exact F].
      unfold item in It. rewrite Fb in It. destruct (String.eqb n "meta"); [discriminate|].
      assert (E : smem n (b_types b) = true) by now apply smem_In. rewrite E, Fa in It. now injection It as <-. }
  split; intros j T.
  - exact (P ["value"] false j T (le_n 1)).
  - apply (P [] true j); [rewrite app_nil_r; exact T | cbn; lia].
Qed.

(** While nothing was refused, every field of a block is reached through any view of it. *)
Theorem C99_reaches : forall kinds os mri n i, all_succeed (start kinds) os ->
  let s := steps (start kinds) os in
  field_at s mri n i ->
  put_path s i = [mri; n; "value"] /\ post_path s i = [mri; n] /\
  (attribute s i -> target s (put_path s i) false = Ok i) /\
  (method s i -> target s (post_path s i) true = Ok i).
Proof.
  intros kinds os mri n i A s (b & Gb & L & Ga). assert (W : whole s) by now apply reach_whole.
  destruct (w_set s W mri b n Gb L) as (i' & X & _ & P). assert (i' = i) by congruence. subst i'.
  assert (Nm : n <> "meta"). { intros ->. exact (proj2 (proj2 (proj2 (i_blk s (w_inv s W) mri b Gb))) L). }
  assert (D : dmem mri (s_blocks s) = true) by (apply dmem_In; now apply dget_Some_key in Gb).
  assert (It : item s mri n = Ok (Some i)).
  { unfold item. rewrite Gb. destruct (String.eqb_spec n "meta"); [contradiction|].
    assert (E : smem n (b_types b) = true) by now apply smem_In. now rewrite E, Ga. }
  unfold target, put_path, post_path. rewrite P. cbn [app controller_of]. rewrite D, It.
  split; [reflexivity|]. split; [reflexivity|]. split.
  - intros [x ->]. reflexivity.
  - intros [t ->]. reflexivity.
Qed.

(** ** Async functions *)

Lemma props_camel os : forall s, named os ->
  (forall mri b n, dget mri (s_blocks s) = Some b -> In n (b_types b) -> camel n = true) ->
  forall mri b n, dget mri (s_blocks (steps s os)) = Some b -> In n (b_types b) -> camel n = true.
Proof.
  induction os as [|o r IH]; intros s N H; [exact H|]. cbn [steps fold_left].
  apply (IH (step s o)). { intros m n i X. apply (N m n i). now right. }
  assert (W : forall m b h, (forall n, In n (b_types b) -> camel n = true) ->
            forall mri b' n, dget mri (s_blocks (with_block s m b h)) = Some b' -> In n (b_types b') -> camel n = true).
  { intros m b h X mri b' n G L. cbn [with_block s_blocks] in G. rewrite dget_dset in G.
    destruct (String.eqb mri m); [injection G as <-; now apply X|exact (H mri b' n G L)]. }
  destruct o as [m|m n i|m n|i v]; cbn [step].
  - unfold new_block. destruct (dmem m (s_blocks s)); [exact H|]. intros mri b n G L. cbn [s_blocks] in G.
    rewrite dget_dset in G. destruct (String.eqb mri m); [injection G as <-; destruct L|exact (H mri b n G L)].
  - unfold set_field. destruct (dget m (s_blocks s)) as [b0|] eqn:Gb; [|exact H].
    destruct (b_broken b0); [exact H|]. destruct (String.eqb n "meta"); [exact H|]. cbv zeta.
    assert (C : camel n = true) by (apply (N m n i); now left).
    destruct (smem n (b_types b0)); [destruct (dget n (b_attrs b0)); [|exact H]|]; destruct (attach _ _ _ _); cbn [fst]; apply W;
      cbn [b_types]; intros k L; try (exact (H m b0 k Gb L));
      apply in_app_or in L; destruct L as [L|[<-|[]]]; [exact (H m b0 k Gb L)|exact C|exact (H m b0 k Gb L)|exact C].
  - unfold remove_field. destruct (dget m (s_blocks s)) as [b0|] eqn:Gb; [|exact H].
    destruct (b_broken b0); [exact H|]. destruct (dget n (b_attrs b0)); [|exact H]. apply W.
    cbn [b_types]. intros k L. apply filter_In in L. exact (H m b0 k Gb (proj1 L)).
  - unfold set_value. destruct (m_kind (s_heap s i)); exact H.
Qed.

(** The async function made for a method of the block posts to the method the block has now, as long as there
    is one. *)
Theorem C99_async : forall kinds os os' mri v m, named os ->
  block_view (steps (start kinds) os) mri = Ok v -> In m (v_async v) ->
  let s := steps (start kinds) (os ++ os') in
  getattr v s (async_name m) = Ok (Async m) /\
  (forall i args kwargs, field_at s mri m i -> call_async v s m args kwargs = post s i args kwargs).
Proof.
  intros kinds os os' mri v m Nd V A s. destruct (block_view_ok _ _ _ V) as (b & Gb & ->). cbn [v_async] in A.
  assert (L : In m (b_types b)) by (apply filter_In in A; exact (proj1 A)).
  assert (PC : forall n, In n (b_types b) -> camel n = true).
  { intros n. apply (props_camel os (start kinds) Nd) with (mri := mri); [|exact Gb]. cbn. discriminate. }
  split.
  - unfold getattr. cbn [v_props v_async].
    assert (E1 : smem (async_name m) ("meta" :: b_types b) = false).
    { apply smem_false. intros [X|X].
      - assert (U := async_underscore m). rewrite <- X in U. discriminate.
      - apply PC in X. rewrite (underscore_camel _ (async_underscore m)) in X. discriminate. }
    rewrite E1.
    assert (E2 : async_name m <> "mri" /\ ~ In (async_name m) instance_names).
    { split.
      - intros X. assert (U := async_underscore m). rewrite X in U. discriminate.
      - assert (Cm := PC m L). intros X. cbn in X.
        assert (H : forall c r, async_name m = String c r -> camel m = true -> Ascii.eqb c "_" = false).
        { intros c r Hc Hm. destruct m as [|c' r']; [discriminate|]. cbn in Hc. injection Hc as <- _. cbn in Hm.
          destruct (Ascii.eqb_spec c' "_") as [->|]; [discriminate|reflexivity]. }
        decompose [or] X; try contradiction.
        + assert (U := async_underscore m). rewrite <- H0 in U. discriminate.
        + specialize (H _ _ (eq_sym H1) Cm). discriminate.
        + specialize (H _ _ (eq_sym H0) Cm). discriminate.
        + specialize (H _ _ (eq_sym H1) Cm). discriminate. }
    destruct E2 as [E2 E3]. destruct (String.eqb_spec (async_name m) "mri"); [contradiction|].
    apply smem_false in E3. rewrite E3.
    assert (Fd : find (fun m0 => String.eqb (async_name m) (async_name m0))
                   (filter (is_method (steps (start kinds) os) mri) (b_types b)) = Some m).
    { revert A. generalize (filter (is_method (steps (start kinds) os) mri) (b_types b)) as l.
      induction l as [|x r IH]; [intros []|]. intros A. cbn [find].
      destruct (String.eqb_spec (async_name m) (async_name x)) as [X|X].
      - apply async_inj in X. now subst x.
      - destruct A as [->|A]; [contradiction|]. now apply IH. }
    rewrite Fd. reflexivity.
  - intros i args kwargs F. unfold call_async.
    assert (G : getattr (mkView mri ("meta" :: b_types b)
                  (filter (is_method (steps (start kinds) os) mri) (b_types b))) s m = Ok (Field i)).
    { apply (C99_known kinds os os' mri _ m i V); [|exact F]. exists b. split; assumption. }
    rewrite G. reflexivity.
Qed.

(** ** Putting several attributes *)

Lemma insert_perm p l : Permutation (p :: l) (insert_item p l).
Proof.
  induction l as [|q r IH]; cbn; [constructor; constructor|]. destruct (String.leb (fst p) (fst q)); [reflexivity|].
  transitivity (q :: p :: r); [constructor|]. now constructor.
Qed.
Lemma sort_perm l : Permutation l (sort_items l).
Proof.
  induction l as [|p r IH]; cbn; [constructor|]. transitivity (p :: sort_items r); [now constructor|apply insert_perm].
Qed.
Definition name_le (p q : string * Z) : Prop := String.leb (fst p) (fst q) = true.
Lemma leb_flip a b : String.leb a b = false -> String.leb b a = true.
Proof. intros H. destruct (String.leb_total a b) as [T|T]; [congruence|exact T]. Qed.
Lemma insert_sorted p l : Sorted name_le l -> Sorted name_le (insert_item p l).
Proof.
  induction l as [|q r IH]; intros S; cbn; [constructor; constructor|].
  destruct (String.leb (fst p) (fst q)) eqn:E.
  - constructor; [exact S|]. constructor. exact E.
  - inversion S as [|q' r' S1 S2]; subst. constructor; [now apply IH|].
    destruct r as [|q2 r2]; cbn.
    + constructor. now apply leb_flip.
    + destruct (String.leb (fst p) (fst q2)); constructor; [now apply leb_flip|]. now inversion S2.
Qed.
Lemma sort_sorted l : Sorted name_le (sort_items l).
Proof. induction l as [|p r IH]; cbn; [constructor|now apply insert_sorted]. Qed.

(** What the items become as requests. *)
Definition request (mri : string) (p : string * Z) : list string * Z := ([mri; fst p; "value"], snd p).

Lemma put_loop_all v s l : (forall a x, In (a, x) l -> hasattr v s a = Ok true) ->
  put_loop v s l = (map (request (v_mri v)) l, Ok tt).
Proof.
  induction l as [|[a x] r IH]; intros H; [reflexivity|]. cbn [put_loop map]. rewrite (H a x (or_introl eq_refl)).
  rewrite IH; [reflexivity|]. intros b y X. apply (H b y). now right.
Qed.
Lemma put_loop_stop v s l : forall a x r e, hasattr v s a = Err e ->
  (forall b y, In (b, y) l -> hasattr v s b = Ok true) ->
  put_loop v s (l ++ (a, x) :: r) = (map (request (v_mri v)) l, Err e).
Proof.
  induction l as [|[b y] l IH]; intros a x r e E H; cbn [put_loop map app].
  - now rewrite E.
  - rewrite (H b y (or_introl eq_refl)). rewrite (IH a x r e E); [reflexivity|]. intros c z X. apply (H c z). now right.
Qed.

Lemma hasattr_field kinds os os' mri v n : 
  let s := steps (start kinds) (os ++ os') in
  block_view (steps (start kinds) os) mri = Ok v -> camel n = true -> ~ In n ["mri"; "typeid"; "meta"] ->
  (forall i, field_at s mri n i -> hasattr v s n = Ok true) /\
  ((forall i, ~ field_at s mri n i) -> hasattr v s n = Err KeyErr).
Proof.
  intros s V C N. destruct (C99_current kinds os os' mri v n V C N) as [A B]. fold s in A, B. unfold hasattr. split.
  - intros i F. apply A in F. now rewrite F.
  - intros F. apply B in F. now rewrite F.
Qed.

(** put_attribute_values makes one request for each item, to the attribute of that name: in the order given, by
    name if a plain dictionary is given. *)
Theorem C99_puts : forall kinds os os' mri v plain params,
  let s := steps (start kinds) (os ++ os') in
  block_view (steps (start kinds) os) mri = Ok v ->
  (forall a x, In (a, x) params -> camel a = true /\ ~ In a ["mri"; "typeid"; "meta"] /\ exists i, field_at s mri a i) ->
  exists items, put_attribute_values v s plain params = (map (request mri) items, Ok tt) /\
    Permutation params items /\ (plain = true -> Sorted name_le items) /\ (plain = false -> items = params).
Proof.
  intros kinds os os' mri v plain params s V H. exists (if plain then sort_items params else params).
  assert (M : v_mri v = mri). { destruct (block_view_ok _ _ _ V) as (b & _ & ->). reflexivity. }
  unfold put_attribute_values. split; [|split; [|split]].
  - rewrite <- M at 1. apply put_loop_all. intros a x X.
    assert (P : In (a, x) params).
    { destruct plain; [|exact X]. apply Permutation_in with (l := sort_items params); [|exact X].
      apply Permutation_sym, sort_perm. }
    destruct (H a x P) as (C & N & i & F). exact (proj1 (hasattr_field kinds os os' mri v a V C N) i F).
  - destruct plain; [apply sort_perm|reflexivity].
  - intros ->. apply sort_sorted.
  - intros ->. reflexivity.
Qed.

(** A name that is not a field raises KeyError and never the AssertionError that is written for it; what comes
    before it has been put. *)
Theorem C99_puts_stop : forall kinds os os' mri v a x before after,
  let s := steps (start kinds) (os ++ os') in
  block_view (steps (start kinds) os) mri = Ok v ->
  (forall b y, In (b, y) before -> camel b = true /\ ~ In b ["mri"; "typeid"; "meta"] /\ exists i, field_at s mri b i) ->
  camel a = true -> ~ In a ["mri"; "typeid"; "meta"] -> (forall i, ~ field_at s mri a i) ->
  put_attribute_values v s false (before ++ (a, x) :: after) = (map (request mri) before, Err KeyErr).
Proof.
  intros kinds os os' mri v a x before after s V H C N F.
  assert (M : v_mri v = mri). { destruct (block_view_ok _ _ _ V) as (b & _ & ->). reflexivity. }
  unfold put_attribute_values. rewrite <- M at 1. apply put_loop_stop.
  - exact (proj2 (hasattr_field kinds os os' mri v a V C N) F).
  - intros b y X. destruct (H b y X) as (C' & N' & i & F'). exact (proj1 (hasattr_field kinds os os' mri v b V C' N') i F').
Qed.

Theorem C99_hasattr : forall kinds os os' mri v n,
  block_view (steps (start kinds) os) mri = Ok v -> hasattr v (steps (start kinds) (os ++ os')) n <> Ok false.
Proof.
  intros kinds os os' mri v n V. unfold hasattr, getattr.
  assert (K : child (steps (start kinds) (os ++ os')) (v_mri v) n <> Err AttributeErr).
  { unfold child, item. destruct (dget (v_mri v) _) as [b|]; [|discriminate].
    destruct (String.eqb n "meta"); [discriminate|]. destruct (smem n (b_types b)); [|discriminate].
    destruct (dget n (b_attrs b)); discriminate. }
  destruct (smem n (v_props v)); [destruct (child _ _ _) as [?|[]]; congruence|].
  destruct (String.eqb n "mri"); [discriminate|]. destruct (smem n instance_names); [discriminate|].
  destruct (find _ _); [discriminate|]. destruct (smem n class_names); [discriminate|].
  destruct (child _ _ _) as [?|[]]; congruence.
Qed.

(** ** Arguments *)

Lemma add_positional_ok es : forall args kw, NoDup es -> NoDup (dkeys kw) ->
  (forall k, In k (firstn (length args) es) -> ~ In k (dkeys kw)) ->
  exists kw', add_positional es args kw = Ok kw' /\ NoDup (dkeys kw') /\
    forall k x, dget k kw' = Some x <-> In (k, x) (combine es args) \/ dget k kw = Some x.
Proof.
  induction es as [|e r IH]; intros args kw Ne Nk H.
  - exists kw. destruct args; (split; [reflexivity|]; split; [exact Nk|]; intros k x; cbn; tauto).
  - destruct args as [|a args]; [exists kw; split; [reflexivity|]; split; [exact Nk|]; intros k x; cbn; tauto|].
    cbn [add_positional]. inversion Ne as [|e' r' N1 N2]; subst.
    assert (E : dmem e kw = false) by (apply dmem_false, H; now left).
    rewrite E. destruct (IH args (dset e a kw) N2) as (kw' & A & B & C).
    + now apply dset_nodup.
    + intros k X Y. apply In_dkeys_dset in Y. destruct Y as [->|Y].
      * apply N1. clear -X. revert X. generalize (length args) as j. induction r as [|y q IHr]; intros [|j] X;
          try contradiction. destruct X as [->|X]; [now left|right; now apply (IHr j)].
      * apply (H k); [now right|exact Y].
    + exists kw'. split; [exact A|]. split; [exact B|]. intros k x. rewrite C, dget_dset. cbn [combine In].
      destruct (String.eqb_spec k e) as [->|Nke].
      * split.
        -- intros [X|X]; [left; now right|]. injection X as <-. left. now left.
        -- intros [[X|X]|X].
           ++ injection X as <-. now right.
           ++ now left.
           ++ exfalso. apply dmem_false in E. apply E. now apply dget_Some_key in X.
      * split; [intros [X|X]; tauto|]. intros [[X|X]|X]; [|tauto|tauto]. injection X as -> _. contradiction.
Qed.

(** Called with as many positional arguments as the method takes or fewer: they become the elements of these
    places, beside the ones given by name; one given twice raises AssertionError. *)
Theorem C99_args : forall es args kw, NoDup es -> NoDup (dkeys kw) -> length args <= length es ->
  ((forall k, In k (firstn (length args) es) -> ~ In k (dkeys kw)) ->
     exists kw', add_positional es args kw = Ok kw' /\ NoDup (dkeys kw') /\
       forall k x, dget k kw' = Some x <->
         (exists p, nth_error es p = Some k /\ nth_error args p = Some x) \/ dget k kw = Some x) /\
  ((exists k, In k (firstn (length args) es) /\ In k (dkeys kw)) -> add_positional es args kw = Err AssertionErr).
Proof.
  intros es args kw Ne Nk L. split.
  - intros H. destruct (add_positional_ok es args kw Ne Nk H) as (kw' & A & B & C). exists kw'.
    split; [exact A|]. split; [exact B|]. intros k x. rewrite C. clear.
    assert (E : In (k, x) (combine es args) <-> exists p, nth_error es p = Some k /\ nth_error args p = Some x).
    { revert args. induction es as [|e r IH]; intros args.
      - split; [intros []|]. intros ([|p] & X & _); discriminate.
      - destruct args as [|a args].
        + split; [intros []|]. intros ([|p] & _ & X); discriminate.
        + cbn [combine In]. rewrite IH. split.
          * intros [X|(p & X & Y)]; [injection X as -> ->; exists 0; split; reflexivity|exists (S p); split; assumption].
          * intros ([|p] & X & Y); [left; cbn in *; congruence|right; exists p; split; assumption]. }
    rewrite E. tauto.
  - clear Ne L. intros (k & A & B). revert args kw Nk A B. induction es as [|e r IH]; intros args kw Nk A B.
    + destruct args; destruct A.
    + destruct args as [|a args]; [destruct A|]. cbn [add_positional].
      destruct (dmem e kw) eqn:E; [reflexivity|]. apply dmem_false in E.
      destruct A as [->|A]; [contradiction|]. apply (IH args (dset e a kw)); [now apply dset_nodup|exact A|].
      apply In_dkeys_dset. now right.
Qed.

(** A call of a method of a block posts these to the method. *)
Theorem C99_post : forall kinds os mri m i takes args kw, all_succeed (start kinds) os ->
  let s := steps (start kinds) os in
  field_at s mri m i -> m_kind (s_heap s i) = KMeth takes -> NoDup takes -> NoDup (dkeys kw) ->
  length args <= length takes -> (forall k, In k (firstn (length args) takes) -> ~ In k (dkeys kw)) ->
  exists kw', post s i args kw = Ok ([mri; m], kw') /\
    forall k x, dget k kw' = Some x <->
         (exists p, nth_error takes p = Some k /\ nth_error args p = Some x) \/ dget k kw = Some x.
Proof.
  intros kinds os mri m i takes args kw A s F K Nt Nk L H.
  destruct (proj1 (C99_args takes args kw Nt Nk L) H) as (kw' & E & _ & X). exists kw'.
  unfold post. rewrite K, E. destruct (C99_reaches kinds os mri m i A F) as (_ & P & _). fold s in P. rewrite P.
  split; [reflexivity|exact X].
Qed.

(** More positional arguments than the method takes are dropped without a word. *)
Theorem C99_args_dropped : forall es args extra kw, length args = length es ->
  add_positional es (args ++ extra) kw = add_positional es args kw.
Proof.
  induction es as [|e r IH]; intros [|a args] extra kw L; try discriminate; cbn [app add_positional].
  - destruct extra; reflexivity.
  - destruct (dmem e kw); [reflexivity|]. apply IH. now injection L as L.
Qed.

Theorem C99_args_refuted : exists es args kw kw', length es < length args /\ add_positional es args kw = Ok kw' /\
  exists x, In x args /\ forall k, dget k kw' <> Some x.
Proof.
  exists ["size"], [4%Z; 5%Z], [], [("size", 4%Z)]. split; [cbn; lia|]. split; [reflexivity|]. exists 5%Z.
  split; [cbn; auto|]. intros k. cbn. destruct (String.eqb k "size"); discriminate.
Qed.

(** A function that needs a context gets the one made for the call, as its argument of that name; every other
    argument gets what was given for it. *)
Theorem C99_context : forall call_types takes took, NoDup (dkeys call_types) ->
  method_takes call_types true = Ok takes -> (forall k, In k (dkeys took) -> In k takes) ->
  (forall k, In k takes <-> In k (dkeys call_types) /\ k <> "context") /\
  exists l, call call_types true took = Some l /\ map fst l = dkeys call_types /\
    (forall k, In (k, AContext) l <-> k = "context") /\
    (forall k x, In (k, AValue x) l <-> dget k took = Some x) /\
    (forall k, In (k, ADefault) l <-> In k takes /\ dget k took = None).
Proof.
  intros ct takes took N M S. unfold method_takes in M.
  destruct (dget "context" ct) as [ic|] eqn:G; [|discriminate].
  destruct ct as [|[first fc] rest]; [discriminate|].
  destruct (String.eqb_spec first "context") as [->|]; [|discriminate]. cbn [negb] in M.
  destruct ic; [|discriminate]. cbn [negb] in M.
  set (names := dkeys (("context", fc) :: rest)) in *.
  assert (T : takes = filter (fun k => negb (String.eqb k "context")) names) by congruence. clear M.
  assert (TI : forall k, In k takes <-> In k names /\ k <> "context").
  { intros k. rewrite T, filter_In. destruct (String.eqb_spec k "context") as [->|Nk]; cbn; intuition congruence. }
  split; [exact TI|].
  assert (Nr : NoDup ("context" :: dkeys rest)) by exact N. inversion Nr as [|c r N1 N2]; subst c r.
  assert (TR : forall k, In k takes <-> In k (dkeys rest)).
  { intros k. rewrite TI. unfold names. cbn. split; [intros [[<-|H] H']; [contradiction|exact H]|].
    intros H. split; [now right|]. intros ->. contradiction. }
  unfold call. cbv zeta.
  assert (F : forallb (fun k => smem k (dkeys (("context", fc) :: rest))) (dkeys took) = true).
  { apply forallb_forall. intros k Hk. apply smem_In. apply S in Hk. apply TI in Hk. exact (proj1 Hk). }
  rewrite F. cbn [dkeys map fst].
  assert (Dc : dmem "context" took = false).
  { apply dmem_false. intros Hk. apply S in Hk. apply TI in Hk. now destruct Hk. }
  rewrite Dc. eexists. split; [reflexivity|]. split; [|split; [|split]].
  - cbn. f_equal. rewrite map_map. cbn. apply map_id.
  - intros k. split.
    + intros [X|X]; [congruence|]. apply in_map_iff in X. destruct X as (n & X & _).
      destruct (dget n took); discriminate.
    + intros ->. now left.
  - intros k x. split.
    + intros [X|X]; [discriminate|]. apply in_map_iff in X. destruct X as (n & X & _).
      destruct (dget n took) eqn:E; [|discriminate]. injection X as -> ->. exact E.
    + intros X. right. apply in_map_iff. exists k. rewrite X. split; [reflexivity|].
      apply TR, S. now apply dget_Some_key in X.
  - intros k. rewrite TR. split.
    + intros [X|X]; [discriminate|]. apply in_map_iff in X. destruct X as (n & X & Y).
      destruct (dget n took) eqn:E; [discriminate|]. injection X as ->. split; assumption.
    + intros [X Y]. right. apply in_map_iff. exists k. rewrite Y. split; [reflexivity|exact X].
Qed.

(** .. and one that needs none gets just what was given. *)
Theorem C99_no_context : forall call_types takes took, NoDup (dkeys call_types) ->
  method_takes call_types false = Ok takes -> (forall k, In k (dkeys took) -> In k takes) ->
  takes = dkeys call_types /\
  exists l, call call_types false took = Some l /\ map fst l = dkeys call_types /\
    (forall k x, In (k, AValue x) l <-> dget k took = Some x) /\
    (forall k, ~ In (k, AContext) l).
Proof.
  intros ct takes took N M S. cbn in M. assert (T : takes = dkeys ct) by congruence. split; [exact T|].
  unfold call. cbv zeta.
  assert (F : forallb (fun k => smem k (dkeys ct)) (dkeys took) = true).
  { apply forallb_forall. intros k Hk. apply smem_In. rewrite <- T. now apply S. }
  rewrite F. eexists. split; [reflexivity|]. split; [|split].
  - rewrite map_map. cbn. apply map_id.
  - intros k x. rewrite in_map_iff. split.
    + intros (n & X & _). destruct (dget n took) eqn:E; [|discriminate]. injection X as -> ->. exact E.
    + intros X. exists k. rewrite X. split; [reflexivity|]. rewrite <- T. apply S. now apply dget_Some_key in X.
  - intros k X. apply in_map_iff in X. destruct X as (n & X & _). destruct (dget n took); discriminate.
Qed.

(** ** Other views *)

(** All that an attribute or method has can be had from its view; a name that is not there raises by attribute. *)
Theorem C99_endpoints : forall k,
  (forall n, In n (endpoints_of k) <-> field_getattr k n = Ok true) /\
  (forall es n, ~ In "typeid" es -> (In n es <-> model_getattr es n = Ok true)) /\
  (forall n, field_getattr k n = Err AttributeErr <->
             ~ In n (endpoints_of k) /\ ~ In n instance_names /\ ~ In n (functions_of k)).
Proof.
  assert (P : forall props fs n, plain_getattr props fs n = Ok true <-> In n props).
  { intros props fs n. unfold plain_getattr. destruct (smem n props) eqn:E.
    - apply smem_In in E. tauto.
    - apply smem_false in E. destruct (smem n instance_names); [split; [discriminate|contradiction]|].
      destruct (smem n fs); split; try discriminate; contradiction. }
  assert (Q : forall k n, In n (properties_of k) <-> In n (endpoints_of k)).
  { intros [x|t] n; cbn; tauto. }
  intros k. split; [|split].
  - intros n. unfold field_getattr. rewrite P. symmetry. apply Q.
  - intros es n _. unfold model_getattr. rewrite P. tauto.
  - intros n. rewrite <- Q. unfold field_getattr, plain_getattr.
    destruct (smem n (properties_of k)) eqn:E1.
    + apply smem_In in E1. split; [discriminate|]. intros (A & _). contradiction.
    + apply smem_false in E1. destruct (smem n instance_names) eqn:E2.
      * apply smem_In in E2. split; [discriminate|]. intros (_ & A & _). contradiction.
      * apply smem_false in E2. destruct (smem n (functions_of k)) eqn:E3.
        -- apply smem_In in E3. split; [discriminate|]. intros (_ & _ & A). contradiction.
        -- apply smem_false in E3. tauto.
Qed.

(** .. but item access hands out a KeyError as if it were the value, where it should raise it. *)
Theorem C99_item_refuted : exists k n, ~ In n (endpoints_of k) /\ getitem (field_getattr k n) = Ok KeyErrorObject.
Proof. exists (KAttr 1), "units". split; [cbn; intuition discriminate|reflexivity]. Qed.

(** No Model is given out itself, however deep in dicts and lists; the rest is what it was. *)
Inductive gives_model : view -> Prop :=
| gm_raw i : gives_model (VRaw (DModel i))
| gm_rawd d : gives_model (VRaw (DDict d))
| gm_rawl l : gives_model (VRaw (DList l))
| gm_dict d k v : In (k, v) d -> gives_model v -> gives_model (VDict d)
| gm_list l v : In v l -> gives_model v -> gives_model (VList l).
Fixpoint behind (v : view) : data :=
  match v with
  | VView i => DModel i
  | VDict d => DDict (map (fun kv => (fst kv, behind (snd kv))) d)
  | VList l => DList (map behind l)
  | VRaw d => d
  end.

Fixpoint data_all (P : data -> Prop) (m : forall i, P (DModel i)) (o : forall v, P (DOther v))
  (dd : forall d, Forall (fun kv => P (snd kv)) d -> P (DDict d)) (ll : forall l, Forall P l -> P (DList l))
  (d : data) : P d :=
  match d with
  | DModel i => m i
  | DOther v => o v
  | DDict d => dd d ((fix go d := match d return Forall (fun kv => P (snd kv)) d with
                                  | [] => Forall_nil _
                                  | kv :: r => Forall_cons kv (data_all P m o dd ll (snd kv)) (go r)
                                  end) d)
  | DList l => ll l ((fix go l := match l return Forall P l with
                                  | [] => Forall_nil _
                                  | x :: r => Forall_cons x (data_all P m o dd ll x) (go r)
                                  end) l)
  end.

Theorem C99_wrapped : forall d, ~ gives_model (make_view d) /\ behind (make_view d) = d.
Proof.
  apply data_all.
  - intros i. split; [intros H; inversion H|reflexivity].
  - intros v. split; [intros H; inversion H|reflexivity].
  - intros d F. rewrite Forall_forall in F. split.
    + cbn. intros H. inversion H as [| | |d0 k v I G|]; subst. apply in_map_iff in I.
      destruct I as (kv & E & I). injection E as <- <-. exact (proj1 (F kv I) G).
    + cbn. f_equal. rewrite map_map. rewrite <- (map_id d) at 2. apply map_ext_in. intros [k x] I. cbn.
      f_equal. exact (proj2 (F (k, x) I)).
  - intros l F. rewrite Forall_forall in F. split.
    + cbn. intros H. inversion H as [| | | |l0 v I G]; subst. apply in_map_iff in I.
      destruct I as (x & <- & I). exact (proj1 (F x I) G).
    + cbn. f_equal. rewrite map_map. rewrite <- (map_id l) at 2. apply map_ext_in. intros x I. exact (proj2 (F x I)).
Qed.

(** ** What goes wrong *)

Definition k_ex (i : nat) : kind := match i with 5 => KMeth ["size"; "delay"] | 6 => KMeth [] | n => KAttr (Z.of_nat n) end.
Definition os_ex : list op :=
  [ONew "B"; ONew "C"; OSet "B" "counter" 1; OSet "B" "delta" 2; OSet "B" "go" 5; OSet "C" "counter" 3].
Definition s_ex : st := steps (start k_ex) os_ex.
Definition v_ex : bview := mkView "B" ["meta"; "counter"; "delta"; "go"] ["go"].

Lemma ex_ok : all_succeed (start k_ex) os_ex /\ named os_ex /\ block_view s_ex "B" = Ok v_ex.
Proof.
  split; [|split].
  - cbn. repeat split.
  - intros mri n i H. cbn in H. decompose [or] H; try discriminate; try contradiction;
      match goal with E : OSet _ _ _ = OSet _ _ _ |- _ => injection E as <- <- <- end; reflexivity.
  - vm_compute. reflexivity.
Qed.

(** A view of a field that is held while the field is replaced shows the old value; the block has another. *)
Theorem C99_stale_refuted : exists kinds os os' mri n i j,
  all_succeed (start kinds) (os ++ os') /\ field_at (steps (start kinds) os) mri n i /\
  let s := steps (start kinds) (os ++ os') in
  field_at s mri n j /\ read s i <> read s j /\ target s (put_path s i) false = Err ValueErr.
Proof.
  exists k_ex, os_ex, [OSet "B" "counter" 7], "B", "counter", 1, 7. split; [cbn; repeat split|].
  split; [eexists; split; [reflexivity|]; split; [now left|reflexivity]|].
  cbv zeta. split; [eexists; split; [reflexivity|]; split; [now left|reflexivity]|].
  split; [vm_compute; discriminate|vm_compute; reflexivity].
Qed.

(** A method that comes later has no async function. *)
Theorem C99_async_refuted : exists kinds os os' mri v m i,
  all_succeed (start kinds) (os ++ os') /\ block_view (steps (start kinds) os) mri = Ok v /\
  let s := steps (start kinds) (os ++ os') in
  field_at s mri m i /\ method s i /\ getattr v s m = Ok (Field i) /\ getattr v s (async_name m) = Err KeyErr.
Proof.
  exists k_ex, os_ex, [OSet "B" "halt" 6], "B", v_ex, "halt", 6. split; [cbn; repeat split|].
  split; [exact (proj2 (proj2 ex_ok))|]. cbv zeta.
  split; [eexists; split; [reflexivity|]; split; [cbn; auto|reflexivity]|].
  split; [exists []; reflexivity|]. split; vm_compute; reflexivity.
Qed.

(** A field may be called mri: if it was there before the view, the view has lost its own mri; if it came after,
    the view does not have the field. *)
Theorem C99_mri_refuted : camel "mri" = true /\ exists kinds os mri i v v',
  all_succeed (start kinds) (os ++ [OSet mri "mri" i]) /\
  block_view (steps (start kinds) os) mri = Ok v /\
  let s := steps (start kinds) (os ++ [OSet mri "mri" i]) in
  block_view s mri = Ok v' /\ field_at s mri "mri" i /\
  getattr v s "mri" = Ok (Own "mri") /\ getattr v' s "mri" = Ok (Field i).
Proof.
  split; [reflexivity|]. exists k_ex, os_ex, "B", 7, v_ex, (mkView "B" ["meta"; "counter"; "delta"; "go"; "mri"] ["go"]).
  split; [cbn; repeat split|]. split; [exact (proj2 (proj2 ex_ok))|]. cbv zeta.
  split; [vm_compute; reflexivity|].
  split; [eexists; split; [reflexivity|]; split; [cbn; auto|reflexivity]|]. split; vm_compute; reflexivity.
Qed.

(** A field called typeid is accepted and no view of the block can be made any more; one called path or notifier
    is refused only after it is in, and nothing can be added to or taken from the block after that. *)
Theorem C99_reserved_refuted : camel "typeid" = true /\ camel "path" = true /\ camel "notifier" = true /\
  (exists kinds os mri v i, block_view (steps (start kinds) os) mri = Ok v /\
     all_succeed (start kinds) (os ++ [OSet mri "typeid" i]) /\
     block_view (steps (start kinds) (os ++ [OSet mri "typeid" i])) mri = Err AttributeErr) /\
  (forall name, In name ["path"; "notifier"] -> exists kinds os mri i,
     let s := steps (start kinds) (os ++ [OSet mri name i]) in
     snd (set_field (steps (start kinds) os) mri name i) = Err TypeErr /\ field_at s mri name i /\
     (forall n j, snd (set_field s mri n j) <> Ok tt) /\ (forall n, snd (remove_field s mri n) <> Ok tt)).
Proof.
  split; [reflexivity|]. split; [reflexivity|]. split; [reflexivity|]. split.
  - exists k_ex, os_ex, "B", v_ex, 7. split; [exact (proj2 (proj2 ex_ok))|]. split; [cbn; repeat split|].
    vm_compute. reflexivity.
  - intros name H. exists k_ex, os_ex, "B", 7. cbv zeta.
    destruct H as [<-|[<-|[]]].
    + split; [vm_compute; reflexivity|]. split; [eexists; split; [reflexivity|]; split; [cbn; auto|reflexivity]|].
      split; [intros n j|intros n]; unfold set_field, remove_field;
        replace (dget "B" (s_blocks (steps (start k_ex) (os_ex ++ [OSet "B" "path" 7]))))
          with (Some (mkBlk ["counter"; "delta"; "go"; "path"] [("counter", 1); ("delta", 2); ("go", 5); ("path", 7)] true))
          by reflexivity; discriminate.
    + split; [vm_compute; reflexivity|]. split; [eexists; split; [reflexivity|]; split; [cbn; auto|reflexivity]|].
      split; [intros n j|intros n]; unfold set_field, remove_field;
        replace (dget "B" (s_blocks (steps (start k_ex) (os_ex ++ [OSet "B" "notifier" 7]))))
          with (Some (mkBlk ["counter"; "delta"; "go"; "notifier"] [("counter", 1); ("delta", 2); ("go", 5); ("notifier", 7)] true))
          by reflexivity; discriminate.
Qed.

(** A model that is in use is refused under a second name, and after that no view of the block can be made; put
    in the place of another field, it leaves that one where it is, out of reach of its views. *)
Theorem C99_shared_refuted :
  (exists kinds os mri n i v, block_view (steps (start kinds) os) mri = Ok v /\
     snd (set_field (steps (start kinds) os) mri n i) = Err AssertionErr /\
     block_view (steps (start kinds) (os ++ [OSet mri n i])) mri = Err KeyErr) /\
  (exists kinds os mri n i j,
     snd (set_field (steps (start kinds) os) mri n i) = Err AssertionErr /\
     let s := steps (start kinds) (os ++ [OSet mri n i]) in
     field_at s mri n j /\ attribute s j /\ target s (put_path s j) false = Err ValueErr).
Proof.
  split.
  - exists k_ex, os_ex, "B", "again", 1, v_ex. split; [exact (proj2 (proj2 ex_ok))|].
    split; vm_compute; reflexivity.
  - exists k_ex, os_ex, "B", "counter", 3, 1. split; [vm_compute; reflexivity|]. cbv zeta.
    split; [eexists; split; [reflexivity|]; split; [now left|reflexivity]|].
    split; [exists 1%Z; reflexivity|vm_compute; reflexivity].
Qed.

(** ** Cases *)

Example C99_ex_current :
  block_view s_ex "B" = Ok v_ex /\
  getattr v_ex (steps s_ex [OSet "B" "counter" 7; ORemove "B" "delta"; OSet "B" "late" 8]) "counter" = Ok (Field 7) /\
  getattr v_ex (steps s_ex [OSet "B" "counter" 7; ORemove "B" "delta"; OSet "B" "late" 8]) "delta" = Err KeyErr /\
  getattr v_ex (steps s_ex [OSet "B" "counter" 7; ORemove "B" "delta"; OSet "B" "late" 8]) "late" = Ok (Field 8).
Proof. split; [exact (proj2 (proj2 ex_ok))|]. split; [|split]; vm_compute; reflexivity. Qed.

Example C99_ex_held :
  put_path s_ex 1 = ["B"; "counter"; "value"] /\ target s_ex (put_path s_ex 1) false = Ok 1 /\
  target s_ex (post_path s_ex 5) true = Ok 5 /\
  target (steps s_ex [ORemove "B" "counter"]) (put_path (steps s_ex [ORemove "B" "counter"]) 1) false = Err ValueErr.
Proof. split; [|split; [|split]]; vm_compute; reflexivity. Qed.

Example C99_ex_async :
  call_async v_ex s_ex "go" [4%Z] [("delay", 2%Z)] = Ok (["B"; "go"], [("delay", 2%Z); ("size", 4%Z)]).
Proof. vm_compute. reflexivity. Qed.

Example C99_ex_args :
  add_positional ["size"; "delay"] [4%Z; 5%Z] [] = Ok [("size", 4%Z); ("delay", 5%Z)] /\
  add_positional ["size"; "delay"] [4%Z] [("size", 3%Z)] = Err AssertionErr /\
  add_positional ["size"; "delay"] [4%Z; 5%Z; 6%Z] [] = Ok [("size", 4%Z); ("delay", 5%Z)].
Proof. split; [|split]; reflexivity. Qed.

Example C99_ex_puts :
  put_attribute_values v_ex s_ex true [("delta", 8%Z); ("counter", 9%Z)] =
    ([(["B"; "counter"; "value"], 9%Z); (["B"; "delta"; "value"], 8%Z)], Ok tt) /\
  put_attribute_values v_ex s_ex false [("delta", 8%Z); ("nothing", 1%Z); ("counter", 9%Z)] =
    ([(["B"; "delta"; "value"], 8%Z)], Err KeyErr).
Proof. split; vm_compute; reflexivity. Qed.

Example C99_ex_context :
  method_takes [("context", true); ("size", false); ("delay", false)] true = Ok ["size"; "delay"] /\
  call [("context", true); ("size", false); ("delay", false)] true [("delay", 3%Z)] =
    Some [("context", AContext); ("size", ADefault); ("delay", AValue 3)] /\
  method_takes [("size", false); ("context", true)] true = Err AssertionErr.
Proof. split; [|split]; reflexivity. Qed.

Example C99_ex_wrapped :
  make_view (DDict [("a", DModel 1); ("b", DList [DOther 2; DModel 3])]) =
  VDict [("a", VView 1); ("b", VList [VRaw (DOther 2); VView 3])].
Proof. reflexivity. Qed.

Print Assumptions C99_current.
Print Assumptions C99_known.
Print Assumptions C99_meta.
Print Assumptions C99_post.
Print Assumptions C99_viewable.
Print Assumptions C99_held.
Print Assumptions C99_reaches.
Print Assumptions C99_async.
Print Assumptions C99_puts.
Print Assumptions C99_puts_stop.
Print Assumptions C99_hasattr.
Print Assumptions C99_args.
Print Assumptions C99_args_dropped.
Print Assumptions C99_args_refuted.
Print Assumptions C99_context.
Print Assumptions C99_no_context.
Print Assumptions C99_endpoints.
Print Assumptions C99_item_refuted.
Print Assumptions C99_wrapped.
Print Assumptions C99_stale_refuted.
Print Assumptions C99_async_refuted.
Print Assumptions C99_mri_refuted.
Print Assumptions C99_reserved_refuted.
Print Assumptions C99_shared_refuted.
