(* Proofs for the PandA bus tables *)
From Coq Require Import String Ascii Bool ZArith QArith Lia List.
From Verif Require Import Base Bus_Model Bus_Spec.
Import ListNotations.
Local Open Scope nat_scope.
Local Open Scope list_scope.

(* ---- tables and changes ---- *)

(* the table with the changes made so far *)
Definition cur (chg t : table) (col : string) (i : nat) : option cell :=
  match dget col chg with Some l => nth_error l i | None => at_ t col i end.

(* changes are only to columns which there are *)
Definition wf_chg (chg t : table) : Prop := forall col, dget col t = None -> dget col chg = None.

Lemma wf_nil : forall t, wf_chg [] t.
Proof. intros t col _; reflexivity. Qed.

Lemma cur_nil : forall t col i, cur [] t col i = at_ t col i.
Proof. reflexivity. Qed.

Lemma set_nth_get : forall A i (v : A) l l', set_nth i v l = Some l' ->
  forall j, nth_error l' j = if Nat.eqb j i then Some v else nth_error l j.
Proof.
  intros A i v; induction i as [|i IH]; intros l l' H j; destruct l as [|x r]; simpl in H;
    try discriminate.
  - injection H as <-. destruct j; reflexivity.
  - destruct (set_nth i v r) as [r'|] eqn:E; [|discriminate].
    injection H as <-. destruct j as [|j]; simpl; [reflexivity|]. now apply IH.
Qed.

Lemma dget_make_updated : forall chg col old,
  dget col (make_updated_table old chg) =
  match dget col old with
  | None => None
  | Some l => Some (match dget col chg with Some l' => l' | None => l end)
  end.
Proof.
  intros chg col old; unfold make_updated_table; induction old as [|[k l] r IH]; simpl; auto.
  destruct (String.eqb col k) eqn:E; auto.
  apply String.eqb_eq in E; subst k; auto.
Qed.

Lemma dkeys_make_updated : forall chg old, dkeys (make_updated_table old chg) = dkeys old.
Proof.
  intros; unfold dkeys, make_updated_table. rewrite map_map. reflexivity.
Qed.

Lemma at_make_updated : forall chg t, wf_chg chg t -> forall col i,
  at_ (make_updated_table t chg) col i = cur chg t col i.
Proof.
  intros chg t W col i. unfold at_, cur, at_. rewrite dget_make_updated.
  destruct (dget col t) as [l|] eqn:E.
  - destruct (dget col chg); reflexivity.
  - rewrite (W _ E). reflexivity.
Qed.

Lemma update_column_spec : forall chg col t i v chg', update_column chg col t i v = Ok chg' ->
  wf_chg chg t ->
  wf_chg chg' t /\
  (forall c j, cur chg' t c j =
               if (String.eqb c col && Nat.eqb j i)%bool then Some v else cur chg t c j) /\
  (forall c, c <> col -> dget c chg' = dget c chg).
Proof.
  intros chg col t i v chg' H W. unfold update_column in H.
  destruct (match dget col chg with Some l => Some l | None => dget col t end) as [l|] eqn:L;
    [|discriminate].
  destruct (set_nth i v l) as [l'|] eqn:S; [|discriminate].
  injection H as <-.
  assert (K : forall j, cur chg t col j = nth_error l j).
  { intro j. unfold cur, at_. destruct (dget col chg); [congruence|]. rewrite L. reflexivity. }
  split; [|split].
  - intros c E. rewrite dget_dset. destruct (String.eqb c col) eqn:Ec.
    + apply String.eqb_eq in Ec; subst c. rewrite (W _ E), E in L. discriminate.
    + auto.
  - intros c j. unfold cur at 1. rewrite dget_dset. destruct (String.eqb c col) eqn:Ec; simpl.
    + apply String.eqb_eq in Ec; subst c. rewrite K. now apply set_nth_get.
    + reflexivity.
  - intros c Hc. apply dget_dset_other. congruence.
Qed.

(* ---- names ---- *)

Lemma split_nonempty : forall s, split_dot s <> [].
Proof.
  intros [|c r]; simpl; [discriminate|].
  destruct (Ascii.eqb c "."); [discriminate|]. destruct (split_dot r); discriminate.
Qed.

Lemma split_length : forall s, length (split_dot s) = S (dots s).
Proof.
  induction s as [|c r IH]; [reflexivity|].
  simpl. destruct (Ascii.eqb c "."); simpl; [lia|].
  destruct (split_dot r); simpl in *; lia.
Qed.

Lemma split_app : forall n s, split_dot (n ++ "." ++ s) = split_dot n ++ split_dot s.
Proof.
  induction n as [|c r IH]; intros s; [reflexivity|].
  change (split_dot (String c (r ++ "." ++ s)) = split_dot (String c r) ++ split_dot s).
  cbn [split_dot]. rewrite IH.
  destruct (Ascii.eqb c "."); [reflexivity|].
  destruct (split_dot r) eqn:E; [exfalso; eapply split_nonempty; eauto|]. reflexivity.
Qed.

Fixpoint join (l : list string) : string :=
  match l with
  | [] => ""
  | [x] => x
  | x :: r => x ++ "." ++ join r
  end%string.

Lemma join_split : forall s, join (split_dot s) = s.
Proof.
  induction s as [|c r IH]; [reflexivity|].
  cbn [split_dot]. destruct (Ascii.eqb c ".") eqn:E.
  - apply Ascii.eqb_eq in E; subst c.
    destruct (split_dot r) as [|x l] eqn:Es; [exfalso; eapply split_nonempty; eauto|].
    change (String "." (join (x :: l)) = String "." r). now rewrite IH.
  - destruct (split_dot r) as [|x l] eqn:Es; [exfalso; eapply split_nonempty; eauto|].
    rewrite <- IH. destruct l; reflexivity.
Qed.

Lemma split_inj : forall a b, split_dot a = split_dot b -> a = b.
Proof. intros a b H. rewrite <- (join_split a), <- (join_split b), H. reflexivity. Qed.

Lemma split_suffix : forall f, split_dot (suffix f) = [suffix f].
Proof. intros []; reflexivity. Qed.

Lemma lower_suffix : forall f, lower (suffix f) = column f.
Proof. intros []; reflexivity. Qed.

Lemma to_int_whole v : to_int v = whole_of v.
Proof. destruct v as [[]|t]; reflexivity. Qed.
Lemma to_float_number v : to_float v = number_of v.
Proof. destruct v as [[]|t]; reflexivity. Qed.
Lemma cell_of_shown v : cell_of v = shown_as v.
Proof. destruct v; reflexivity. Qed.
Lemma dotted_key n f : dotted n (suffix f) = field_key n f.
Proof. reflexivity. Qed.

Lemma split_dotted : forall n f, split_dot (field_key n f) = split_dot n ++ [suffix f].
Proof. intros; unfold field_key. rewrite split_app, split_suffix. reflexivity. Qed.

Lemma dots_dotted : forall n f, dots (field_key n f) = S (dots n).
Proof.
  intros. assert (H := split_length (field_key n f)). rewrite split_dotted, app_length in H.
  rewrite split_length in H. simpl in H. lia.
Qed.

Lemma suffix_inj : forall f g, suffix f = suffix g -> f = g.
Proof. intros [] [] H; simpl in H; congruence. Qed.

Lemma dotted_inj : forall n m f g, field_key n f = field_key m g -> n = m /\ f = g.
Proof.
  intros n m f g H. apply (f_equal split_dot) in H. rewrite !split_dotted in H.
  apply app_inj_tail in H. destruct H as [H1 H2].
  split; [now apply split_inj | now apply suffix_inj].
Qed.

Lemma pos_keyb_spec : forall n k, pos_keyb n k = true <-> pos_key n k.
Proof.
  intros n k. unfold pos_keyb, pos_key. rewrite orb_true_iff, String.eqb_eq, existsb_exists.
  split; (intros [H|H]; [left; exact H|right]).
  - destruct H as [f [_ H]]. apply String.eqb_eq in H. eauto.
  - destruct H as [f H]. exists f. split; [destruct f; simpl; auto | now apply String.eqb_eq].
Qed.

Lemma pos_key_fun : forall n m k, dots n = 1 -> dots m = 1 -> pos_key n k -> pos_key m k -> n = m.
Proof.
  intros n m k Dn Dm [H|[f H]] [H'|[g H']]; subst; auto.
  - exfalso. rewrite dots_dotted in Dn. lia.
  - exfalso. rewrite dots_dotted in Dm. lia.
  - symmetry in H'. apply dotted_inj in H'. now symmetry.
Qed.

(* ---- lookups ---- *)

Lemma enum_nth : forall A (l : list A) i j x, In (j, x) (enum i l) <->
  (i <= j /\ nth_error l (j - i) = Some x).
Proof.
  intros A l; induction l as [|y r IH]; intros i j x; simpl.
  - split; [tauto|]. intros [_ H]. destruct (j - i); discriminate.
  - split.
    + intros [H|H].
      * injection H as <- <-. split; auto. rewrite Nat.sub_diag. reflexivity.
      * apply IH in H. destruct H as [H1 H2]. split; [lia|].
        replace (j - i) with (S (j - S i)) by lia. exact H2.
    + intros [H1 H2]. destruct (j - i) as [|d] eqn:E.
      * left. simpl in H2. injection H2 as ->. f_equal. lia.
      * right. apply IH. split; [lia|]. replace (j - S i) with d by lia. exact H2.
Qed.

Lemma enum_snd : forall A (l : list A) i, map snd (enum i l) = l.
Proof. intros A l; induction l; intros i; simpl; f_equal; auto. Qed.

(* a dictionary made by setting the keys of a list one after the other *)
Lemma fold_dset_Some : forall A (l : list (A * string)) d k v,
  dget k (fold_left (fun d ik => dset (snd ik) (fst ik) d) l d) = Some v ->
  In (v, k) l \/ dget k d = Some v.
Proof.
  intros A l; induction l as [|[a s] r IH]; intros d k v H; simpl in *; auto.
  apply IH in H. destruct H as [H|H]; auto.
  rewrite dget_dset in H. destruct (String.eqb k s) eqn:E; auto.
  apply String.eqb_eq in E. left; left. congruence.
Qed.

Lemma fold_dset_dom : forall A (l : list (A * string)) d k,
  (In k (map snd l) \/ dget k d <> None) ->
  dget k (fold_left (fun d ik => dset (snd ik) (fst ik) d) l d) <> None.
Proof.
  intros A l; induction l as [|[a s] r IH]; intros d k H; simpl in *.
  - destruct H; tauto.
  - apply IH. rewrite dget_dset. destruct (String.eqb k s) eqn:E; [right; discriminate|].
    destruct H as [[H|H]|H]; auto. subst. rewrite String.eqb_refl in E. discriminate.
Qed.

Lemma fold_dset_In : forall A (l : list (A * string)) d k v,
  NoDup (map snd l) -> In (v, k) l ->
  dget k (fold_left (fun d ik => dset (snd ik) (fst ik) d) l d) = Some v.
Proof.
  intros A l; induction l as [|[a s] r IH]; intros d k v N H; simpl in *; [tauto|].
  inversion N as [|? ? N1 N2]; subst. destruct H as [H|H]; [|now apply IH].
  injection H as -> ->.
  destruct (dget k (fold_left _ r (dset k v d))) as [v'|] eqn:E.
  - apply fold_dset_Some in E. destruct E as [E|E].
    + exfalso. apply N1. apply in_map_iff. exists (v', k); auto.
    + rewrite dget_dset_same in E. congruence.
  - exfalso. revert E. apply fold_dset_dom. right. rewrite dget_dset_same. discriminate.
Qed.

Definition pos_pairs (names : list string) : list (nat * string) :=
  enum 0 names ++
  flat_map (fun ik => map (fun s => (fst ik, dotted (snd ik) s)) suffixes) (enum 0 names).

Lemma pos_lookup_eq : forall names,
  pos_lookup names = fold_left (fun d ik => dset (snd ik) (fst ik) d) (pos_pairs names) [].
Proof.
  intro names. unfold pos_lookup, pos_pairs. rewrite fold_left_app.
  generalize (fold_left (fun (d : dict nat) ik => dset (snd ik) (fst ik) d) (enum 0 names) []) as d.
  generalize (enum 0 names) as l.
  induction l as [|[i k] r IH]; intros d; simpl; auto.
Qed.

Lemma suffixes_spec : forall s, In s suffixes <-> exists f, s = suffix f.
Proof.
  intro s; unfold suffixes; simpl; split.
  - intros [<-|[<-|[<-|[<-|[]]]]];
      [exists Capture|exists Scale|exists Offset|exists Units]; reflexivity.
  - intros [[] ->]; simpl; auto.
Qed.

Lemma pos_pairs_spec : forall names i k,
  In (i, k) (pos_pairs names) <-> exists n, nth_error names i = Some n /\ pos_key n k.
Proof.
  intros names i k; unfold pos_pairs; rewrite in_app_iff, in_flat_map; split.
  - intros [H|[[j n] [H1 H2]]].
    + apply enum_nth in H. rewrite Nat.sub_0_r in H. exists k; split; [tauto|left; auto].
    + apply enum_nth in H1. rewrite Nat.sub_0_r in H1.
      apply in_map_iff in H2. destruct H2 as [s [E Hs]]. simpl in E. injection E as <- <-.
      apply suffixes_spec in Hs. destruct Hs as [f ->].
      exists n; split; [tauto|right; exists f; apply dotted_key].
  - intros [n [H [->|[f ->]]]].
    + left. apply enum_nth. rewrite Nat.sub_0_r. split; [lia|auto].
    + right. exists (i, n). split.
      * apply enum_nth. rewrite Nat.sub_0_r. split; [lia|auto].
      * apply in_map_iff. exists (suffix f). cbn [fst snd]. rewrite dotted_key. split; auto. apply suffixes_spec; eauto.
Qed.

(* every name of a position leads to its row, and no other name does *)
Lemma pos_lookup_Some : forall names k i, dget k (pos_lookup names) = Some i ->
  exists n, nth_error names i = Some n /\ pos_key n k.
Proof.
  intros names k i H. rewrite pos_lookup_eq in H. apply fold_dset_Some in H.
  destruct H as [H|H]; [|discriminate]. now apply pos_pairs_spec.
Qed.

Lemma nth_error_inj : forall (l : list string) i j n,
  NoDup l -> nth_error l i = Some n -> nth_error l j = Some n -> i = j.
Proof.
  intros l i j n N Hi Hj. apply (proj1 (NoDup_nth_error l) N).
  - apply nth_error_Some. congruence.
  - congruence.
Qed.

Lemma pos_lookup_key : forall names, NoDup names -> (forall n, In n names -> dots n = 1) ->
  forall i n k, nth_error names i = Some n -> pos_key n k -> dget k (pos_lookup names) = Some i.
Proof.
  intros names N D i n k H K.
  destruct (dget k (pos_lookup names)) as [j|] eqn:E.
  - apply pos_lookup_Some in E. destruct E as [m [Hm Km]].
    assert (n = m).
    { eapply pos_key_fun; eauto; apply D; eapply nth_error_In; eauto. }
    subst m. f_equal. eapply nth_error_inj; eauto.
  - exfalso. rewrite pos_lookup_eq in E. revert E. apply fold_dset_dom. left.
    apply in_map_iff. exists (i, k). split; auto. apply pos_pairs_spec; eauto.
Qed.

Lemma nget_nset : forall i j v d, nget i (nset j v d) = if Nat.eqb i j then Some v else nget i d.
Proof.
  intros i j v d; induction d as [|[k w] r IH]; simpl.
  - reflexivity.
  - destruct (Nat.eqb j k) eqn:E; simpl.
    + apply Nat.eqb_eq in E; subst k. destruct (Nat.eqb i j); reflexivity.
    + destruct (Nat.eqb i k) eqn:E2; [|exact IH].
      apply Nat.eqb_eq in E2; subst k. apply Nat.eqb_neq in E.
      destruct (Nat.eqb i j) eqn:E3; [|reflexivity]. apply Nat.eqb_eq in E3. congruence.
Qed.

(* ---- a report, seen from the row of one position ---- *)

Definition formula (z : Z) (cs : field -> cell) (val : cell) : Prop :=
  exists s o, cs Scale = CN s /\ cs Offset = CN o /\ val = CN (inject_Z z * s + o).

Lemma count_other : forall n kv z, pos_keyb n (fst kv) = false -> count_change n z kv = z.
Proof.
  intros n kv z H. unfold count_change. unfold pos_keyb in H. apply orb_false_iff in H.
  destruct H as [H _]. rewrite H. reflexivity.
Qed.

Lemma field_other : forall n f kv c, pos_keyb n (fst kv) = false -> field_change n f c kv = c.
Proof.
  intros n f kv c H. unfold field_change.
  destruct (String.eqb (fst kv) (field_key n f)) eqn:E; [|reflexivity].
  apply String.eqb_eq in E. exfalso.
  assert (K : pos_keyb n (fst kv) = true) by (apply pos_keyb_spec; right; eauto). congruence.
Qed.

Lemma column_value : forall f, String.eqb "value" (column f) = false.
Proof. intros []; reflexivity. Qed.
Lemma value_column : forall f, String.eqb (column f) "value" = false.
Proof. intros []; reflexivity. Qed.
Lemma column_eqb : forall f g, String.eqb (column f) (column g) = true -> f = g.
Proof. intros [] [] H; simpl in H; congruence. Qed.
Lemma column_refl : forall f, String.eqb (column f) (column f) = true.
Proof. intros; apply String.eqb_refl. Qed.

Lemma parse_meaning : forall f v c c0, parse_field (column f) v = Ok c -> meaning f v c0 = c.
Proof.
  intros f v c c0 H. destruct f; unfold parse_field in H; cbn in H.
  - destruct v as [b|t]; cbn in H; [discriminate|].
    simpl. match type of H with match (if ?x then _ else _) with _ => _ end = _ => destruct x end;
      [|discriminate]. cbn in H. congruence.
  - simpl. rewrite <- to_float_number. destruct (to_float v); [congruence|discriminate].
  - simpl. rewrite <- to_float_number. destruct (to_float v); [congruence|discriminate].
  - simpl. rewrite <- cell_of_shown. congruence.
Qed.

Section Position.
Variable b : busses.
Variable pos : list string.
Variable n : string.
Variable i : nat.
Hypothesis Hidx : pos_indexes b = pos_lookup pos.
Hypothesis Hnd : NoDup pos.
Hypothesis Hdots : forall m, In m pos -> dots m = 1.
Hypothesis Hn : nth_error pos i = Some n.
Hypothesis Hbit : forall k, pos_key n k -> dget k (bit_indexes b) = None.

Definition row (pc : table) (vals : list (nat * Z)) (z : Z) (cs : field -> cell) (val : cell)
  : Prop :=
  wf_chg pc (positions b) /\ nget i vals = Some z /\
  (forall f, cur pc (positions b) (column f) i = Some (cs f)) /\
  cur pc (positions b) "value" i = Some val.

Lemma number_at_cur : forall chg t col j q, number_at chg t col j = Ok q ->
  cur chg t col j = Some (CN q).
Proof.
  intros chg t col j q H. unfold number_at in H. unfold cur, at_.
  destruct (dget col chg) as [l|].
  - destruct (nth_error l j) as [[]|]; try discriminate. congruence.
  - destruct (dget col t) as [l|]; [|discriminate].
    destruct (nth_error l j) as [[]|]; try discriminate. congruence.
Qed.

(* a report of another position *)
Lemma handle_pos_other : forall vals k v pc pc' vals' z cs val,
  ~ pos_key n k -> handle_pos b vals k v pc = (Ok (Some pc'), vals') ->
  row pc vals z cs val -> row pc' vals' z cs val.
Proof.
  intros vals k v pc pc' vals' z cs val K H R. unfold handle_pos in H. rewrite Hidx in H.
  destruct (dget k (pos_lookup pos)) as [j|] eqn:E; [|discriminate].
  apply pos_lookup_Some in E. destruct E as [m [Hm Km]].
  assert (Hij : Nat.eqb i j = false).
  { apply Nat.eqb_neq. intro. subst j. rewrite Hn in Hm. injection Hm as <-. tauto. }
  destruct (handle_pos_field b vals k v pc j) as [[pc1 vals1]|e] eqn:F; [|discriminate].
  assert (R1 : row pc1 vals1 z cs val).
  { unfold handle_pos_field in F. destruct R as (R1 & R2 & R3 & R4).
    destruct (split_dot k) as [|a [|a2 [|a3 [|? ?]]]]; try discriminate.
    - destruct (to_int v) as [z'|]; [|discriminate]. injection F as <- <-.
      split; [|split; [|split]]; auto. rewrite nget_nset, Hij. exact R2.
    - destruct (parse_field (lower a3) v) as [c|]; [|discriminate].
      destruct (update_column pc (lower a3) (positions b) j c) as [chg'|] eqn:U; [|discriminate].
      injection F as <- <-. apply update_column_spec in U; [|exact R1].
      destruct U as (U1 & U2 & _).
      split; [|split; [|split]]; auto.
      + intro f. rewrite U2, Hij, andb_false_r. apply R3.
      + rewrite U2, Hij, andb_false_r. exact R4. }
  destruct (number_at pc1 (positions b) "scale" j) as [sc|]; [|discriminate].
  destruct (number_at pc1 (positions b) "offset" j) as [off|]; [|discriminate].
  destruct (nget j vals1) as [zz|]; [|discriminate].
  destruct (update_column pc1 "value" (positions b) j _) as [c|] eqn:U; [|discriminate].
  injection H as <- <-. destruct R1 as (R1 & R2 & R3 & R4).
  apply update_column_spec in U; [|exact R1]. destruct U as (U1 & U2 & _).
  split; [|split; [|split]]; auto.
  - intro f. rewrite U2, Hij, andb_false_r. apply R3.
  - rewrite U2, Hij, andb_false_r. exact R4.
Qed.

(* a report of this position *)
Lemma handle_pos_mine : forall vals k v pc pc' vals' z cs val,
  pos_key n k -> handle_pos b vals k v pc = (Ok (Some pc'), vals') ->
  row pc vals z cs val ->
  exists val', row pc' vals' (count_change n z (k, v)) (fun f => field_change n f (cs f) (k, v)) val'
    /\ formula (count_change n z (k, v)) (fun f => field_change n f (cs f) (k, v)) val'.
Proof.
  intros vals k v pc pc' vals' z cs val K H R.
  assert (Dn : dots n = 1) by (apply Hdots; eapply nth_error_In; eauto).
  unfold handle_pos in H. rewrite Hidx in H.
  rewrite (pos_lookup_key pos Hnd Hdots i n k Hn K) in H.
  destruct (handle_pos_field b vals k v pc i) as [[pc1 vals1]|e] eqn:F; [|discriminate].
  assert (R1 : row pc1 vals1 (count_change n z (k, v)) (fun f => field_change n f (cs f) (k, v)) val).
  { unfold handle_pos_field in F. destruct R as (R1 & R2 & R3 & R4).
    destruct K as [->|[f ->]].
    - assert (L := split_length n). rewrite Dn in L.
      destruct (split_dot n) as [|a [|a2 [|a3 ?]]]; simpl in L; try discriminate.
      destruct (to_int v) as [z'|] eqn:T; [|discriminate].
      injection F as <- <-.
      assert (Cz : count_change n z (n, v) = z').
      { unfold count_change. simpl. rewrite String.eqb_refl, <- to_int_whole, T. reflexivity. }
      rewrite Cz.
      split; [|split; [|split]]; auto.
      + rewrite nget_nset, Nat.eqb_refl. reflexivity.
      + intro f. rewrite R3. unfold field_change. simpl.
        destruct (String.eqb n (field_key n f)) eqn:E; [|reflexivity].
        apply String.eqb_eq in E. exfalso. apply (f_equal dots) in E. rewrite dots_dotted in E. lia.
    - assert (L := split_length n). rewrite Dn in L.
      rewrite split_dotted in F.
      destruct (split_dot n) as [|a [|a2 [|a3 ?]]]; simpl in L; try discriminate.
      cbn [app] in F. rewrite lower_suffix in F.
      destruct (parse_field (column f) v) as [c|] eqn:P; [|discriminate].
      destruct (update_column pc (column f) (positions b) i c) as [chg'|] eqn:U; [|discriminate].
      injection F as <- <-. apply update_column_spec in U; [|exact R1].
      destruct U as (U1 & U2 & _).
      assert (Cz : count_change n z (field_key n f, v) = z).
      { unfold count_change. simpl.
        destruct (String.eqb (field_key n f) n) eqn:E; [|reflexivity].
        apply String.eqb_eq in E. exfalso. apply (f_equal dots) in E. rewrite dots_dotted in E. lia. }
      rewrite Cz.
      split; [|split; [|split]]; auto.
      + intro g. rewrite U2, Nat.eqb_refl, andb_true_r. unfold field_change. simpl.
        destruct (String.eqb (column g) (column f)) eqn:E.
        * apply column_eqb in E. subst g. rewrite String.eqb_refl. f_equal.
          symmetry. eapply parse_meaning; eauto.
        * destruct (String.eqb (field_key n f) (field_key n g)) eqn:E2; [|apply R3].
          apply String.eqb_eq in E2. apply dotted_inj in E2. destruct E2 as [_ ->].
          rewrite column_refl in E. discriminate.
      + rewrite U2, column_value. simpl. exact R4. }
  set (z' := count_change n z (k, v)) in *. clearbody z'.
  set (cs' := fun f => field_change n f (cs f) (k, v)) in *. clearbody cs'.
  destruct (number_at pc1 (positions b) "scale" i) as [sc|] eqn:Esc; [|discriminate].
  destruct (number_at pc1 (positions b) "offset" i) as [off|] eqn:Eoff; [|discriminate].
  destruct R1 as (R1 & R2 & R3 & R4).
  apply number_at_cur in Esc. apply number_at_cur in Eoff.
  rewrite R2 in H.
  destruct (update_column pc1 "value" (positions b) i _) as [c|] eqn:U; [|discriminate].
  injection H as <- <-.
  apply update_column_spec in U; [|exact R1]. destruct U as (U1 & U2 & _).
  exists (CN (inject_Z z' * sc + off)). split.
  - split; [|split; [|split]]; auto.
    + intro f. rewrite U2, value_column. simpl. apply R3.
    + rewrite U2, String.eqb_refl, Nat.eqb_refl. reflexivity.
  - exists sc, off. assert (A := R3 Scale). assert (B := R3 Offset).
    cbn [column] in A, B. rewrite Esc in A. rewrite Eoff in B. repeat split; congruence.
Qed.

Lemma handle_pos_none : forall vals k v pc vals', handle_pos b vals k v pc = (Ok None, vals') ->
  vals' = vals /\ ~ pos_key n k.
Proof.
  intros vals k v pc vals' H. unfold handle_pos in H. rewrite Hidx in H.
  destruct (dget k (pos_lookup pos)) as [j|] eqn:E.
  - destruct (handle_pos_field b vals k v pc j) as [[pc1 vals1]|e]; [|discriminate].
    destruct (number_at pc1 (positions b) "scale" j) as [sc|]; [|discriminate].
    destruct (number_at pc1 (positions b) "offset" j) as [off|]; [|discriminate].
    destruct (nget j vals1) as [zz|]; [|discriminate].
    destruct (update_column pc1 "value" (positions b) j _) as [c|]; discriminate.
  - injection H as <-. split; auto. intro K.
    rewrite (pos_lookup_key pos Hnd Hdots i n k Hn K) in E. discriminate.
Qed.

Lemma row_ext : forall pc vals z z' cs cs' val, row pc vals z cs val -> z = z' ->
  (forall f, cs f = cs' f) -> row pc vals z' cs' val.
Proof.
  intros pc vals z z' cs cs' val (A & B & C & D) -> E.
  split; [|split; [|split]]; auto. intro f. rewrite <- E. apply C.
Qed.

Lemma change_row_pos : forall bc pc vals kv bc' pc' vals' z cs val,
  handle_change b (bc, pc, vals) kv = (Ok (bc', pc'), vals') -> row pc vals z cs val ->
  exists val', row pc' vals' (count_change n z kv) (fun f => field_change n f (cs f) kv) val'
    /\ (pos_keyb n (fst kv) = true ->
        formula (count_change n z kv) (fun f => field_change n f (cs f) kv) val')
    /\ (pos_keyb n (fst kv) = false -> val' = val).
Proof.
  intros bc pc vals [k v] bc' pc' vals' z cs val H R. unfold handle_change in H.
  cbn [fst snd] in H |- *.
  assert (Other : pos_keyb n k = false -> forall vals0 pc0, row pc0 vals0 z cs val ->
    exists val', row pc0 vals0 (count_change n z (k, v)) (fun f => field_change n f (cs f) (k, v)) val'
    /\ (pos_keyb n k = true ->
        formula (count_change n z (k, v)) (fun f => field_change n f (cs f) (k, v)) val')
    /\ (pos_keyb n k = false -> val' = val)).
  { intros Hk vals0 pc0 R0. exists val. split; [|split; [congruence|auto]].
    eapply row_ext; eauto.
    - symmetry. now apply count_other.
    - intro f. symmetry. now apply field_other. }
  destruct (handle_bit b k v bc) as [[bc1|]|e] eqn:B; [| |discriminate].
  - injection H as <- <- <-. apply Other; auto.
    destruct (pos_keyb n k) eqn:Hk; [|reflexivity]. apply pos_keyb_spec in Hk.
    unfold handle_bit in B. rewrite (Hbit _ Hk) in B. discriminate.
  - destruct (handle_pos b vals k v pc) as [[[pc1|]|e] vals1] eqn:P; [| |discriminate].
    + injection H as <- <- <-. destruct (pos_keyb n k) eqn:Hk.
      * assert (K := Hk). apply pos_keyb_spec in K.
        destruct (handle_pos_mine _ _ _ _ _ _ _ _ _ K P R) as (val' & R1 & R2).
        exists val'. split; [exact R1|]. split; [auto | discriminate].
      * assert (K : ~ pos_key n k) by (intro K; apply pos_keyb_spec in K; congruence).
        apply (Other eq_refl). eapply handle_pos_other; eauto.
    + apply handle_pos_none in P. destruct P as [-> K].
      destruct (handle_pcap b k v bc) as [[bc1|]|e]; try discriminate.
      injection H as <- <- <-. apply Other; auto.
      destruct (pos_keyb n k) eqn:Hk; [|reflexivity]. apply pos_keyb_spec in Hk. tauto.
Qed.

Lemma each_row_pos : forall ch bc pc vals bc' pc' vals' z cs val,
  handle_each b ch (bc, pc, vals) = (Ok (bc', pc'), vals') -> row pc vals z cs val ->
  exists val', row pc' vals' (fold_left (count_change n) ch z)
                   (fun f => fold_left (field_change n f) ch (cs f)) val'
    /\ (mentions n ch = true \/ formula z cs val ->
        formula (fold_left (count_change n) ch z)
                (fun f => fold_left (field_change n f) ch (cs f)) val')
    /\ (mentions n ch = false ->
        val' = val /\ fold_left (count_change n) ch z = z
        /\ forall f, fold_left (field_change n f) ch (cs f) = cs f).
Proof.
  induction ch as [|kv r IH]; intros bc pc vals bc' pc' vals' z cs val H R; cbn [handle_each] in H.
  - injection H as <- <- <-. exists val. split; [exact R|]. split; [|auto].
    intros [M|F]; [discriminate | exact F].
  - destruct (handle_change b (bc, pc, vals) kv) as [[[bc1 pc1]|e] vals1] eqn:C; [|discriminate].
    destruct (change_row_pos _ _ _ _ _ _ _ _ _ _ C R) as (v1 & R1 & F1 & O1).
    destruct (IH _ _ _ _ _ _ _ _ _ H R1) as (v2 & R2 & F2 & O2).
    exists v2. split; [exact R2|]. split.
    + intro D. cbn [fold_left]. apply F2. cbn [mentions existsb] in D.
      destruct (pos_keyb n (fst kv)) eqn:K; [right; auto|].
      cbn [orb] in D. destruct D as [D|D]; [left; exact D|right].
      rewrite (O1 eq_refl). destruct D as (s & o & D1 & D2 & D3).
      exists s, o. rewrite !field_other, count_other by auto. auto.
    + intro D. cbn [mentions existsb] in D. apply orb_false_iff in D. destruct D as [K D].
      cbn [fold_left]. destruct (O2 D) as (E1 & E2 & E3).
      split; [rewrite E1; auto|]. split.
      * rewrite E2. now apply count_other.
      * intro f. rewrite E3. now apply field_other.
Qed.

End Position.

(* ---- the lookups of create_busses ---- *)

Notation setall := (fold_left (fun d ik => dset (snd ik) (fst ik) d)).

Definition named (v : list string) : list string :=
  filter (fun b => negb (String.eqb b "")) v.

Lemma enum_app : forall A (a c : list A) i, enum i (a ++ c) = enum i a ++ enum (i + length a) c.
Proof.
  intros A a; induction a as [|x r IH]; intros c i; simpl.
  - now rewrite Nat.add_0_r.
  - rewrite IH. f_equal. f_equal. f_equal. lia.
Qed.

Lemma create_bits_eq : forall k v names idx fields here,
  fold_left (create_bit k) v (names, idx, fields, here) =
  (names ++ named v, setall (enum (length names) (named v)) idx,
   setall (map (fun b => (k, b)) (named v)) fields,
   here ++ seq (length names) (length (named v))).
Proof.
  intros k v; induction v as [|x r IH]; intros names idx fields here; cbn [fold_left].
  - cbn. now rewrite !app_nil_r.
  - unfold create_bit at 2. unfold named. cbn [filter].
    destruct (String.eqb x ""); cbn [negb].
    + rewrite IH. reflexivity.
    + rewrite IH. fold (named r). cbn [enum fold_left map snd fst length seq].
      rewrite app_length. cbn [length]. rewrite Nat.add_1_r.
      rewrite <- !app_assoc. reflexivity.
Qed.

Fixpoint word_pairs (base : nat) (pcap : dict (list string)) : list (list nat * string) :=
  match pcap with
  | [] => []
  | (k, v) :: r => (seq base (length (named v)), k) :: word_pairs (base + length (named v)) r
  end.

Lemma create_words_eq : forall pcap names idx fields words,
  fold_left create_word pcap (names, idx, fields, words) =
  (names ++ map snd (flat pcap), setall (enum (length names) (map snd (flat pcap))) idx,
   setall (flat pcap) fields, setall (word_pairs (length names) pcap) words).
Proof.
  induction pcap as [|[k v] r IH]; intros names idx fields words; cbn [fold_left].
  - cbn. now rewrite app_nil_r.
  - unfold create_word at 2. cbn [fst snd]. rewrite create_bits_eq, IH. cbn [app].
    unfold flat at 4 5 6. cbn [flat_map fst snd]. fold (flat r). fold (named v).
    rewrite !map_app, map_map. cbn [snd]. rewrite map_id, enum_app.
    rewrite !fold_left_app, app_length, <- app_assoc. reflexivity.
Qed.

Lemma word_pairs_snd : forall pcap base, map snd (word_pairs base pcap) = map fst pcap.
Proof.
  induction pcap as [|[k v] r IH]; intro base; simpl; auto. now rewrite IH.
Qed.

Lemma flat_cons : forall k v r, flat ((k, v) :: r) = map (fun b => (k, b)) (named v) ++ flat r.
Proof. reflexivity. Qed.

Lemma word_pairs_index : forall pcap base l w j, In (l, w) (word_pairs base pcap) -> In j l ->
  base <= j /\ exists n, nth_error (flat pcap) (j - base) = Some (w, n).
Proof.
  induction pcap as [|[k v] r IH]; intros base l w j H Hj; cbn [word_pairs] in H; [destruct H|].
  rewrite flat_cons. destruct H as [H|H].
  - injection H as <- <-. apply in_seq in Hj. split; [lia|].
    rewrite nth_error_app1 by (rewrite map_length; lia).
    destruct (nth_error (named v) (j - base)) as [n|] eqn:E.
    + exists n. rewrite nth_error_map, E. reflexivity.
    + apply nth_error_None in E. lia.
  - destruct (IH _ _ _ _ H Hj) as [H1 [n H2]]. split; [lia|]. exists n.
    rewrite nth_error_app2 by (rewrite map_length; lia). rewrite map_length.
    replace (j - base - length (named v)) with (j - (base + length (named v))) by lia. exact H2.
Qed.

Lemma word_pairs_find : forall pcap base w n j, base <= j ->
  nth_error (flat pcap) (j - base) = Some (w, n) ->
  exists l, In (l, w) (word_pairs base pcap) /\ In j l.
Proof.
  induction pcap as [|[k v] r IH]; intros base w n j Hb H; cbn [word_pairs].
  - destruct (j - base); discriminate.
  - rewrite flat_cons in H. destruct (Nat.lt_ge_cases (j - base) (length (named v))) as [L|L].
    + rewrite nth_error_app1 in H by (rewrite map_length; lia).
      rewrite nth_error_map in H. destruct (nth_error (named v) (j - base)); [|discriminate].
      simpl in H. injection H as <- <-.
      exists (seq base (length (named v))). split; [left; auto|]. apply in_seq. lia.
    + rewrite nth_error_app2 in H by (rewrite map_length; lia). rewrite map_length in H.
      destruct (IH (base + length (named v)) w n j) as [l [H1 H2]].
      * lia.
      * replace (j - (base + length (named v))) with (j - base - length (named v)) by lia. exact H.
      * exists l. split; [right; exact H1 | exact H2].
Qed.

(* the lookups of a part *)
Definition static (ds : bool) (pcap : dict (list string)) (pos : list string) (b : busses) : Prop :=
  let b0 := create_busses ds pcap pos in
  bit_indexes b = bit_indexes b0 /\ pos_indexes b = pos_indexes b0 /\
  pcap_bit_indexes b = pcap_bit_indexes b0 /\ bit_pcap_fields b = bit_pcap_fields b0.

Lemma create_eq : forall ds pcap pos, create_busses ds pcap pos =
  mkB (initial_bits ds (map snd (flat pcap))) (initial_pos ds pos)
      (setall (enum 0 (map snd (flat pcap))) []) (pos_lookup pos)
      (map (fun ik => (fst ik, 0%Z)) (enum 0 pos))
      (setall (word_pairs 0 pcap) []) (setall (flat pcap) []).
Proof.
  intros. unfold create_busses. rewrite create_words_eq. reflexivity.
Qed.

Section Lookups.
Variables (ds : bool) (pcap : dict (list string)) (pos : list string) (b : busses).
Hypothesis HW : hardware pcap pos.
Hypothesis ST : static ds pcap pos b.

Lemma static_bits : bit_indexes b = setall (enum 0 (map snd (flat pcap))) [].
Proof. destruct ST as [H _]. rewrite H, create_eq. reflexivity. Qed.
Lemma static_pos : pos_indexes b = pos_lookup pos.
Proof. destruct ST as (_ & H & _). rewrite H, create_eq. reflexivity. Qed.
Lemma static_words : pcap_bit_indexes b = setall (word_pairs 0 pcap) [].
Proof. destruct ST as (_ & _ & H & _). rewrite H, create_eq. reflexivity. Qed.
Lemma static_fields : bit_pcap_fields b = setall (flat pcap) [].
Proof. destruct ST as (_ & _ & _ & H). rewrite H, create_eq. reflexivity. Qed.

Lemma bit_lookup : forall i w n, nth_error (flat pcap) i = Some (w, n) ->
  dget n (bit_indexes b) = Some i.
Proof.
  intros i w n H. rewrite static_bits. apply fold_dset_In.
  - rewrite enum_snd. apply (hw_bits _ _ HW).
  - apply enum_nth. rewrite Nat.sub_0_r. split; [lia|]. rewrite nth_error_map, H. reflexivity.
Qed.

Lemma bit_lookup_Some : forall k i, dget k (bit_indexes b) = Some i ->
  exists w, nth_error (flat pcap) i = Some (w, k).
Proof.
  intros k i H. rewrite static_bits in H. apply fold_dset_Some in H.
  destruct H as [H|H]; [|discriminate]. apply enum_nth in H. rewrite Nat.sub_0_r in H.
  destruct H as [_ H]. rewrite nth_error_map in H.
  destruct (nth_error (flat pcap) i) as [[w n]|]; [|discriminate]. simpl in H.
  exists w. congruence.
Qed.

Lemma bit_field : forall i w n, nth_error (flat pcap) i = Some (w, n) ->
  dget n (bit_pcap_fields b) = Some w.
Proof.
  intros i w n H. rewrite static_fields. apply fold_dset_In.
  - apply (hw_bits _ _ HW).
  - eapply nth_error_In; eauto.
Qed.

Lemma word_lookup_Some : forall k l, dget k (pcap_bit_indexes b) = Some l ->
  In k (map fst pcap) /\
  forall j, In j l <-> exists n, nth_error (flat pcap) j = Some (k, n).
Proof.
  intros k l H. rewrite static_words in H. apply fold_dset_Some in H.
  destruct H as [H|H]; [|discriminate]. split.
  - rewrite <- (word_pairs_snd pcap 0). apply in_map_iff. exists (l, k). auto.
  - intro j. split.
    + intro Hj. destruct (word_pairs_index _ _ _ _ _ H Hj) as [_ [n K]].
      rewrite Nat.sub_0_r in K. eauto.
    + intros [n K]. destruct (word_pairs_find pcap 0 k n j) as [l' [H1 H2]]; [lia| |].
      { rewrite Nat.sub_0_r. exact K. }
      assert (E1 : dget k (setall (word_pairs 0 pcap) []) = Some l).
      { apply fold_dset_In; auto. rewrite word_pairs_snd. apply (hw_words _ _ HW). }
      assert (E2 : dget k (setall (word_pairs 0 pcap) []) = Some l').
      { apply fold_dset_In; auto. rewrite word_pairs_snd. apply (hw_words _ _ HW). }
      congruence.
Qed.

Lemma bit_not_pos : forall n k, In n pos -> pos_key n k -> dget k (bit_indexes b) = None.
Proof.
  intros n k Hn K. destruct (dget k (bit_indexes b)) as [i|] eqn:E; [|reflexivity].
  apply bit_lookup_Some in E. destruct E as [w E]. exfalso.
  apply (hw_bit_pos _ _ HW n k Hn K). apply in_map_iff. exists (w, k).
  split; auto. eapply nth_error_In; eauto.
Qed.

(* ---- a report, seen from the row of one bit ---- *)

Variables (i : nat) (w n : string).
Hypothesis Hn : nth_error (flat pcap) i = Some (w, n).

Lemma index_inj : forall j w' , nth_error (flat pcap) j = Some (w', n) -> j = i.
Proof.
  intros j w' H. eapply nth_error_inj with (l := map snd (flat pcap)) (n := n).
  - apply (hw_bits _ _ HW).
  - rewrite nth_error_map, H. reflexivity.
  - rewrite nth_error_map, Hn. reflexivity.
Qed.

Definition brow (bc : table) (v c : cell) : Prop :=
  wf_chg bc (bits b) /\ cur bc (bits b) "value" i = Some v /\
  cur bc (bits b) "capture" i = Some c.

Lemma capture_bits_spec : forall cap l bc bc' v c, capture_bits b cap l bc = Ok bc' ->
  brow bc v c ->
  brow bc' v (if in_dec Nat.eq_dec i l then CB cap else c).
Proof.
  intros cap l; induction l as [|j r IH]; intros bc bc' v c H R; cbn [capture_bits] in H.
  - injection H as <-. destruct (in_dec Nat.eq_dec i []) as [[]|]; exact R.
  - destruct (update_column bc "capture" (bits b) j (CB cap)) as [bc1|] eqn:U; [|discriminate].
    destruct R as (R1 & R2 & R3).
    apply update_column_spec in U; [|exact R1]. destruct U as (U1 & U2 & _).
    assert (R' : brow bc1 v (if Nat.eqb i j then CB cap else c)).
    { split; [exact U1|]. split.
      - rewrite U2. cbn. exact R2.
      - rewrite U2, String.eqb_refl. cbn [andb]. destruct (Nat.eqb i j); auto. }
    apply (IH _ _ _ _ H) in R'.
    destruct (in_dec Nat.eq_dec i r) as [I|I].
    + destruct (in_dec Nat.eq_dec i (j :: r)) as [J|J]; [exact R'|]. exfalso; apply J; right; auto.
    + destruct (in_dec Nat.eq_dec i (j :: r)) as [J|J].
      * destruct J as [->|J]; [|tauto]. rewrite Nat.eqb_refl in R'. exact R'.
      * assert (E : Nat.eqb i j = false) by (apply Nat.eqb_neq; intros ->; apply J; left; auto).
        rewrite E in R'. exact R'.
Qed.

Lemma change_row_bit : forall bc pc vals kv bc' pc' vals' v c,
  handle_change b (bc, pc, vals) kv = (Ok (bc', pc'), vals') -> brow bc v c ->
  brow bc' (bit_change n v kv) (word_change w c kv).
Proof.
  intros bc pc vals [k x] bc' pc' vals' v c H R. unfold handle_change in H.
  cbn [fst snd] in H. unfold bit_change, word_change. cbn [fst snd].
  assert (Hw : In w (map fst pcap)).
  { clear - Hn. revert i Hn. induction pcap as [|[k0 v0] r IH]; intros j H; cbn in *.
    - destruct j; discriminate.
    - fold (named v0) in H.
      destruct (Nat.lt_ge_cases j (length (map (fun b : string => (k0, b)) (named v0)))) as [L|L].
      + rewrite nth_error_app1 in H by exact L. rewrite nth_error_map in H.
        destruct (nth_error (named v0) j); [|discriminate]. left. simpl in H. congruence.
      + rewrite nth_error_app2 in H by exact L. right. eapply IH; eauto. }
  assert (Hb : In n (map snd (flat pcap))).
  { apply in_map_iff. exists (w, n). split; auto. eapply nth_error_In; eauto. }
  destruct (handle_bit b k x bc) as [[bc1|]|e] eqn:B; [| |discriminate].
  - injection H as <- <- <-. unfold handle_bit in B.
    destruct (dget k (bit_indexes b)) as [j|] eqn:E; [|discriminate].
    apply bit_lookup_Some in E. destruct E as [w' E].
    destruct (update_column bc "value" (bits b) j (cell_of x)) as [c1|] eqn:U; [|discriminate].
    injection B as <-. destruct R as (R1 & R2 & R3).
    apply update_column_spec in U; [|exact R1]. destruct U as (U1 & U2 & _).
    assert (Kw : String.eqb k w = false).
    { apply String.eqb_neq. intros ->. revert Hw. apply (hw_word_bit _ _ HW).
      apply in_map_iff. exists (w', w). split; auto. eapply nth_error_In; eauto. }
    rewrite Kw. split; [exact U1|]. split.
    + rewrite U2, String.eqb_refl. cbn [andb]. destruct (String.eqb k n) eqn:Kn.
      * apply String.eqb_eq in Kn. subst k. rewrite (index_inj _ _ E), Nat.eqb_refl. reflexivity.
      * assert (Hij : Nat.eqb i j = false).
        { apply Nat.eqb_neq. intros <-. rewrite Hn in E. injection E as _ E. subst k.
          rewrite String.eqb_refl in Kn. discriminate. }
        rewrite Hij. exact R2.
    + rewrite U2. cbn. exact R3.
  - assert (Kn : String.eqb k n = false).
    { apply String.eqb_neq. intros ->. unfold handle_bit in B. rewrite (bit_lookup _ _ _ Hn) in B.
      destruct (update_column bc "value" (bits b) i (cell_of x)); discriminate. }
    rewrite Kn.
    destruct (handle_pos b vals k x pc) as [[[pc1|]|e] vals1] eqn:P; [| |discriminate].
    + injection H as <- <- <-.
      assert (Kw : String.eqb k w = false).
      { apply String.eqb_neq. intros ->. unfold handle_pos in P. rewrite static_pos in P.
        destruct (dget w (pos_lookup pos)) as [j|] eqn:E; [|discriminate].
        apply pos_lookup_Some in E. destruct E as [m [Em Km]].
        revert Hw. eapply (hw_word_pos _ _ HW); eauto. eapply nth_error_In; eauto. }
      rewrite Kw. exact R.
    + destruct (handle_pcap b k x bc) as [[bc1|]|e] eqn:Q; try discriminate.
      injection H as <- <- <-. unfold handle_pcap in Q.
      destruct (dget k (pcap_bit_indexes b)) as [l|] eqn:E; [|discriminate].
      destruct (capture_bits b _ l bc) as [bc2|] eqn:C; [|discriminate].
      injection Q as <-. apply (capture_bits_spec _ _ _ _ _ _ C) in R.
      apply word_lookup_Some in E. destruct E as [_ E].
      destruct (in_dec Nat.eq_dec i l) as [I|I].
      * apply E in I. destruct I as [n' I]. rewrite Hn in I. injection I as -> _.
        rewrite String.eqb_refl. exact R.
      * destruct (String.eqb k w) eqn:Kw; [|exact R]. apply String.eqb_eq in Kw. subst k.
        exfalso. apply I. apply E. exists n. exact Hn.
Qed.

Lemma each_row_bit : forall ch bc pc vals bc' pc' vals' v c,
  handle_each b ch (bc, pc, vals) = (Ok (bc', pc'), vals') -> brow bc v c ->
  brow bc' (fold_left (bit_change n) ch v) (fold_left (word_change w) ch c).
Proof.
  induction ch as [|kv r IH]; intros bc pc vals bc' pc' vals' v c H R; cbn [handle_each] in H.
  - injection H as <- <- <-. exact R.
  - destruct (handle_change b (bc, pc, vals) kv) as [[[bc1 pc1]|e] vals1] eqn:C; [|discriminate].
    cbn [fold_left]. eapply IH; eauto. eapply change_row_bit; eauto.
Qed.

End Lookups.

(* ---- a request ---- *)

Definition ordinary (k : string) : Prop := k <> "name"%string /\ k <> "value"%string.

Lemma ordinaryb : forall k, (String.eqb k "name" || String.eqb k "value")%bool = false <-> ordinary k.
Proof.
  intro k. rewrite orb_false_iff, !String.eqb_neq. reflexivity.
Qed.

Lemma cell_eqb_same : forall a c, cell_eqb a c = true <-> same a c.
Proof.
  intros [x|x|x] [y|y|y]; simpl; split; intro H; try discriminate; try congruence.
  - apply Bool.eqb_prop in H. congruence.
  - injection H as ->. apply Bool.eqb_reflx.
  - now apply Qeq_bool_iff.
  - now apply Qeq_bool_iff.
  - apply String.eqb_eq in H. congruence.
  - injection H as ->. apply String.eqb_refl.
Qed.

Lemma change_cell_spec : forall old new lk i m chg k' chg',
  change_cell old new lk i m chg k' = Ok chg' -> wf_chg chg old ->
  wf_chg chg' old /\
  (forall c, c <> k' \/ ~ ordinary c -> dget c chg' = dget c chg) /\
  (forall k j, k <> k' \/ dget m lk <> Some j \/ ~ ordinary k ->
     cur chg' old k j = cur chg old k j) /\
  (ordinary k' -> forall j, dget m lk = Some j -> exists o x,
     at_ old k' j = Some o /\ at_ new k' i = Some x /\
     cur chg' old k' j = if cell_eqb o x then cur chg old k' j else Some x).
Proof.
  intros old new lk i m chg k' chg' H W. unfold change_cell in H.
  destruct (String.eqb k' "name" || String.eqb k' "value")%bool eqn:O.
  { injection H as <-. split; [exact W|]. split; [auto|]. split; [auto|].
    intros Ho. apply ordinaryb in Ho. congruence. }
  apply ordinaryb in O.
  destruct (dget k' new) as [nl|] eqn:Enl; [|discriminate].
  destruct (nth_error nl i) as [x|] eqn:Ex; [|discriminate].
  destruct (dget m lk) as [j0|] eqn:Ej.
  2:{ injection H as <-. split; [exact W|]. split; [auto|]. split; [auto|]. intros _ j Hj.
      discriminate. }
  destruct (dget k' old) as [ol|] eqn:Eol; [|discriminate].
  destruct (nth_error ol j0) as [o|] eqn:Eo; [|discriminate].
  destruct (cell_eqb o x) eqn:Q.
  - injection H as <-. split; [exact W|]. split; [auto|]. split; [auto|].
    intros _ j Hj. injection Hj as <-. exists o, x. unfold at_. rewrite Eol, Enl, Q. auto.
  - apply update_column_spec in H; [|exact W]. destruct H as (U1 & U2 & U3).
    split; [exact U1|]. split; [|split].
    + intros c [Hc|Hc]; [auto|]. apply U3. intros ->. tauto.
    + intros k j Hk. rewrite U2. destruct (String.eqb k k') eqn:E1; [|reflexivity].
      apply String.eqb_eq in E1. subst k. destruct (Nat.eqb j j0) eqn:E2; [|reflexivity].
      apply Nat.eqb_eq in E2. subst j. exfalso. destruct Hk as [Hk|[Hk|Hk]]; auto.
    + intros _ j Hj. injection Hj as <-. exists o, x. unfold at_. rewrite Eol, Enl, Q.
      split; [auto|]. split; [auto|]. rewrite U2, String.eqb_refl, Nat.eqb_refl. reflexivity.
Qed.

Lemma change_row_spec : forall old new lk i m cols chg chg',
  change_row old new lk i m cols chg = Ok chg' -> wf_chg chg old -> NoDup cols ->
  wf_chg chg' old /\
  (forall c, ~ ordinary c -> dget c chg' = dget c chg) /\
  (forall k j, ~ In k cols \/ dget m lk <> Some j \/ ~ ordinary k ->
     cur chg' old k j = cur chg old k j) /\
  (forall k j, ordinary k -> In k cols -> dget m lk = Some j -> exists o x,
     at_ old k j = Some o /\ at_ new k i = Some x /\
     cur chg' old k j = if cell_eqb o x then cur chg old k j else Some x).
Proof.
  intros old new lk i m cols; induction cols as [|k0 r IH]; intros chg chg' H W N;
    cbn [change_row] in H.
  - injection H as <-. split; [exact W|]. split; [auto|]. split; [auto|]. intros k j _ [].
  - destruct (change_cell old new lk i m chg k0) as [c1|] eqn:C; [|discriminate].
    inversion N as [|? ? N1 N2]; subst.
    apply change_cell_spec in C; [|exact W]. destruct C as (C1 & C2 & C3 & C4).
    destruct (IH _ _ H C1 N2) as (I1 & I2 & I3 & I4).
    split; [exact I1|]. split; [|split].
    + intros c Hc. rewrite I2 by auto. apply C2. auto.
    + intros k j Hk. rewrite I3, C3; auto.
      * destruct Hk as [Hk|Hk]; [left; intros ->; apply Hk; left; auto | auto].
      * destruct Hk as [Hk|Hk]; [left; intro; apply Hk; right; auto | auto].
    + intros k j Ho [->|Hk] Hj.
      * rewrite I3 by auto. apply C4; auto.
      * destruct (I4 k j Ho Hk Hj) as (o & x & A1 & A2 & A3). exists o, x.
        split; [auto|]. split; [auto|]. rewrite A3, C3; [reflexivity|].
        left. intros ->. auto.
Qed.

Lemma change_rows_spec : forall old new lk rows chg chg',
  change_rows old new lk rows chg = Ok chg' -> wf_chg chg old -> NoDup (dkeys old) ->
  NoDup (map snd rows) ->
  (forall a c j, dget a lk = Some j -> dget c lk = Some j -> a = c) ->
  wf_chg chg' old /\
  (forall c, ~ ordinary c -> dget c chg' = dget c chg) /\
  (forall m k j, dget m lk = Some j -> ~ In m (map snd rows) \/ ~ ordinary k ->
     cur chg' old k j = cur chg old k j) /\
  (forall i m k j, ordinary k -> dmem k old = true -> In (i, m) rows -> dget m lk = Some j ->
     exists o x, at_ old k j = Some o /\ at_ new k i = Some x /\
     cur chg' old k j = if cell_eqb o x then cur chg old k j else Some x).
Proof.
  intros old new lk rows; induction rows as [|[i0 m0] r IH]; intros chg chg' H W ND N INJ;
    cbn [change_rows] in H.
  - injection H as <-. split; [exact W|]. split; [auto|]. split; [auto|]. intros i m k j _ _ [].
  - destruct (change_row old new lk i0 m0 (dkeys old) chg) as [c1|] eqn:C; [|discriminate].
    cbn [map snd] in N. inversion N as [|? ? N1 N2]; subst.
    apply change_row_spec in C; [|exact W|exact ND]. destruct C as (C1 & C2 & C3 & C4).
    destruct (IH _ _ H C1 ND N2 INJ) as (I1 & I2 & I3 & I4).
    split; [exact I1|]. split; [|split].
    + intros c Hc. rewrite I2 by auto. auto.
    + intros m k j Hj Hm. rewrite (I3 m k j Hj).
      * apply C3. destruct Hm as [Hm|Hm]; [|auto]. right; left. intro Hj0. apply Hm. left.
        simpl. eapply INJ; eauto.
      * destruct Hm as [Hm|Hm]; [left; intro; apply Hm; right; auto | auto].
    + intros i m k j Ho Hk [E|Hr] Hj.
      * injection E as -> ->. rewrite (I3 m k j Hj) by auto.
        apply C4; auto. now apply dmem_In.
      * destruct (I4 i m k j Ho Hk Hr Hj) as (o & x & A1 & A2 & A3). exists o, x.
        split; [auto|]. split; [auto|]. rewrite A3, C3; [reflexivity|].
        right; left. intro Hj0. assert (m = m0) by (eapply INJ; eauto). subst m0.
        apply N1. apply in_map_iff. exists (i, m). auto.
Qed.

Lemma find_row_In : forall n l i j, NoDup l ->
  (find_row i n l = Some j <-> In (j, n) (enum i l)).
Proof.
  intros n l; induction l as [|x r IH]; intros i j N; simpl.
  - split; [discriminate|tauto].
  - inversion N as [|? ? N1 N2]; subst. destruct (String.eqb x n) eqn:E.
    + apply String.eqb_eq in E. subst x. split; intro H.
      * left. congruence.
      * destruct H as [H|H]; [congruence|]. exfalso. apply N1.
        apply in_map with (f := snd) in H. rewrite enum_snd in H. exact H.
    + rewrite IH by auto. split; [auto|]. intros [H|H]; [|auto].
      injection H as _ ->. rewrite String.eqb_refl in E. discriminate.
Qed.

Lemma lookup_spec : forall old n j, NoDup (names old) ->
  (dget n (lookup_of old) = Some j <-> nth_error (names old) j = Some n).
Proof.
  intros old n j N. unfold lookup_of. split; intro H.
  - apply fold_dset_Some in H. destruct H as [H|H]; [|discriminate].
    apply enum_nth in H. rewrite Nat.sub_0_r in H. tauto.
  - apply fold_dset_In; [rewrite enum_snd; exact N|]. apply enum_nth. rewrite Nat.sub_0_r.
    split; [lia|auto].
Qed.

(* a request changes the cells it names to what it asks for, and no other *)
Lemma get_column_changes_spec : forall old new chg,
  get_column_changes old new = Ok chg -> NoDup (dkeys old) -> NoDup (names old) ->
  NoDup (names new) ->
  wf_chg chg old /\
  (forall c, ~ ordinary c -> dget c chg = None) /\
  (forall n j k, nth_error (names old) j = Some n -> ordinary k -> dmem k old = true ->
     match find_row 0 n (names new) with
     | None => cur chg old k j = at_ old k j
     | Some i => exists o x, at_ old k j = Some o /\ at_ new k i = Some x /\
                 cur chg old k j = Some (if cell_eqb o x then o else x)
     end).
Proof.
  intros old new chg H ND No Nn. unfold get_column_changes in H.
  apply change_rows_spec in H.
  - destruct H as (H1 & H2 & H3 & H4). split; [exact H1|]. split; [exact H2|].
    intros n j k Hn Ho Hk. apply lookup_spec in Hn; [|exact No].
    destruct (find_row 0 n (names new)) as [i|] eqn:F.
    + apply find_row_In in F; [|exact Nn].
      destruct (H4 i n k j Ho Hk F Hn) as (o & x & A1 & A2 & A3). exists o, x.
      split; [auto|]. split; [auto|]. rewrite A3, cur_nil, A1. destruct (cell_eqb o x); auto.
    + rewrite (H3 n k j Hn); [reflexivity|]. left. intro K. rewrite enum_snd in K.
      apply In_nth_error in K. destruct K as [i K].
      assert (find_row 0 n (names new) = Some i).
      { apply find_row_In; auto. apply enum_nth. rewrite Nat.sub_0_r. split; [lia|auto]. }
      congruence.
  - apply wf_nil.
  - exact ND.
  - rewrite enum_snd. exact Nn.
  - intros a c j Ha Hc. apply lookup_spec in Ha; [|exact No]. apply lookup_spec in Hc; [|exact No].
    congruence.
Qed.

(* ---- runs ---- *)

Lemma brun_app : forall l1 l2 b,
  brun b (l1 ++ l2) = let '(b1, ok1) := brun b l1 in
                      let '(b2, ok2) := brun b1 l2 in (b2, (ok1 && ok2)%bool).
Proof.
  induction l1 as [|o r IH]; intros l2 b; cbn [app brun].
  - destruct (brun b l2) as [b2 ok2]. reflexivity.
  - destruct (bstep b o) as [[b' s] e]. rewrite IH.
    destruct (brun b' r) as [b1 ok1]. destruct (brun b1 l2) as [b2 ok2].
    destruct e; [|reflexivity]. reflexivity.
Qed.

Lemma brun_snoc : forall l o b b', brun b (l ++ [o]) = (b', true) ->
  exists b1 s, brun b l = (b1, true) /\ bstep b1 o = (b', s, None).
Proof.
  intros l o b b' H. rewrite brun_app in H. destruct (brun b l) as [b1 ok1]. cbn [brun] in H.
  destruct (bstep b1 o) as [[b2 s] e] eqn:E. destruct e; injection H as -> H.
  - rewrite andb_false_r in H. discriminate.
  - rewrite andb_true_r in H. subst ok1. exists b1, s. auto.
Qed.

Record tables_ok (ds : bool) (pcap : dict (list string)) (pos : list string) (b : busses)
  : Prop := {
  tk_static : static ds pcap pos b;
  tk_bkeys : dkeys (bits b) = dkeys (initial_bits ds []);
  tk_pkeys : dkeys (positions b) = dkeys (initial_pos ds []);
  tk_bname : dget "name" (bits b) = Some (map CS (map snd (flat pcap)));
  tk_pname : dget "name" (positions b) = Some (map CS pos) }.

Lemma strings_CS : forall l, strings (map CS l) = l.
Proof. intro l; unfold strings; rewrite map_map. apply map_id. Qed.

Lemma tables_ok_init : forall ds pcap pos, tables_ok ds pcap pos (create_busses ds pcap pos).
Proof.
  intros ds pcap pos. constructor.
  - unfold static. auto.
  - rewrite create_eq. destruct ds; reflexivity.
  - rewrite create_eq. destruct ds; reflexivity.
  - rewrite create_eq. reflexivity.
  - rewrite create_eq. reflexivity.
Qed.

Lemma bkeys_nodup : forall ds, NoDup (dkeys (initial_bits ds [])).
Proof. intros []; cbn; repeat constructor; simpl; intuition discriminate. Qed.
Lemma pkeys_nodup : forall ds, NoDup (dkeys (initial_pos ds [])).
Proof. intros []; cbn; repeat constructor; simpl; intuition discriminate. Qed.

Lemma update_column_names : forall chg col t i v chg', update_column chg col t i v = Ok chg' ->
  col <> "name"%string -> dget "name" chg' = dget "name" chg.
Proof.
  intros chg col t i v chg' H N. unfold update_column in H.
  destruct (match dget col chg with Some l => Some l | None => dget col t end); [|discriminate].
  destruct (set_nth i v l); [|discriminate]. injection H as <-. now apply dget_dset_other.
Qed.

Lemma capture_bits_names : forall b cap l bc bc', capture_bits b cap l bc = Ok bc' ->
  dget "name" bc' = dget "name" bc.
Proof.
  intros b cap l; induction l as [|j r IH]; intros bc bc' H; cbn [capture_bits] in H.
  - congruence.
  - destruct (update_column bc "capture" (bits b) j (CB cap)) as [bc1|] eqn:U; [|discriminate].
    rewrite (IH _ _ H). eapply update_column_names; eauto. discriminate.
Qed.

Lemma handle_pos_names : forall b pos vals k v pc pc' vals',
  pos_indexes b = pos_lookup pos -> (forall m, In m pos -> dots m = 1) ->
  handle_pos b vals k v pc = (Ok (Some pc'), vals') -> dget "name" pc' = dget "name" pc.
Proof.
  intros b pos vals k v pc pc' vals' Hi Hd H. unfold handle_pos in H. rewrite Hi in H.
  destruct (dget k (pos_lookup pos)) as [j|] eqn:E; [|discriminate].
  apply pos_lookup_Some in E. destruct E as [m [Hm Km]].
  assert (Dm : dots m = 1) by (apply Hd; eapply nth_error_In; eauto).
  destruct (handle_pos_field b vals k v pc j) as [[pc1 vals1]|e] eqn:F; [|discriminate].
  assert (N1 : dget "name" pc1 = dget "name" pc).
  { unfold handle_pos_field in F. destruct Km as [->|[f ->]].
    - assert (L := split_length m). rewrite Dm in L.
      destruct (split_dot m) as [|a [|a2 [|a3 ?]]]; simpl in L; try discriminate.
      destruct (to_int v); [|discriminate]. congruence.
    - assert (L := split_length m). rewrite Dm in L. rewrite split_dotted in F.
      destruct (split_dot m) as [|a [|a2 [|a3 ?]]]; simpl in L; try discriminate.
      cbn [app] in F. rewrite lower_suffix in F.
      destruct (parse_field (column f) v) as [c|]; [|discriminate].
      destruct (update_column pc (column f) (positions b) j c) as [chg'|] eqn:U; [|discriminate].
      injection F as <- <-. eapply update_column_names; eauto. destruct f; discriminate. }
  destruct (number_at pc1 (positions b) "scale" j) as [sc|]; [|discriminate].
  destruct (number_at pc1 (positions b) "offset" j) as [off|]; [|discriminate].
  destruct (nget j vals1) as [zz|]; [|discriminate].
  destruct (update_column pc1 "value" (positions b) j _) as [c|] eqn:U; [|discriminate].
  injection H as <- <-. rewrite <- N1. eapply update_column_names; eauto. discriminate.
Qed.

Lemma handle_change_names : forall b pos bc pc vals kv bc' pc' vals',
  pos_indexes b = pos_lookup pos -> (forall m, In m pos -> dots m = 1) ->
  handle_change b (bc, pc, vals) kv = (Ok (bc', pc'), vals') ->
  dget "name" bc' = dget "name" bc /\ dget "name" pc' = dget "name" pc.
Proof.
  intros b pos bc pc vals [k v] bc' pc' vals' Hi Hd H. unfold handle_change in H.
  cbn [fst snd] in H.
  destruct (handle_bit b k v bc) as [[bc1|]|e] eqn:B; [| |discriminate].
  - injection H as <- <- <-. split; [|reflexivity]. unfold handle_bit in B.
    destruct (dget k (bit_indexes b)) as [i|]; [|discriminate].
    destruct (update_column bc "value" (bits b) i (cell_of v)) as [c|] eqn:U; [|discriminate].
    injection B as <-. eapply update_column_names; eauto. discriminate.
  - destruct (handle_pos b vals k v pc) as [[[pc1|]|e] vals1] eqn:P; [| |discriminate].
    + injection H as <- <- <-. split; [reflexivity|]. eapply handle_pos_names; eauto.
    + destruct (handle_pcap b k v bc) as [[bc1|]|e] eqn:Q; try discriminate.
      injection H as <- <- <-. split; [|reflexivity]. unfold handle_pcap in Q.
      destruct (dget k (pcap_bit_indexes b)) as [l|]; [|discriminate].
      destruct (capture_bits b _ l bc) as [bc2|] eqn:C; [|discriminate].
      injection Q as <-. eapply capture_bits_names; eauto.
Qed.

Lemma handle_each_names : forall b pos ch bc pc vals bc' pc' vals',
  pos_indexes b = pos_lookup pos -> (forall m, In m pos -> dots m = 1) ->
  handle_each b ch (bc, pc, vals) = (Ok (bc', pc'), vals') ->
  dget "name" bc' = dget "name" bc /\ dget "name" pc' = dget "name" pc.
Proof.
  intros b pos ch; induction ch as [|kv r IH]; intros bc pc vals bc' pc' vals' Hi Hd H;
    cbn [handle_each] in H.
  - injection H as <- <- <-. auto.
  - destruct (handle_change b (bc, pc, vals) kv) as [[[bc1 pc1]|e] vals1] eqn:C; [|discriminate].
    destruct (handle_change_names _ _ _ _ _ _ _ _ _ Hi Hd C) as [E1 E2].
    destruct (IH _ _ _ _ _ _ Hi Hd H) as [E3 E4]. split; congruence.
Qed.

Lemma make_updated_names : forall t chg, dget "name" chg = None ->
  dget "name" (make_updated_table t chg) = dget "name" t.
Proof. intros t chg H. rewrite dget_make_updated, H. destruct (dget "name" t); reflexivity. Qed.

Lemma names_of : forall t l, dget "name" t = Some (map CS l) -> names t = l.
Proof. intros t l H. unfold names. rewrite H. apply strings_CS. Qed.

Section Steps.
Variables (ds : bool) (pcap : dict (list string)) (pos : list string).
Hypothesis HW : hardware pcap pos.

Lemma step_tables_ok : forall b o b' s, tables_ok ds pcap pos b -> op_wf o ->
  bstep b o = (b', s, None) -> tables_ok ds pcap pos b'.
Proof.
  intros b o b' s T W H. assert (Hi := static_pos ds pcap pos b (tk_static _ _ _ _ T)).
  destruct T as [T1 T2 T3 T4 T5]. destruct o as [ch|t r|t r]; cbn [bstep] in H.
  - unfold handle_changes in H.
    destruct (handle_each b ch ([], [], pos_values b)) as [[[bc pc]|e] vals] eqn:E; [|discriminate].
    injection H as <- <-.
    destruct (handle_each_names _ _ _ _ _ _ _ _ _ Hi (hw_dots _ _ HW) E) as [E1 E2].
    constructor; auto; cbn [bits positions with_tables].
    + now rewrite dkeys_make_updated.
    + now rewrite dkeys_make_updated.
    + now rewrite make_updated_names.
    + now rewrite make_updated_names.
  - unfold set_bits in H.
    destruct (get_column_changes (bits b) t) as [chg|] eqn:G; [|discriminate].
    assert (K := G). apply get_column_changes_spec in K.
    + destruct K as (K1 & K2 & _).
      assert (E : b' = with_tables b (make_updated_table (bits b) chg) (positions b) (pos_values b)).
      { destruct (dget "capture" chg); [|congruence].
        destruct (capture_fields b l (names t) []); [|discriminate].
        destruct r; [discriminate|]. congruence. }
      subst b'. constructor; auto; cbn [bits positions with_tables].
      * now rewrite dkeys_make_updated.
      * rewrite make_updated_names; auto. apply K2. intros [A _]. congruence.
    + rewrite T2. apply bkeys_nodup.
    + rewrite (names_of _ _ T4). apply (hw_bits _ _ HW).
    + exact W.
  - unfold set_positions in H.
    destruct (get_column_changes (positions b) t) as [chg|] eqn:G; [|discriminate].
    assert (K := G). apply get_column_changes_spec in K.
    + destruct K as (K1 & K2 & _).
      destruct (send_columns (names (positions b)) chg r attrs []) as [sent [e|]]; [discriminate|].
      injection H as <- <-. constructor; auto; cbn [bits positions with_tables].
      * now rewrite dkeys_make_updated.
      * rewrite make_updated_names; auto. apply K2. intros [A _]. congruence.
    + rewrite T3. apply pkeys_nodup.
    + rewrite (names_of _ _ T5). apply (hw_pos _ _ HW).
    + exact W.
Qed.

Lemma run_tables_ok : forall l b', Forall op_wf l ->
  brun (create_busses ds pcap pos) l = (b', true) -> tables_ok ds pcap pos b'.
Proof.
  intro l; induction l as [|o l IH] using rev_ind; intros b' W H.
  - injection H as <-. apply tables_ok_init.
  - apply brun_snoc in H. destruct H as (b1 & s & H1 & H2).
    apply Forall_app in W. destruct W as [W1 W2]. inversion W2; subst.
    eapply step_tables_ok; eauto.
Qed.

Lemma same_refl : forall a, same a a.
Proof. intros []; simpl; auto. reflexivity. Qed.
Lemma same_sym : forall a c, same a c -> same c a.
Proof. intros [] []; simpl; try congruence; intro; now symmetry. Qed.
Lemma same_trans : forall a c d, same a c -> same c d -> same a d.
Proof.
  intros [] [] []; simpl; try congruence. intros H1 H2. now rewrite H1.
Qed.

Lemma fold_field_same : forall n f ch c c', same c c' ->
  same (fold_left (field_change n f) ch c) (fold_left (field_change n f) ch c').
Proof.
  intros n f ch; induction ch as [|kv r IH]; intros c c' H; cbn [fold_left]; auto.
  apply IH. unfold field_change. destruct (String.eqb _ _); auto.
  unfold meaning. destruct f; try apply same_refl; destruct (number_of (snd kv)); auto;
    apply same_refl.
Qed.

(* what is known of the row of a position after a run *)
Definition pos_row (b : busses) (l : list bop) (i : nat) (n : string) : Prop :=
  nget i (pos_values b) = Some (counts_after n l) /\
  (forall f, exists c, at_ (positions b) (column f) i = Some c /\ same c (field_after n f l)) /\
  exists v, at_ (positions b) "value" i = Some (CN v) /\
    (heard n l -> forall s o, at_ (positions b) "scale" i = Some (CN s) ->
       at_ (positions b) "offset" i = Some (CN o) ->
       (v == inject_Z (counts_after n l) * s + o)%Q).

Lemma nget_init : forall (names : list string) i k,
  i < length names -> nget (k + i) (map (fun ik => (fst ik, 0%Z)) (enum k names)) = Some 0%Z.
Proof.
  induction names as [|x r IH]; intros i k H; simpl in *; [lia|].
  destruct (Nat.eqb (k + i) k) eqn:E; [reflexivity|]. apply Nat.eqb_neq in E.
  destruct i as [|i]; [lia|]. replace (k + S i) with (S k + i) by lia. apply IH. lia.
Qed.

Lemma pos_row_init : forall i n, nth_error pos i = Some n ->
  pos_row (create_busses ds pcap pos) [] i n.
Proof.
  intros i n H. rewrite create_eq. unfold pos_row. cbn [pos_values positions].
  assert (L : i < length pos) by (apply nth_error_Some; congruence).
  assert (A : forall c : cell, nth_error (map (fun _ : string => c) pos) i = Some c).
  { intro c. rewrite nth_error_map, H. reflexivity. }
  split; [exact (nget_init pos i 0 L)|]. split.
  - intros f. exists (field_init f). split; [|apply same_refl].
    unfold at_. destruct f; cbn; apply A.
  - exists 0%Q. split; [unfold at_; cbn; apply A|].
    intros _ s o Hs Ho. unfold at_ in Hs, Ho. cbn in Hs, Ho. rewrite A in Hs, Ho.
    injection Hs as <-. injection Ho as <-. reflexivity.
Qed.

Lemma snoc_not_nil : forall A (l : list A) x, l ++ [x] <> [].
Proof. intros A [|y l] x; discriminate. Qed.

Lemma heard_report_inv : forall n l ch, heard n (l ++ [Report ch]) ->
  mentions n ch = true \/ heard n l.
Proof.
  intros n l ch H. inversion H as [E|l0 ch0 M E|l0 ch0 M E|l0 t r M E|l0 t r M R E].
  - symmetry in E. apply snoc_not_nil in E. destruct E.
  - apply app_inj_tail in E. destruct E as [-> E]. injection E as ->. auto.
  - apply app_inj_tail in E. destruct E as [-> E]. injection E as ->. auto.
  - apply app_inj_tail in E. destruct E as [_ E]. discriminate.
  - apply app_inj_tail in E. destruct E as [_ E]. discriminate.
Qed.

Lemma heard_bits_inv : forall n l t r, heard n (l ++ [SetBits t r]) -> heard n l.
Proof.
  intros n l t r H. inversion H as [E|l0 ch0 M E|l0 ch0 M E|l0 t0 r0 M E|l0 t0 r0 M R E].
  - symmetry in E. apply snoc_not_nil in E. destruct E.
  - apply app_inj_tail in E. destruct E as [_ E]. discriminate.
  - apply app_inj_tail in E. destruct E as [_ E]. discriminate.
  - apply app_inj_tail in E. destruct E as [-> E]. auto.
  - apply app_inj_tail in E. destruct E as [_ E]. discriminate.
Qed.

Lemma heard_positions_inv : forall n l t r, heard n (l ++ [SetPositions t r]) ->
  heard n l /\ ~ rescales n t l.
Proof.
  intros n l t r H. inversion H as [E|l0 ch0 M E|l0 ch0 M E|l0 t0 r0 M E|l0 t0 r0 M R E].
  - symmetry in E. apply snoc_not_nil in E. destruct E.
  - apply app_inj_tail in E. destruct E as [_ E]. discriminate.
  - apply app_inj_tail in E. destruct E as [_ E]. discriminate.
  - apply app_inj_tail in E. destruct E as [_ E]. discriminate.
  - apply app_inj_tail in E. destruct E as [-> E]. injection E as -> ->. auto.
Qed.

Lemma column_ordinary : forall f, ordinary (column f).
Proof. intros []; split; discriminate. Qed.

Lemma step_pos_row : forall b l o b' s i n, tables_ok ds pcap pos b -> op_wf o ->
  nth_error pos i = Some n -> pos_row b l i n -> bstep b o = (b', s, None) ->
  pos_row b' (l ++ [o]) i n.
Proof.
  intros b l o b' s i n T W Hn R H.
  assert (ST := tk_static _ _ _ _ T).
  assert (Hi := static_pos ds pcap pos b ST).
  assert (Hin : In n pos) by (eapply nth_error_In; eauto).
  destruct R as (R1 & R2 & v & R3 & R4).
  unfold pos_row, counts_after, field_after. repeat setoid_rewrite fold_left_app.
  cbn [fold_left]. fold (counts_after n l).
  destruct o as [ch|t r|t r]; cbn [bstep] in H; cbn [counts_step field_step].
  - unfold handle_changes in H.
    destruct (handle_each b ch ([], [], pos_values b)) as [[[bc pc]|e] vals] eqn:E; [|discriminate].
    injection H as <- <-. cbn [pos_values positions with_tables].
    destruct (R2 Scale) as (sc & S1 & S2). destruct (R2 Offset) as (off & O1 & O2).
    destruct (R2 Capture) as (ca & C1 & C2). destruct (R2 Units) as (un & U1 & U2).
    set (cs := fun f => match f with Capture => ca | Scale => sc | Offset => off | Units => un end).
    destruct (each_row_pos b pos n i Hi (hw_pos _ _ HW) (hw_dots _ _ HW) Hn
                (fun k K => bit_not_pos ds pcap pos b HW ST n k Hin K)
                _ _ _ _ _ _ _ (counts_after n l) cs (CN v) E) as (val' & Q1 & Q2 & Q3).
    { split; [apply wf_nil|]. split; [exact R1|]. split; [|exact R3].
      intros []; assumption. }
    destruct Q1 as (W1 & W2 & W3 & W4).
    split; [exact W2|]. split.
    + intros f. exists (fold_left (field_change n f) ch (cs f)).
      rewrite at_make_updated by exact W1. split; [apply W3|].
      apply fold_field_same. destruct f; assumption.
    + rewrite !at_make_updated by exact W1.
      destruct (mentions n ch) eqn:M.
      * destruct (Q2 (or_introl eq_refl)) as (s0 & o0 & F1 & F2 & ->).
        eexists. split; [exact W4|]. intros _ s o Hs Ho.
        assert (A := W3 Scale). cbn [column] in A. rewrite Hs, F1 in A.
        assert (B := W3 Offset). cbn [column] in B. rewrite Ho, F2 in B.
        injection A as ->. injection B as ->. reflexivity.
      * destruct (Q3 eq_refl) as (-> & F1 & F2).
        exists v. split; [exact W4|]. intros Hh s o Hs Ho.
        apply heard_report_inv in Hh. destruct Hh as [Hh|Hh]; [congruence|].
        rewrite F1. apply R4; auto.
        -- assert (A := W3 Scale). cbn [column] in A. rewrite Hs, F2 in A.
           unfold cs in A. cbn [column] in S1. congruence.
        -- assert (A := W3 Offset). cbn [column] in A. rewrite Ho, F2 in A.
           unfold cs in A. cbn [column] in O1. congruence.
  - assert (E : positions b' = positions b /\ pos_values b' = pos_values b).
    { unfold set_bits in H. destruct (get_column_changes (bits b) t) as [chg|]; [|discriminate].
      destruct (dget "capture" chg).
      - destruct (capture_fields b l0 (names t) []); [|discriminate].
        destruct r; [discriminate|]. injection H as <- _. auto.
      - injection H as <- _. auto. }
    destruct E as [-> ->]. split; [exact R1|]. split; [exact R2|].
    exists v. split; [exact R3|]. intro Hh. apply heard_bits_inv in Hh. auto.
  - unfold set_positions in H.
    destruct (get_column_changes (positions b) t) as [chg|] eqn:G; [|discriminate].
    apply get_column_changes_spec in G.
    2:{ rewrite (tk_pkeys _ _ _ _ T). apply pkeys_nodup. }
    2:{ rewrite (names_of _ _ (tk_pname _ _ _ _ T)). apply (hw_pos _ _ HW). }
    2:{ exact W. }
    destruct G as (G1 & G2 & G3).
    destruct (send_columns (names (positions b)) chg r attrs []) as [sent [e|]]; [discriminate|].
    injection H as <- _. cbn [pos_values positions with_tables].
    rewrite (names_of _ _ (tk_pname _ _ _ _ T)) in G3.
    assert (Hmem : forall f, dmem (column f) (positions b) = true).
    { intro f. apply dmem_In. rewrite (tk_pkeys _ _ _ _ T). destruct ds, f; cbn; auto 10. }
    assert (K : forall f, exists c, at_ (positions b) (column f) i = Some c /\
       same c (field_after n f l) /\
       match wanted t n (column f) with
       | None => cur chg (positions b) (column f) i = Some c
       | Some x => cur chg (positions b) (column f) i = Some (if cell_eqb c x then c else x)
       end).
    { intro f. destruct (R2 f) as (c & A1 & A2). exists c. split; [auto|]. split; [auto|].
      assert (G4 := G3 n i (column f) Hn (column_ordinary f) (Hmem f)).
      unfold wanted. destruct (find_row 0 n (names t)) as [j|].
      - destruct G4 as (o & x & B1 & B2 & B3). rewrite B2, B3.
        assert (c = o) by congruence. subst c. reflexivity.
      - rewrite G4. exact A1. }
    split; [exact R1|]. split.
    + intro f. destruct (K f) as (c & A1 & A2 & A3). rewrite at_make_updated by exact G1.
      destruct (wanted t n (column f)) as [x|].
      * destruct (cell_eqb c x) eqn:Q; rewrite A3.
        -- exists c. split; [auto|]. now apply cell_eqb_same.
        -- exists x. split; [auto|]. apply same_refl.
      * rewrite A3. exists c. auto.
    + exists v. rewrite !at_make_updated by exact G1. split.
      { unfold cur. rewrite G2; [exact R3|]. intros [_ A]. congruence. }
      intros Hh s0 o0 Hs Ho. apply heard_positions_inv in Hh. destruct Hh as [Hh NR].
      assert (Keep : forall f, f = Scale \/ f = Offset -> forall q,
        cur chg (positions b) (column f) i = Some (CN q) ->
        at_ (positions b) (column f) i = Some (CN q)).
      { intros f Hf q Hq. destruct (K f) as (c & A1 & A2 & A3).
        destruct (wanted t n (column f)) as [x|] eqn:Wx.
        - destruct (cell_eqb c x) eqn:Q; [congruence|]. exfalso. apply NR.
          exists f, x. split; [exact Hf|]. split; [exact Wx|]. intro Sm.
          assert (cell_eqb c x = true).
          { apply cell_eqb_same. eapply same_trans; eauto. }
          congruence.
        - congruence. }
      apply R4; auto.
      * apply (Keep Scale); auto.
      * apply (Keep Offset); auto.
Qed.

Lemma run_pos_row : forall l b' i n, Forall op_wf l -> nth_error pos i = Some n ->
  brun (create_busses ds pcap pos) l = (b', true) -> pos_row b' l i n.
Proof.
  intro l; induction l as [|o l IH] using rev_ind; intros b' i n W Hn H.
  - injection H as <-. now apply pos_row_init.
  - apply brun_snoc in H. destruct H as (b1 & s & H1 & H2).
    apply Forall_app in W. destruct W as [W1 W2]. inversion W2; subst.
    eapply step_pos_row; [exact (run_tables_ok l b1 W1 H1) | assumption | exact Hn | | exact H2].
    now apply IH.
Qed.

(* what is known of the row of a bit after a run *)
Definition bit_row (b : busses) (l : list bop) (i : nat) (w n : string) : Prop :=
  at_ (bits b) "value" i = Some (bit_after n l) /\
  exists c, at_ (bits b) "capture" i = Some c /\ same c (capture_after n w l).

Lemma fold_word_same : forall w ch c c', same c c' ->
  same (fold_left (word_change w) ch c) (fold_left (word_change w) ch c').
Proof.
  intros w ch; induction ch as [|kv r IH]; intros c c' H; cbn [fold_left]; auto.
  apply IH. unfold word_change. destruct (String.eqb _ _); auto. apply same_refl.
Qed.

Lemma bit_row_init : forall i w n, nth_error (flat pcap) i = Some (w, n) ->
  bit_row (create_busses ds pcap pos) [] i w n.
Proof.
  intros i w n H. rewrite create_eq. unfold bit_row. cbn [bits].
  assert (A : forall c : cell, nth_error (map (fun _ : string => c) (map snd (flat pcap))) i = Some c).
  { intro c. rewrite !nth_error_map, H. reflexivity. }
  split.
  - unfold at_. cbn. apply A.
  - exists (CB false). split; [unfold at_; cbn; apply A | reflexivity].
Qed.

Lemma step_bit_row : forall b l o b' s i w n, tables_ok ds pcap pos b -> op_wf o ->
  nth_error (flat pcap) i = Some (w, n) -> bit_row b l i w n -> bstep b o = (b', s, None) ->
  bit_row b' (l ++ [o]) i w n.
Proof.
  intros b l o b' s i w n T W Hn R H.
  assert (ST := tk_static _ _ _ _ T).
  destruct R as (R1 & c & R2 & R3).
  unfold bit_row, bit_after, capture_after. rewrite !fold_left_app.
  cbn [fold_left]. fold (bit_after n l). fold (capture_after n w l).
  destruct o as [ch|t r|t r]; cbn [bstep] in H; cbn [bit_step capture_step].
  - unfold handle_changes in H.
    destruct (handle_each b ch ([], [], pos_values b)) as [[[bc pc]|e] vals] eqn:E; [|discriminate].
    injection H as <- <-. cbn [bits with_tables].
    assert (Q := each_row_bit ds pcap pos b HW ST i w n Hn _ _ _ _ _ _ _ (bit_after n l) c E).
    destruct Q as (Q1 & Q2 & Q3).
    { split; [apply wf_nil|]. split; assumption. }
    rewrite !at_make_updated by exact Q1. split; [exact Q2|].
    eexists. split; [exact Q3|]. now apply fold_word_same.
  - unfold set_bits in H.
    destruct (get_column_changes (bits b) t) as [chg|] eqn:G; [|discriminate].
    assert (E : b' = with_tables b (make_updated_table (bits b) chg) (positions b) (pos_values b)).
    { destruct (dget "capture" chg); [|congruence].
      destruct (capture_fields b l0 (names t) []); [|discriminate].
      destruct r; [discriminate|]. congruence. }
    subst b'. cbn [bits with_tables].
    apply get_column_changes_spec in G.
    2:{ rewrite (tk_bkeys _ _ _ _ T). apply bkeys_nodup. }
    2:{ rewrite (names_of _ _ (tk_bname _ _ _ _ T)). apply (hw_bits _ _ HW). }
    2:{ exact W. }
    destruct G as (G1 & G2 & G3).
    rewrite (names_of _ _ (tk_bname _ _ _ _ T)) in G3.
    rewrite !at_make_updated by exact G1. split.
    + unfold cur. rewrite G2; [exact R1|]. intros [_ A]. congruence.
    + assert (G4 := G3 n i "capture"%string). unfold wanted.
      rewrite nth_error_map, Hn in G4. specialize (G4 eq_refl).
      specialize (G4 (column_ordinary Capture)).
      assert (D : dmem "capture" (bits b) = true).
      { apply dmem_In. rewrite (tk_bkeys _ _ _ _ T). destruct ds; cbn; auto 10. }
      specialize (G4 D). destruct (find_row 0 n (names t)) as [j|].
      * destruct G4 as (o & x & B1 & B2 & B3). rewrite B2, B3.
        destruct (cell_eqb o x) eqn:Q.
        -- exists o. split; [auto|]. now apply cell_eqb_same.
        -- exists x. split; [auto|]. apply same_refl.
      * rewrite G4. eauto.
  - assert (E : bits b' = bits b).
    { unfold set_positions in H. destruct (get_column_changes (positions b) t) as [chg|]; [|discriminate].
      destruct (send_columns (names (positions b)) chg r attrs []) as [sent [e|]]; [discriminate|].
      injection H as <- _. reflexivity. }
    rewrite E. split; [exact R1|]. exists c. auto.
Qed.

Lemma run_bit_row : forall l b' i w n, Forall op_wf l -> nth_error (flat pcap) i = Some (w, n) ->
  brun (create_busses ds pcap pos) l = (b', true) -> bit_row b' l i w n.
Proof.
  intro l; induction l as [|o l IH] using rev_ind; intros b' i w n W Hn H.
  - injection H as <-. now apply bit_row_init.
  - apply brun_snoc in H. destruct H as (b1 & s & H1 & H2).
    apply Forall_app in W. destruct W as [W1 W2]. inversion W2; subst.
    eapply step_bit_row; [exact (run_tables_ok l b1 W1 H1) | assumption | exact Hn | | exact H2].
    now apply IH.
Qed.

End Steps.
