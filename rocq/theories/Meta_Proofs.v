From Coq Require Import String Ascii Bool ZArith QArith Lia List.
From Verif Require Import Base Meta_Model Meta_Spec.
Import ListNotations.
Local Open Scope string_scope.
Local Open Scope list_scope.
Local Open Scope nat_scope.

(* ---------------- maps ---------------- *)
Lemma map_args_keys es ps fill args : map_args es ps fill = Ok args ->
  dkeys args = filter (fun k => fill || dmem k ps) (dkeys es).
Proof.
  revert args. induction es as [|[k m] r IH]; intros args H; cbn [map_args] in H.
  - injection H as <-. reflexivity.
  - cbn [dkeys map fst filter]. fold (dkeys r). unfold dmem at 1. destruct (dget k ps) as [v|].
    + destruct (m v); [|discriminate]. destruct (map_args r ps fill) as [l|]; [|discriminate].
      injection H as <-. rewrite orb_true_r. cbn [dkeys map fst]. f_equal. now apply IH.
    + rewrite orb_false_r. destruct fill.
      * destruct (m PNone); [|discriminate]. destruct (map_args r ps true) as [l|]; [|discriminate].
        injection H as <-. cbn [dkeys map fst]. f_equal. now apply IH.
      * now apply IH.
Qed.
Lemma map_args_get es ps fill args k m : NoDup (dkeys es) -> map_args es ps fill = Ok args ->
  In (k, m) es ->
  match dget k ps with
  | Some v => exists x, m v = Ok x /\ dget k args = Some x
  | None => if fill then exists x, m PNone = Ok x /\ dget k args = Some x else dget k args = None
  end.
Proof.
  revert args. induction es as [|[k0 m0] r IH]; intros args Hn H Hi; [destruct Hi|].
  cbn [dkeys map fst] in Hn. inversion Hn as [|a b Ha Hb]; subst. fold (dkeys r) in *.
  cbn [map_args] in H. destruct Hi as [Hi|Hi].
  - injection Hi as -> ->. destruct (dget k ps) as [v|].
    + destruct (m v) as [x|] eqn:E; [|discriminate]. destruct (map_args r ps fill); [|discriminate].
      injection H as <-. exists x. cbn [dget]. rewrite String.eqb_refl. auto.
    + destruct fill.
      * destruct (m PNone) as [x|] eqn:E; [|discriminate]. destruct (map_args r ps true); [|discriminate].
        injection H as <-. exists x. cbn [dget]. rewrite String.eqb_refl. auto.
      * apply dget_None_notin. rewrite (map_args_keys _ _ _ _ H). intros Hf.
        apply filter_In in Hf as [Hf _]. contradiction.
  - assert (Hne : k <> k0).
    { intros ->. apply Ha. apply in_map with (f := fst) in Hi. exact Hi. }
    assert (Hr : exists l, map_args r ps fill = Ok l /\ dget k args = dget k l).
    { destruct (dget k0 ps) as [v|].
      - destruct (m0 v); [|discriminate]. destruct (map_args r ps fill) as [l|]; [|discriminate].
        injection H as <-. exists l. split; [reflexivity|]. cbn [dget].
        destruct (String.eqb_spec k k0); [contradiction|reflexivity].
      - destruct fill.
        + destruct (m0 PNone); [|discriminate]. destruct (map_args r ps true) as [l|]; [|discriminate].
          injection H as <-. exists l. split; [reflexivity|]. cbn [dget].
          destruct (String.eqb_spec k k0); [contradiction|reflexivity].
        + exists args. auto. }
    destruct Hr as (l & Hl & ->). now apply IH.
Qed.
Lemma map_args_ok es ps fill :
  (forall k m, In (k, m) es ->
     (forall v, dget k ps = Some v -> exists x, m v = Ok x) /\
     (fill = true -> dget k ps = None -> exists x, m PNone = Ok x)) ->
  exists args, map_args es ps fill = Ok args.
Proof.
  induction es as [|[k m] r IH]; intros H; cbn [map_args]; [eauto|].
  destruct IH as (l & Hl); [intros; apply H; now right|]. rewrite Hl.
  destruct (H k m (or_introl eq_refl)) as [H1 H2]. destruct (dget k ps) as [v|].
  - destruct (H1 v eq_refl) as (x & ->). eauto.
  - destruct fill; [|eauto]. destruct (H2 eq_refl eq_refl) as (x & ->). eauto.
Qed.
(* validating the result again *)
Lemma map_args_again es args fill : NoDup (dkeys es) ->
  (forall k m v x, In (k, m) es -> m v = Ok x -> m x = Ok x) ->
  forall ps b, map_args es ps b = Ok args -> (fill = true -> b = true) ->
  map_args es args fill = Ok args.
Proof.
  intros Hn Hid ps b H Hb.
  assert (Hgen : forall es0, incl es0 es -> NoDup (dkeys es0) -> forall a0, map_args es0 ps b = Ok a0 ->
    (forall k, In k (dkeys es0) -> dget k args = dget k a0) -> map_args es0 args fill = Ok a0).
  { induction es0 as [|[k m] r IH]; intros Hin Hn0 a0 H0 Hg; cbn [map_args] in *; [assumption|].
    cbn [dkeys map fst] in Hn0. inversion Hn0 as [|u w Hu Hw]; subst. fold (dkeys r) in *.
    assert (Hk : dget k args = dget k a0) by (apply Hg; now left).
    pose proof (map_args_get ((k, m) :: r) ps b a0 k m Hn0 H0 (or_introl eq_refl)) as Hget.
    assert (Htail : forall l, map_args r ps b = Ok l ->
              (forall j, In j (dkeys r) -> dget j a0 = dget j l) -> map_args r args fill = Ok l).
    { intros l Hl Hj. apply IH; auto.
      - intros z Hz. apply Hin. now right.
      - intros j Hj'. rewrite Hg by now right. auto. }
    rewrite Hk. destruct (dget k ps) as [v|].
    - destruct Hget as (x & Hx & Hxa). rewrite Hxa. rewrite (Hid k m v x (Hin _ (or_introl eq_refl)) Hx).
      rewrite Hx in H0. destruct (map_args r ps b) as [l|]; [|discriminate]. injection H0 as <-.
      rewrite (Htail l eq_refl); [reflexivity|]. intros j Hj. cbn [dget].
      destruct (String.eqb_spec j k); [subst; contradiction|reflexivity].
    - destruct b.
      + destruct Hget as (x & Hx & Hxa). rewrite Hxa. rewrite (Hid k m PNone x (Hin _ (or_introl eq_refl)) Hx).
        rewrite Hx in H0. destruct (map_args r ps true) as [l|]; [|discriminate]. injection H0 as <-.
        rewrite (Htail l eq_refl); [reflexivity|]. intros j Hj. cbn [dget].
        destruct (String.eqb_spec j k); [subst; contradiction|reflexivity].
      + rewrite Hget. destruct fill; [specialize (Hb eq_refl); discriminate|].
        apply Htail; auto. }
  apply Hgen; auto. intros z Hz. exact Hz.
Qed.

(* ---------------- choices ---------------- *)
Lemma key_eq_refl v : hashable v = true -> key_eq v v = true.
Proof.
  destruct v; cbn; try discriminate; intros _; unfold key_eq; cbn [as_number]; try apply Qeq_bool_refl.
  - reflexivity.
  - apply String.eqb_refl.
  - now rewrite Nat.eqb_refl, String.eqb_refl.
Qed.

(* key_eq is an equivalence *)
Lemma key_eq_sym a b : key_eq a b = key_eq b a.
Proof.
  unfold key_eq. destruct (as_number a) as [x|] eqn:Ea, (as_number b) as [y|] eqn:Eb; try reflexivity.
  - destruct (Qeq_bool x y) eqn:E1, (Qeq_bool y x) eqn:E2; try reflexivity.
    + apply Qeq_bool_iff in E1. symmetry in E1. apply Qeq_bool_iff in E1. congruence.
    + apply Qeq_bool_iff in E2. symmetry in E2. apply Qeq_bool_iff in E2. congruence.
  - destruct a, b; try reflexivity; try discriminate.
    + apply String.eqb_sym.
    + now rewrite Nat.eqb_sym, String.eqb_sym.
Qed.
Lemma key_eq_trans a b c : key_eq a b = true -> key_eq b c = true -> key_eq a c = true.
Proof.
  unfold key_eq. destruct (as_number a) as [x|] eqn:Ea, (as_number b) as [y|] eqn:Eb,
    (as_number c) as [z|] eqn:Ec; try discriminate.
  - intros H1 H2. apply Qeq_bool_iff in H1, H2. apply Qeq_bool_iff. now rewrite H1.
  - destruct a, b; try discriminate; destruct c; try discriminate; auto.
    + intros H1 H2. apply String.eqb_eq in H1, H2. subst. apply String.eqb_refl.
    + intros H1 H2. apply andb_true_iff in H1 as [A B], H2 as [C D].
      apply Nat.eqb_eq in A, C. apply String.eqb_eq in B, D. subst.
      now rewrite Nat.eqb_refl, String.eqb_refl.
Qed.
Lemma pget_pset_same k k2 v d : key_eq k2 k = true -> pget k2 (pset k v d) = Some v.
Proof.
  intros H. induction d as [|[k' v'] r IH]; cbn [pset pget].
  - now rewrite H.
  - destruct (key_eq k k') eqn:E; cbn [pget].
    + now rewrite (key_eq_trans _ _ _ H E).
    + destruct (key_eq k2 k') eqn:E2; [|exact IH].
      rewrite key_eq_sym in H. rewrite (key_eq_trans _ _ _ H E2) in E. discriminate.
Qed.
Lemma pget_pset_other k k2 v d : key_eq k2 k = false -> pget k2 (pset k v d) = pget k2 d.
Proof.
  intros H. induction d as [|[k' v'] r IH]; cbn [pset pget].
  - now rewrite H.
  - destruct (key_eq k k') eqn:E; cbn [pget].
    + destruct (key_eq k2 k') eqn:E2; [|reflexivity].
      rewrite key_eq_sym in E. rewrite (key_eq_trans _ _ _ E2 E) in H. discriminate.
    + now rewrite IH.
Qed.

(* every value in the lookup is a choice *)
Lemma pset_In k v d x : (forall k' v', In (k', v') d -> In v' x) -> In v x ->
  forall k' v', In (k', v') (pset k v d) -> In v' x.
Proof.
  intros Hd Hv. induction d as [|[a b] r IH]; cbn [pset].
  - intros k' v' [H|[]]. now injection H as <- <-.
  - destruct (key_eq k a).
    + intros k' v' [H|H]; [now injection H as <- <-|]. apply (Hd k'). now right.
    + intros k' v' [H|H]; [injection H as <- <-; apply (Hd a); now left|].
      revert H. apply IH. intros k2 v2 H2. apply (Hd k2). now right.
Qed.
Lemma pget_In k d v : pget k d = Some v -> exists k', In (k', v) d.
Proof.
  induction d as [|[a b] r IH]; cbn [pget]; [discriminate|].
  destruct (key_eq k a); intros H; [injection H as <-; exists a; now left|].
  destruct (IH H) as (k' & Hk). exists k'. now right.
Qed.
Lemma add_choices_In cs : forall i typ lk lk' all, add_choices cs i typ lk = Ok lk' -> incl cs all ->
  (forall k v, In (k, v) lk -> In v all) -> forall k v, In (k, v) lk' -> In v all.
Proof.
  induction cs as [|c r IH]; intros i typ lk lk' all H Hi Hlk; cbn [add_choices] in H.
  - injection H as <-. exact Hlk.
  - assert (Hc : In c all) by (apply Hi; now left).
    assert (Hr : incl r all) by (intros z Hz; apply Hi; now right).
    destruct c; try discriminate.
    + destruct typ; [discriminate|]. eapply IH; [exact H|exact Hr|].
      repeat (apply pset_In; auto).
    + destruct (match typ with Some k' => _ | None => _ end); [|discriminate].
      eapply IH; [exact H|exact Hr|]. repeat (apply pset_In; auto).
Qed.

(* which keys are there *)
Definition names (c : pv) (i : nat) (v : pv) : Prop :=
  key_eq v (PInt (Z.of_nat i)) = true \/ key_eq v c = true \/
  (exists s, known_by c s /\ v = PStr s).
Lemma pget_pset_iff k k2 v d : pget k2 (pset k v d) <> None <-> key_eq k2 k = true \/ pget k2 d <> None.
Proof.
  destruct (key_eq k2 k) eqn:E.
  - rewrite pget_pset_same by exact E. split; [now left|discriminate].
  - rewrite pget_pset_other by exact E. split; [now right|intros [H|H]; [discriminate|exact H]].
Qed.
Lemma key_str v s : key_eq v (PStr s) = true <-> v = PStr s.
Proof.
  unfold key_eq. split.
  - destruct v; cbn [as_number]; try discriminate. intros H. apply String.eqb_eq in H. now subst.
  - intros ->. cbn [as_number]. apply String.eqb_refl.
Qed.
Lemma add_choices_dom cs : forall i typ lk lk' v, add_choices cs i typ lk = Ok lk' ->
  (pget v lk' <> None <-> pget v lk <> None \/ exists j c, nth_error cs j = Some c /\ names c (i + j) v).
Proof.
  induction cs as [|c r IH]; intros i typ lk lk' v H; cbn [add_choices] in H.
  - injection H as <-. split; [now left|]. intros [H|(j & c & Hj & _)]; [exact H|]. destruct j; discriminate.
  - assert (Hstep : forall lk1 typ1, add_choices r (S i) typ1 lk1 = Ok lk' ->
      (pget v lk1 <> None <-> pget v lk <> None \/ names c i v) ->
      (pget v lk' <> None <-> pget v lk <> None \/ exists j c', nth_error (c :: r) j = Some c' /\ names c' (i + j) v)).
    { intros lk1 typ1 H1 He. rewrite (IH _ _ _ _ v H1), He. split.
      - intros [[A|A]|(j & c' & Hj & Hn)]; [now left| |].
        + right. exists 0, c. rewrite Nat.add_0_r. auto.
        + right. exists (S j), c'. rewrite Nat.add_succ_r. auto.
      - intros [A|(j & c' & Hj & Hn)]; [left; now left|]. destruct j as [|j]; cbn [nth_error] in Hj.
        + injection Hj as <-. rewrite Nat.add_0_r in Hn. left; now right.
        + right. exists j, c'. rewrite Nat.add_succ_r in Hn. auto. }
    destruct c; try discriminate.
    + destruct typ; [discriminate|]. eapply Hstep; [exact H|]. rewrite !pget_pset_iff.
      unfold names. cbn [known_by]. split.
      * intros [A|[A|A]]; auto.
      * intros [A|[A|[A|(s' & -> & ->)]]]; auto. right; left. apply key_eq_refl. reflexivity.
    + destruct (match typ with Some k' => _ | None => _ end); [|discriminate]. eapply Hstep; [exact H|].
      rewrite !pget_pset_iff. unfold names. cbn [known_by]. split.
      * intros [A|[A|[A|A]]]; auto. apply key_str in A. subst. right; right; right. eauto.
      * intros [A|[A|[A|(s' & -> & ->)]]]; auto. right; right; left. now apply key_str.
Qed.

(* a choice of one kind leads to itself *)
Lemma add_choices_self cs all : one_kind all -> forall i typ lk lk', add_choices cs i typ lk = Ok lk' ->
  incl cs all ->
  forall c, In c all -> (pget c lk = Some c \/ In c cs) -> pget c lk' = Some c.
Proof.
  intros Hk. induction cs as [|x r IH]; intros i typ lk lk' H Hi c Hc Hor; cbn [add_choices] in H.
  - injection H as <-. destruct Hor as [A|[]]. exact A.
  - assert (Hx : In x all) by (apply Hi; now left).
    assert (Hr : incl r all) by (intros z Hz; apply Hi; now right).
    destruct x as [| | | |s|k n v| | |]; try discriminate.
    + destruct typ; [discriminate|]. eapply IH; [exact H|exact Hr|exact Hc|].
      destruct Hk as [Hk|(k & Hk & _)]; [|destruct (Hk _ Hx) as (? & ? & ?); discriminate].
      destruct (Hk c Hc) as (t & ->).
      destruct Hor as [A|[A|A]]; [| |now right]; left; (rewrite pget_pset_other by reflexivity);
        destruct (key_eq (PStr t) (PStr s)) eqn:E.
      * rewrite pget_pset_same by exact E. apply key_str in E. now rewrite E.
      * now rewrite pget_pset_other.
      * rewrite pget_pset_same by exact E. now rewrite A.
      * injection A as ->. rewrite key_eq_refl in E by reflexivity. discriminate.
    + destruct (match typ with Some k' => _ | None => _ end); [|discriminate].
      eapply IH; [exact H|exact Hr|exact Hc|].
      destruct Hk as [Hk|(k0 & Hk & Hv)]; [destruct (Hk _ Hx) as (? & ?); discriminate|].
      destruct (Hk _ Hx) as (n1 & v1 & He). injection He as -> <- <-.
      destruct (Hk c Hc) as (m & w & ->).
      destruct Hor as [A|[A|A]]; [| |now right]; left; (rewrite pget_pset_other by reflexivity);
        destruct (key_eq (PEnum k0 m w) (PEnum k0 n v)) eqn:E.
      * rewrite pget_pset_same by exact E. unfold key_eq in E. cbn [as_number] in E.
        apply andb_true_iff in E as [_ E]. apply String.eqb_eq in E. subst m.
        now rewrite (Hv n v w Hx Hc).
      * rewrite pget_pset_other by exact E. now rewrite pget_pset_other.
      * rewrite pget_pset_same by exact E. now rewrite A.
      * injection A as -> ->. rewrite key_eq_refl in E by reflexivity. discriminate.
Qed.

Lemma each_ok f l ys : each f l = Ok ys -> Forall2 (fun x y => f x = Ok y) l ys.
Proof.
  revert ys. induction l as [|x r IH]; intros ys H; cbn [each] in H.
  - injection H as <-. constructor.
  - destruct (f x) eqn:E; [|discriminate]. destruct (each f r); [|discriminate].
    injection H as <-. constructor; auto.
Qed.
Lemma each_id f l : Forall (fun x => f x = Ok x) l -> each f l = Ok l.
Proof. induction 1 as [|x l Hx Hl IH]; cbn [each]; [reflexivity|]. now rewrite Hx, IH. Qed.

(* ---------------- tables ---------------- *)
Lemma same_lengths_spec t : same_lengths t = true <-> exists n, rect t n.
Proof.
  unfold rect. destruct t as [|[k c] r]; cbn [same_lengths].
  - split; [discriminate|]. intros (n & H & _). contradiction.
  - rewrite forallb_forall. split.
    + intros H. exists (length c). split; [discriminate|]. intros k' c' [E|Hi].
      * now injection E as -> ->.
      * specialize (H _ Hi). apply Nat.eqb_eq in H. cbn [snd] in H. congruence.
    + intros (n & _ & H) [k' c'] Hi. apply Nat.eqb_eq. cbn [snd].
      rewrite (H k c (or_introl eq_refl)), (H k' c' (or_intror Hi)). reflexivity.
Qed.
Lemma zip_rows_length n cols : (forall c, In c cols -> length c = n) -> length (zip_rows n cols) = n.
Proof.
  revert cols. induction n as [|n IH]; intros cols H; cbn [zip_rows]; [reflexivity|].
  assert (Hne : existsb (fun c : list pv => match c with [] => true | _ => false end) cols = false).
  { apply not_true_is_false. intros He. apply existsb_exists in He as (c & Hc & Hn).
    destruct c; [|discriminate]. specialize (H _ Hc). discriminate. }
  rewrite Hne. cbn [length]. f_equal. apply IH. intros c Hc. apply in_map_iff in Hc as (d & <- & Hd).
  specialize (H _ Hd). destruct d; cbn in *; lia.
Qed.
Lemma zip_rows_nth n cols i : (forall c, In c cols -> length c = n) -> i < n ->
  nth_error (zip_rows n cols) i = Some (map (fun c => nth i c PNone) cols).
Proof.
  revert cols i. induction n as [|n IH]; intros cols i H Hi; [lia|]. cbn [zip_rows].
  assert (Hne : existsb (fun c : list pv => match c with [] => true | _ => false end) cols = false).
  { apply not_true_is_false. intros He. apply existsb_exists in He as (c & Hc & Hn).
    destruct c; [|discriminate]. specialize (H _ Hc). discriminate. }
  rewrite Hne. destruct i as [|i]; cbn [nth_error].
  - f_equal. apply map_ext. intros [|x c]; reflexivity.
  - rewrite IH; [|intros c Hc; apply in_map_iff in Hc as (d & <- & Hd); specialize (H _ Hd); destruct d; cbn in *; lia|lia].
    f_equal. rewrite map_map. apply map_ext. intros [|x c]; [destruct i|]; reflexivity.
Qed.

(* from_rows adds a value to each column *)
Lemma add_row_spec keys row attrs : NoDup keys -> length row = length keys -> dkeys attrs = keys ->
  add_row keys row attrs = map (fun kx => (fst (fst kx), snd (fst kx) ++ [snd kx])) (combine attrs row).
Proof.
  intros Hn Hl Hk.
  assert (G : forall pre keys row attrs, NoDup (dkeys (pre ++ attrs)) -> length row = length keys ->
    dkeys attrs = keys ->
    add_row keys row (pre ++ attrs) = pre ++ map (fun kx => (fst (fst kx), snd (fst kx) ++ [snd kx])) (combine attrs row)).
  { clear. intros pre keys. revert pre. induction keys as [|k ks IH]; intros pre row attrs Hn Hl Hk.
    - destruct attrs; [|discriminate]. destruct row; [|discriminate]. reflexivity.
    - destruct attrs as [|[k' c] r]; [discriminate|]. cbn [dkeys map fst] in Hk. injection Hk as -> Hk.
      destruct row as [|x xs]; [discriminate|]. cbn [add_row combine map fst snd].
      assert (Hget : dget k (pre ++ (k, c) :: r) = Some c).
      { apply dget_In_nodup; [exact Hn|]. apply in_or_app. right. now left. }
      rewrite Hget.
      assert (Hset : dset k (c ++ [x]) (pre ++ (k, c) :: r) = (pre ++ [(k, c ++ [x])]) ++ r).
      { assert (Hnp : ~ In k (dkeys pre)).
        { unfold dkeys in Hn. rewrite map_app in Hn. apply NoDup_remove_2 in Hn.
          intros Hx. apply Hn. apply in_or_app. now left. }
        clear - Hnp. induction pre as [|[a b] p IHp]; cbn [app dset dkeys map fst] in *.
        - now rewrite String.eqb_refl.
        - destruct (String.eqb_spec k a) as [->|Hne]; [exfalso; apply Hnp; now left|].
          f_equal. apply IHp. intros Hx. apply Hnp. now right. }
      rewrite Hset, IH; [now rewrite <- app_assoc| |now injection Hl|exact Hk].
      unfold dkeys in *. rewrite !map_app in *. cbn [map fst] in *. now rewrite <- app_assoc. }
  apply (G [] keys row attrs); auto. cbn [app]. now rewrite Hk.
Qed.
Lemma combine_nth_cols (attrs : table) (row : list pv) :
  length row = length attrs ->
  map (fun kx => (fst (fst kx), snd (fst kx) ++ [snd kx])) (combine attrs row)
  = map (fun i => (fst (nth i attrs ("", [])), snd (nth i attrs ("", [])) ++ [nth i row PNone])) (seq 0 (length attrs)).
Proof.
  revert row. induction attrs as [|a r IH]; intros [|x xs] H; try discriminate; [reflexivity|].
  cbn [combine map length seq]. f_equal. rewrite IH by (now injection H). rewrite <- seq_shift, map_map.
  reflexivity.
Qed.
Lemma from_rows_gen keys rows : NoDup keys -> (forall r, In r rows -> length r = length keys) ->
  forall attrs, dkeys attrs = keys ->
  fold_left (fun a r => add_row keys r a) rows attrs
  = map (fun i => (nth i keys "", snd (nth i attrs ("", [])) ++ map (fun r => nth i r PNone) rows)) (seq 0 (length keys)).
Proof.
  intros Hn. induction rows as [|r rows IH]; intros Hl attrs Hk; cbn [fold_left map].
  - subst keys. clear. unfold dkeys. induction attrs as [|[k c] r IH]; [reflexivity|].
    cbn [map length seq fst nth snd]. rewrite app_nil_r. f_equal. rewrite <- seq_shift, map_map.
    rewrite IH at 1. apply map_ext. intros i. reflexivity.
  - rewrite add_row_spec; auto; [|apply Hl; now left].
    assert (Hlen : length r = length attrs).
    { rewrite (Hl r (or_introl eq_refl)), <- Hk. unfold dkeys. now rewrite map_length. }
    rewrite combine_nth_cols by exact Hlen.
    assert (Hal : length attrs = length keys) by (rewrite <- Hk; unfold dkeys; now rewrite map_length).
    rewrite IH.
    + apply map_ext_in. intros i Hi. apply in_seq in Hi.
      f_equal. cbn [plus] in Hi.
      rewrite nth_indep with (d' := (fun i => (fst (nth i attrs ("", [])), snd (nth i attrs ("", [])) ++ [nth i r PNone])) 0)
        by (rewrite map_length, seq_length; lia).
      rewrite (map_nth (fun i => (fst (nth i attrs ("", [])), snd (nth i attrs ("", [])) ++ [nth i r PNone]))).
      rewrite seq_nth by lia. cbn [snd plus]. now rewrite <- app_assoc.
    + intros x Hx. apply Hl. now right.
    + unfold dkeys. rewrite map_map. cbn [fst]. rewrite <- Hk. clear.
      unfold dkeys. induction attrs as [|[k c] l IH]; [reflexivity|]. cbn [map length seq fst nth].
      f_equal. rewrite <- seq_shift, map_map. exact IH.
Qed.
Lemma from_rows_spec keys rows : NoDup keys -> (forall r, In r rows -> length r = length keys) ->
  from_rows keys rows = map (fun i => (nth i keys "", map (fun r => nth i r PNone) rows)) (seq 0 (length keys)).
Proof.
  intros Hn Hl. unfold from_rows. rewrite from_rows_gen; auto.
  - apply map_ext_in. intros i Hi. apply in_seq in Hi. f_equal.
    pose proof (map_nth (fun k => (k, @nil pv)) keys "" i) as Hm. cbv beta in Hm. rewrite Hm. reflexivity.
  - unfold dkeys. rewrite map_map. cbn [fst]. apply map_id.
Qed.

(* ---------------- tags ---------------- *)
Lemma after_app p s : after p (p ++ s)%string = Some s.
Proof. induction p as [|c p IH]; cbn [append after]; [reflexivity|]. now rewrite Ascii.eqb_refl. Qed.
Lemma after_spec p s r : after p s = Some r <-> s = (p ++ r)%string.
Proof.
  split; [|intros ->; apply after_app].
  revert s. induction p as [|c p IH]; intros s; cbn [after append]; [intros H; now injection H|].
  destruct s as [|d s]; [discriminate|]. destruct (Ascii.eqb_spec c d); [|discriminate].
  intros H. subst. f_equal. now apply IH.
Qed.
Lemma line_id s : no_char "010"%char s -> line s = s.
Proof.
  unfold no_char. induction s as [|c s IH]; cbn [line list_ascii_of_string]; [reflexivity|].
  intros H. destruct (Ascii.eqb_spec c "010"%char) as [->|Hne]; [exfalso; apply H; now left|].
  f_equal. apply IH. intros Hi. apply H. now right.
Qed.
Lemma last_colon_none s : no_char ":"%char s -> last_colon s = None.
Proof.
  unfold no_char. induction s as [|c s IH]; cbn [last_colon list_ascii_of_string]; [reflexivity|].
  intros H. rewrite IH by (intros Hi; apply H; now right).
  destruct (Ascii.eqb_spec c ":"%char) as [->|Hne]; [exfalso; apply H; now left|reflexivity].
Qed.
Lemma last_colon_app a b : no_char ":"%char b -> last_colon (a ++ ":" ++ b)%string = Some (a, b).
Proof.
  intros Hb. induction a as [|c a IH].
  - cbn [append last_colon]. now rewrite last_colon_none.
  - cbn [append last_colon]. cbn [append] in IH. now rewrite IH.
Qed.
Lemma line_app a b : no_char "010"%char a -> line (a ++ b)%string = (a ++ line b)%string.
Proof.
  unfold no_char. induction a as [|c a IH]; cbn [append line list_ascii_of_string]; [reflexivity|].
  intros H. destruct (Ascii.eqb_spec c "010"%char) as [->|Hne]; [exfalso; apply H; now left|].
  f_equal. apply IH. intros Hi. apply H. now right.
Qed.
Lemma port_no_nl p : no_char "010"%char (port_value p ++ ":")%string.
Proof. unfold no_char. destruct p; cbn; intuition discriminate. Qed.
Lemma port_of_value p : port_of (port_value p) = Some p.
Proof. destruct p; reflexivity. Qed.
Lemma str_app_assoc a b c : ((a ++ b) ++ c = a ++ b ++ c)%string.
Proof. induction a as [|x a IH]; cbn [append]; [reflexivity|]. now rewrite IH. Qed.
Lemma port_match_tag b p v : no_char ":"%char v -> no_char "010"%char v ->
  port_match (port_tag b p v) = Some (b, port_value p, v).
Proof.
  intros Hc Hn. unfold port_match, port_tag.
  assert (Hl : line (port_value p ++ ":" ++ v)%string = (port_value p ++ ":" ++ v)%string).
  { rewrite <- str_app_assoc. rewrite line_app by apply port_no_nl. now rewrite line_id. }
  destruct b.
  - rewrite after_app, Hl, last_colon_app by exact Hc. reflexivity.
  - change (after "sourcePort:" ("sinkPort:" ++ port_value p ++ ":" ++ v)%string) with (@None string).
    rewrite after_app, Hl, last_colon_app by exact Hc. reflexivity.
Qed.
