(** Proofs for C13-C16. *)
From Coq Require Import String Bool ZArith Lia List Permutation.
From Verif Require Import Base Scan_Model Scan_Spec.
Import ListNotations.
Local Open Scope Z_scope.
Ltac inv H := inversion H; subst; clear H.

(** ** C13: sizes of runs *)

Lemma moved_smem : forall axes d, moved axes d = existsb (fun a => smem a axes) (d_axes d).
Proof. intros; unfold moved, smem. reflexivity. Qed.

Lemma size_of_cons : forall f d r, size_of f (d :: r) = (if f d then d_size d else 1) * size_of f r.
Proof.
  intros f d r; unfold size_of; cbn [filter]; destruct (f d); cbn [map fold_right]; ring.
Qed.

Lemma size_of_app : forall f l1 l2, size_of f (l1 ++ l2) = size_of f l1 * size_of f l2.
Proof.
  induction l1 as [|d r IH]; intros l2.
  - change (size_of f []) with 1. rewrite Z.mul_1_l. reflexivity.
  - simpl app. rewrite !size_of_cons, IH. ring.
Qed.

Lemma size_of_rev : forall f l, size_of f (rev l) = size_of f l.
Proof.
  induction l as [|d r IH]; simpl; auto. rewrite size_of_app, IH, !size_of_cons.
  change (size_of f []) with 1. ring.
Qed.

Lemma gen_size_split : forall f l, gen_size l = size_of f l * size_of (fun d => negb (f d)) l.
Proof.
  induction l as [|d r IH].
  - reflexivity.
  - rewrite !size_of_cons. unfold gen_size in *; cbn [fold_right]. rewrite IH. destruct (f d); cbn [negb]; ring.
Qed.

Lemma size_of_pos : forall f l, Forall (fun d => 0 < d_size d) l -> 0 < size_of f l.
Proof.
  induction l as [|d r IH]; intros H.
  - unfold size_of; simpl; lia.
  - inv H. rewrite size_of_cons. specialize (IH H3). destruct (f d); nia.
Qed.

Lemma consume_ok : forall axes s rest, consume axes s = Ok rest ->
  (forall a, In a axes -> In a s) /\ (forall b, In b rest <-> In b s /\ ~ In b axes).
Proof.
  induction axes as [|a r IH]; intros s rest H; simpl in H.
  - injection H as <-. split; [intros; contradiction | intros; simpl; tauto].
  - destruct (smem a s) eqn:E; [|discriminate]. apply smem_In in E.
    apply IH in H. destruct H as [H1 H2].
    assert (Hr : forall b, In b (sremove a s) <-> In b s /\ b <> a).
    { intros b; unfold sremove. rewrite filter_In, negb_true_iff, String.eqb_neq. tauto. }
    split.
    + intros b [->|Hb]; auto. apply H1 in Hb. apply Hr in Hb; tauto.
    + intros b. rewrite H2, Hr. simpl. split; intuition congruence.
Qed.

Lemma moved_iff : forall axes d, moved axes d = true <-> exists a, In a (d_axes d) /\ In a axes.
Proof.
  intros; rewrite moved_smem, existsb_exists; split; intros (a & H1 & H2); exists a; split; auto;
    now apply smem_In.
Qed.

Lemma size_of_ext : forall f g l, (forall d, In d l -> f d = g d) -> size_of f l = size_of g l.
Proof.
  induction l as [|d r IH]; intros H; auto. rewrite !size_of_cons, IH, (H d); simpl; auto.
  intros; apply H; simpl; auto.
Qed.

Lemma size_of_false : forall f l, (forall d, In d l -> f d = false) -> size_of f l = 1.
Proof.
  induction l as [|d r IH]; intros H; auto. rewrite size_of_cons, IH, (H d); simpl; auto.
  intros; apply H; simpl; auto.
Qed.

Lemma NoDup_app_r : forall (A : Type) (l1 l2 : list A), NoDup (l1 ++ l2) -> NoDup l2.
Proof. induction l1; simpl; intros l2 H; auto. inv H. auto. Qed.

Lemma inner_steps_spec : forall rdims s k v,
  Forall (fun d => d_axes d <> []) rdims -> NoDup (concat (map d_axes rdims)) ->
  inner_steps rdims s k = Ok v -> v = k * size_of (moved s) rdims.
Proof.
  induction rdims as [|d r IH]; intros s k v Hne Hnd H; simpl in H.
  - injection H as <-. unfold size_of; simpl; lia.
  - inv Hne. destruct (d_axes d) as [|a ax] eqn:Ea; [congruence|].
    destruct s as [|b s].
    + injection H as <-. rewrite size_of_false; [lia|].
      intros d' _. destruct (moved [] d') eqn:E; auto. apply moved_iff in E.
      destruct E as (x & _ & []).
    + destruct (consume (a :: ax) (b :: s)) as [rest|] eqn:Ec; [|discriminate].
      apply consume_ok in Ec. destruct Ec as [Hc1 Hc2].
      assert (Hnr : NoDup (concat (map d_axes r))).
      { simpl in Hnd. eapply NoDup_app_r; eauto. }
      apply IH in H; auto. subst v. rewrite size_of_cons.
      assert (Hm : moved (b :: s) d = true).
      { apply moved_iff. exists a. rewrite Ea. split; [simpl; auto|]. apply Hc1; simpl; auto. }
      rewrite Hm.
      rewrite (size_of_ext (moved rest) (moved (b :: s)) r); [ring|].
      intros d' Hd'.
      destruct (moved rest d') eqn:E1; destruct (moved (b :: s) d') eqn:E2; auto.
      * apply moved_iff in E1. destruct E1 as (x & Hx1 & Hx2). apply Hc2 in Hx2.
        assert (moved (b :: s) d' = true) by (apply moved_iff; exists x; tauto). congruence.
      * apply moved_iff in E2. destruct E2 as (x & Hx1 & Hx2).
        assert (Hn : ~ In x (d_axes d)).
        { intros Hx. simpl in Hnd. 
          assert (Hxr : In x (concat (map d_axes r))).
          { apply in_concat. exists (d_axes d'). split; auto. now apply in_map. }
          apply in_split in Hx. destruct Hx as (l1 & l2 & Hl). rewrite Hl in Hnd.
          rewrite <- app_assoc in Hnd. simpl in Hnd. apply NoDup_remove_2 in Hnd.
          apply Hnd. rewrite !in_app_iff. tauto. }
        rewrite Ea in Hn.
        assert (moved rest d' = true) by (apply moved_iff; exists x; rewrite Hc2; tauto).
        congruence.
Qed.

Lemma well_formed_rev : forall dims, well_formed dims -> well_formed (rev dims).
Proof.
  intros dims [H1 H2]. split.
  - apply Forall_rev; auto.
  - rewrite map_rev. revert H2. generalize (map d_axes dims). clear.
    intros l H. assert (Hp : Permutation (concat l) (concat (rev l))).
    { clear H. induction l as [|a r IH]; simpl; auto. rewrite concat_app; simpl. rewrite app_nil_r.
      rewrite IH. apply Permutation_app_comm. }
    eapply Permutation_NoDup; eauto.
Qed.

Lemma inner_spec : forall dims axes v, well_formed dims ->
  inner_steps (rev dims) axes 1 = Ok v -> v = size_of (moved axes) dims.
Proof.
  intros dims axes v Hw H. apply well_formed_rev in Hw. destruct Hw as [H1 H2].
  apply inner_steps_spec in H; auto.
  - rewrite size_of_rev in H. lia.
  - eapply Forall_impl; [|exact H1]. simpl; tauto.
Qed.

Lemma outer_fold : forall axes l acc,
  fold_left (fun acc d => if existsb (fun a => smem a axes) (d_axes d) then acc else acc * d_size d) l acc
  = acc * size_of (fun d => negb (moved axes d)) l.
Proof.
  induction l as [|d r IH]; intros acc; simpl.
  - unfold size_of; simpl; lia.
  - rewrite IH, size_of_cons, moved_smem. destruct (existsb _ (d_axes d)); cbn [negb]; ring.
Qed.

Lemma outer_spec : forall dims axes, outer_steps dims axes = size_of (fun d => negb (moved axes d)) dims.
Proof. intros; unfold outer_steps; rewrite outer_fold, size_of_rev; lia. Qed.

Lemma zsum_app : forall l1 l2, zsum (l1 ++ l2) = zsum l1 + zsum l2.
Proof. induction l1; intros; simpl; auto. unfold zsum in *; simpl. rewrite IHl1. lia. Qed.

Lemma zsum_repeat : forall l n, zsum (repeat_list l n) = Z.of_nat n * zsum l.
Proof. induction n; simpl repeat_list; [simpl; lia|]. rewrite zsum_app, IHn. lia. Qed.

Lemma Forall_repeat_list : forall P l n, Forall P l -> Forall P (repeat_list l n).
Proof. induction n; simpl; intros; auto. apply Forall_app; auto. Qed.

Lemma running_totals_gen : forall l a,
  map (fun i => a + zsum (firstn i l)) (seq 1 (length l)) = totals a l.
Proof.
  induction l as [|n r IH]; intros a; simpl; auto. f_equal.
  - unfold zsum; simpl; lia.
  - rewrite <- IH, <- seq_shift, map_map. apply map_ext. intros i. simpl.
    unfold zsum; simpl; lia.
Qed.

Lemma running_totals_spec : forall l, running_totals l = totals 0 l.
Proof.
  intros; unfold running_totals. rewrite <- running_totals_gen. apply map_ext; intros; lia.
Qed.

Lemma plan_with_breakpoints : forall dims axes bps p, well_formed dims ->
  bps <> [] -> Forall (fun n => 0 < n) bps -> get_steps_per_run dims axes bps = Ok p ->
  p_use p = true /\
  zsum bps <= size_of (moved axes) dims /\
  (exists rest, (rest = [] \/ exists n, rest = [n]) /\
      p_steps p = repeat_list (bps ++ rest) (Z.to_nat (size_of (fun d => negb (moved axes d)) dims)) /\
      zsum (bps ++ rest) = size_of (moved axes) dims) /\
  Forall (fun n => 0 < n) (p_steps p) /\
  zsum (p_steps p) = gen_size dims /\
  p_stops p = totals 0 (p_steps p) /\ p_steps p <> [].
Proof.
  intros dims axes bps p Hw Hb Hp H. unfold get_steps_per_run in H.
  destruct (inner_steps (rev dims) axes 1) as [v|] eqn:Ei; [|discriminate].
  apply inner_spec in Ei; auto.
  destruct bps as [|b bps]; [congruence|].
  destruct (zsum (b :: bps) <=? v) eqn:El; [|discriminate]. apply Z.leb_le in El.
  remember (b :: bps) as bs eqn:Hbs.
  injection H as <-. simpl. split; auto. rewrite <- Ei. split; auto.
  assert (Hsz : Forall (fun d => 0 < d_size d) dims).
  { eapply Forall_impl; [|exact (proj1 Hw)]. simpl; tauto. }
  assert (Ho : 0 < size_of (fun d => negb (moved axes d)) dims) by (apply size_of_pos; auto).
  rewrite !outer_spec.
  set (rest := if zsum bs <? v then [v - zsum bs] else []).
  assert (Hl : (if zsum bs <? v then bs ++ [v - zsum bs] else bs) = bs ++ rest).
  { unfold rest; destruct (zsum bs <? v); auto. now rewrite app_nil_r. }
  rewrite Hl.
  assert (Hs : zsum (bs ++ rest) = v).
  { rewrite zsum_app. unfold rest. destruct (zsum bs <? v) eqn:E; simpl.
    - lia.
    - apply Z.ltb_ge in E. lia. }
  split.
  { exists rest. split; [|split; auto]. unfold rest; destruct (zsum bs <? v); eauto. }
  assert (Hf : Forall (fun n => 0 < n) (bs ++ rest)).
  { apply Forall_app; split; auto. unfold rest. destruct (zsum bs <? v) eqn:E; auto.
    apply Z.ltb_lt in E. constructor; [lia|auto]. }
  split; [apply Forall_repeat_list; auto|].
  split. { rewrite zsum_repeat, Hs, Ei, Z2Nat.id by lia. rewrite (gen_size_split (moved axes)). ring. }
  split. { apply running_totals_spec. }
  destruct (Z.to_nat _) eqn:En; [lia|]. rewrite Hbs. simpl. discriminate.
Qed.

Lemma plan_without_breakpoints : forall dims axes p, well_formed dims ->
  get_steps_per_run dims axes [] = Ok p ->
  p = mk_plan [size_of (moved axes) dims] false [].
Proof.
  intros dims axes p Hw H. unfold get_steps_per_run in H.
  destruct (inner_steps (rev dims) axes 1) as [v|] eqn:Ei; [|discriminate].
  apply inner_spec in Ei; auto. injection H as <-. now subst.
Qed.

Lemma plan_too_many : forall dims axes bps, well_formed dims -> bps <> [] ->
  size_of (moved axes) dims < zsum bps -> exists e, get_steps_per_run dims axes bps = Err e.
Proof.
  intros dims axes bps Hw Hb H. unfold get_steps_per_run.
  destruct (inner_steps (rev dims) axes 1) as [v|e] eqn:Ei; [|eauto].
  apply inner_spec in Ei; auto. destruct bps as [|b bps]; [congruence|].
  destruct (zsum (b :: bps) <=? v) eqn:E; eauto. apply Z.leb_le in E. lia.
Qed.

(** ** Stopping points *)

Definition pos (l : list Z) := Forall (fun n => 0 < n) l.

Lemma zsum_nonneg : forall l, pos l -> 0 <= zsum l.
Proof. induction 1; unfold zsum in *; simpl; lia. Qed.

Lemma zsum_cons : forall a l, zsum (a :: l) = a + zsum l.
Proof. reflexivity. Qed.

Lemma totals_bounds : forall zs a v, pos zs -> In v (totals a zs) -> a < v <= a + zsum zs.
Proof.
  induction zs as [|n r IH]; intros a v Hp Hi; simpl in Hi; [contradiction|].
  inv Hp. rewrite zsum_cons. pose proof (zsum_nonneg r H2). destruct Hi as [<-|Hi]; [lia|].
  apply IH in Hi; auto. lia.
Qed.

Lemma totals_next : forall zs a i v, pos zs -> nth_error (totals a zs) i = Some v ->
  v < a + zsum zs ->
  exists n, nth_error zs (S i) = Some n /\ nth_error (totals a zs) (S i) = Some (v + n) /\ 0 < n.
Proof.
  induction zs as [|n r IH]; intros a i v Hp Hi Hv.
  - destruct i; discriminate.
  - inv Hp. rewrite zsum_cons in Hv. destruct i as [|i]; simpl in Hi.
    + injection Hi as <-. destruct r as [|m r]; [simpl in Hv; lia|].
      inv H2. exists m. simpl; auto.
    + apply IH in Hi; [|assumption|lia]. destruct Hi as (m & H3 & H4 & H5). exists m; auto.
Qed.

Lemma next_stop_exists : forall zs a n, pos zs -> n < a + zsum zs -> zs <> [] ->
  exists p, next_stop (totals a zs) n = Some p /\ n < p.
Proof.
  induction zs as [|m r IH]; intros a n Hp Hn Hz; [congruence|].
  inv Hp. unfold next_stop in *; simpl. destruct (n <? a + m) eqn:E.
  - apply Z.ltb_lt in E. eauto.
  - apply Z.ltb_ge in E. rewrite zsum_cons in Hn. destruct r as [|m' r'].
    + simpl in Hn. lia.
    + apply IH; auto; [lia|discriminate].
Qed.

Lemma next_stop_In : forall l n p, next_stop l n = Some p -> In p l /\ n < p.
Proof.
  intros l n p H. apply find_some in H. destruct H. split; auto. now apply Z.ltb_lt.
Qed.

Lemma next_stop_mono : forall l n m p, next_stop l n = Some p -> n <= m < p -> next_stop l m = Some p.
Proof.
  induction l as [|q r IH]; intros n m p H Hm; unfold next_stop in *; simpl in *; [discriminate|].
  destruct (n <? q) eqn:E.
  - injection H as ->. destruct (m <? p) eqn:E2; auto. apply Z.ltb_ge in E2; lia.
  - apply Z.ltb_ge in E. destruct (m <? q) eqn:E2.
    + apply Z.ltb_lt in E2. lia.
    + eapply IH; eauto.
Qed.

Lemma next_stop_pred : forall zs a p, pos zs -> In p (totals a zs) ->
  next_stop (totals a zs) (p - 1) = Some p.
Proof.
  induction zs as [|n r IH]; intros a p Hp Hi; simpl in *; [contradiction|].
  inv Hp. unfold next_stop in *; simpl. destruct Hi as [<-|Hi].
  - destruct (a + n - 1 <? a + n) eqn:E; auto. apply Z.ltb_ge in E; lia.
  - pose proof (totals_bounds _ _ _ H2 Hi). destruct (p - 1 <? a + n) eqn:E.
    + apply Z.ltb_lt in E. lia.
    + now apply IH.
Qed.

Lemma next_stop_after : forall zs a i v n, pos zs -> nth_error (totals a zs) i = Some v ->
  nth_error (totals a zs) (S i) = Some (v + n) -> next_stop (totals a zs) v = Some (v + n).
Proof.
  induction zs as [|m r IH]; intros a i v n Hp Hi Hn.
  - destruct i; discriminate.
  - inv Hp. unfold next_stop in *; simpl. destruct i as [|i].
    + simpl in Hi. injection Hi as <-. destruct (a + m <? a + m) eqn:E; [apply Z.ltb_lt in E; lia|].
      destruct r as [|m' r']; simpl in *; [discriminate|]. injection Hn as Hn. inv H2.
      rewrite <- Hn. destruct (a + m <? a + m + m') eqn:E2; auto. apply Z.ltb_ge in E2; lia.
    + simpl in Hi. assert (Hb := totals_bounds r (a + m) v H2 (nth_error_In _ _ Hi)).
      destruct (v <? a + m) eqn:E; [apply Z.ltb_lt in E; lia|]. eapply IH; eauto.
Qed.

Lemma find_index_spec : forall l n i, find_index n l = Some i ->
  exists p, nth_error l i = Some p /\ next_stop l n = Some p.
Proof.
  induction l as [|q r IH]; intros n i H; simpl in H; [discriminate|].
  unfold next_stop in *; simpl. destruct (q <=? n) eqn:E.
  - apply Z.leb_le in E. destruct (find_index n r) as [j|] eqn:Ej; [|discriminate].
    injection H as <-. apply IH in Ej. destruct (n <? q) eqn:E2; [apply Z.ltb_lt in E2; lia|]. auto.
  - apply Z.leb_gt in E. injection H as <-. destruct (n <? q) eqn:E2; [|apply Z.ltb_ge in E2; lia].
    exists q; auto.
Qed.

Lemma find_index_exists : forall l n p, next_stop l n = Some p -> exists i, find_index n l = Some i.
Proof.
  induction l as [|q r IH]; intros n p H; unfold next_stop in *; simpl in *; [discriminate|].
  destruct (q <=? n) eqn:E; eauto.
  apply Z.leb_le in E. destruct (n <? q) eqn:E2; [apply Z.ltb_lt in E2; lia|].
  apply IH in H. destruct H as [i ->]. simpl; eauto.
Qed.

Lemma totals_last : forall zs a, zs <> [] -> exists l, rev (totals a zs) = (a + zsum zs) :: l.
Proof.
  induction zs as [|n r IH]; intros a H; [congruence|].
  destruct r as [|m r].
  - simpl. exists []. f_equal. lia.
  - destruct (IH (a + n)) as [l Hl]; [discriminate|]. rewrite (zsum_cons n).
    change (totals a (n :: m :: r)) with ((a + n) :: totals (a + n) (m :: r)).
    cbn [rev]. rewrite Hl. exists (l ++ [a + n]). cbn [app]. f_equal. lia.
Qed.

Lemma totals_repeat : forall k m a n, 0 < k -> k * a <= n < k * (a + Z.of_nat m) ->
  next_stop (totals (k * a) (repeat k m)) n = Some (n + (k - n mod k)).
Proof.
  intros k m; induction m as [|m IH]; intros a n Hk Hn.
  - simpl in Hn. lia.
  - unfold next_stop in *; simpl.
    pose proof (Z.div_mod n k ltac:(lia)) as Hd. pose proof (Z.mod_pos_bound n k Hk) as Hm.
    destruct (n <? k * a + k) eqn:E.
    + apply Z.ltb_lt in E. f_equal.
      assert (n / k = a) by nia. nia.
    + apply Z.ltb_ge in E. replace (k * a + k) with (k * (a + 1)) by ring.
      apply IH; auto. nia.
Qed.

Lemma zsum_repeat1 : forall k m, zsum (repeat k m) = k * Z.of_nat m.
Proof. induction m; simpl repeat; [simpl; lia|]. rewrite zsum_cons, IHm. lia. Qed.

Lemma pos_repeat : forall k m, 0 < k -> pos (repeat k m).
Proof. induction m; simpl; intros; constructor; auto. apply IHm; auto. Qed.

(** ** The invariant of a scan in progress *)

Definition plan_ok (p : plan) (total : Z) (zs : list Z) : Prop :=
  pos zs /\ zs <> [] /\ total = zsum zs /\
  if p_use p then p_steps p = zs /\ p_stops p = totals 0 zs
  else exists k m, p_steps p = [k] /\ 0 < k /\ zs = repeat k m.

Lemma plan_ok_sizes : forall p total zs idx cf cm st nx pr ak, plan_ok p total zs ->
  run_sizes (mk_scan total p idx cf cm st nx pr ak) = zs.
Proof.
  intros p total zs idx cf cm st nx pr ak (H1 & H2 & H3 & H4).
  unfold run_sizes; simpl. destruct (p_use p).
  - tauto.
  - destruct H4 as (k & m & Hk & Hp & Hz). rewrite Hk.
    rewrite H3, Hz, zsum_repeat1. rewrite Z.mul_comm, Z.div_mul by lia. now rewrite Nat2Z.id.
Qed.

Lemma configure_plan_ok : forall dims axes bps s, well_formed dims -> pos bps ->
  configure dims axes bps = Ok s -> exists zs, plan_ok (s_plan s) (s_total s) zs.
Proof.
  intros dims axes bps s Hw Hb H. unfold configure in H.
  destruct (get_steps_per_run dims axes bps) as [p|] eqn:Eg; [|discriminate].
  destruct (nth_error (p_steps p) 0) eqn:E0; [|discriminate]. injection H as <-. simpl.
  assert (Hsz : Forall (fun d => 0 < d_size d) dims).
  { eapply Forall_impl; [|exact (proj1 Hw)]. simpl; tauto. }
  destruct bps as [|b bps].
  - apply plan_without_breakpoints in Eg; auto. subst p.
    set (k := size_of (moved axes) dims). set (o := size_of (fun d => negb (moved axes d)) dims).
    assert (Hk : 0 < k) by (apply size_of_pos; auto).
    assert (Ho : 0 < o) by (apply size_of_pos; auto).
    exists (repeat k (Z.to_nat o)). split; [now apply pos_repeat|]. split.
    { destruct (Z.to_nat o) eqn:E; [lia|]. discriminate. }
    split. { rewrite zsum_repeat1, Z2Nat.id by lia. apply gen_size_split. }
    simpl. exists k, (Z.to_nat o). auto.
  - destruct (plan_with_breakpoints dims axes (b :: bps) p) as (H1 & _ & _ & H2 & H3 & H4 & H5); auto.
    { discriminate. }
    exists (p_steps p). split; auto. split; auto. split; auto. rewrite H1. auto.
Qed.

Definition ask_ok (stp : list Z) (a : ask) : Prop :=
  match a with
  | AConfigure c n | APostRunArmed c n | ASeek c n => next_stop stp c = Some (c + n)
  | APostRunReady => True
  end.

Record inv (zs : list Z) (s : scan) : Prop := mk_inv {
  v_plan : plan_ok (s_plan s) (s_total s) zs;
  v_idx : exists i, nth_error (totals 0 zs) i = Some (s_configured s) /\
                    (if p_use (s_plan s) then s_idx s = i else s_idx s = 0%nat);
  v_nonneg : 0 <= s_completed s;
  v_seg : next_stop (totals 0 zs) (s_completed s) = Some (s_configured s) \/
          s_completed s = s_configured s;
  v_state : match s_state s with
            | Armed => s_completed s < s_configured s
            | Paused => s_completed s < s_configured s /\
                        s_next s = (if s_configured s <? s_total s then Armed else Finished)
            | Running => s_next s = (if s_configured s <? s_total s then Armed else Finished)
            | Finished => s_completed s = s_total s /\ s_configured s = s_total s
            end;
  v_asks : Forall (ask_ok (totals 0 zs)) (s_asks s)
}.

Lemma inv_stops : forall zs s, inv zs s -> stops s = totals 0 zs.
Proof.
  intros zs s I. unfold stops. destruct s as [t p i c d st nx pr ak].
  rewrite (plan_ok_sizes _ _ _ _ _ _ _ _ _ _ (v_plan _ _ I)). reflexivity.
Qed.

Lemma inv_bounds : forall zs s, inv zs s ->
  0 <= s_completed s <= s_configured s /\ 0 < s_configured s <= s_total s /\
  In (s_configured s) (totals 0 zs).
Proof.
  intros zs s I. destruct (v_idx _ _ I) as (i & Hi & _). apply nth_error_In in Hi.
  destruct (v_plan _ _ I) as (Hp & _ & Ht & _).
  pose proof (totals_bounds _ _ _ Hp Hi) as Hb. rewrite Ht.
  pose proof (v_nonneg _ _ I) as H0. split; [|split; [lia|auto]].
  destruct (v_seg _ _ I) as [H|H]; [apply next_stop_In in H; lia | lia].
Qed.

Lemma do_pause_spec : forall zs s c nx, inv zs s -> 0 <= c < s_total s ->
  exists p i, next_stop (totals 0 zs) c = Some p /\ nth_error (totals 0 zs) i = Some p /\ c < p /\
  (if p_use (s_plan s) then True else i = i) /\
  do_pause c nx s = Ok (mk_scan (s_total s) (s_plan s) (if p_use (s_plan s) then i else s_idx s)
                                p c nx (s_next s) (s_progress s) (ASeek c (p - c) :: s_asks s)).
Proof.
  intros zs s c nx I Hc. pose proof (v_plan _ _ I) as (Hp & Hz & Ht & Hu).
  destruct (next_stop_exists zs 0 c Hp) as (p & Hn & Hcp); [lia|auto|].
  destruct (find_index_exists _ _ _ Hn) as (i & Hi).
  destruct (find_index_spec _ _ _ Hi) as (p' & Hi' & Hn'). rewrite Hn in Hn'; injection Hn' as <-.
  exists p, i. split; auto. split; auto. split; auto. split; [destruct (p_use _); auto|].
  unfold do_pause. destruct (p_use (s_plan s)) eqn:Eu.
  - destruct Hu as [Hu1 Hu2]. rewrite Hu2. unfold get_breakpoint_index.
    destruct (totals_last zs 0 Hz) as (l & Hl). rewrite Hl.
    destruct (c =? 0 + zsum zs) eqn:E; [apply Z.eqb_eq in E; lia|]. rewrite Hi, Hi'.
    unfold steps_left. destruct (p =? 0) eqn:E0; [apply Z.eqb_eq in E0; lia|].
    rewrite Z.mod_small by lia. replace (c + (p - c)) with p by lia. reflexivity.
  - destruct Hu as (k & m & Hk & Hkp & Hzr). destruct (v_idx _ _ I) as (j & _ & Hj).
    rewrite Eu in Hj. rewrite Hk, Hj. simpl. unfold steps_left.
    destruct (k =? 0) eqn:E0; [apply Z.eqb_eq in E0; lia|].
    assert (Hp' : p = c + (k - c mod k)).
    { subst zs. rewrite zsum_repeat1 in Ht.
      pose proof (totals_repeat k m 0 c Hkp) as Hr. rewrite Z.mul_0_r in Hr.
      rewrite Hr in Hn by nia. congruence. }
    replace (k - c mod k) with (p - c) by lia. replace (c + (p - c)) with p by lia. reflexivity.
Qed.

Lemma do_pause_inv : forall zs s c nx s', inv zs s -> 0 <= c < s_total s ->
  do_pause c nx s = Ok s' ->
  (nx = Armed \/ nx = Paused /\ next_stop (totals 0 zs) c = Some (s_configured s) /\
     s_next s = (if s_configured s <? s_total s then Armed else Finished)) ->
  inv zs s'.
Proof.
  intros zs s c nx s' I Hc Hd Hnx.
  destruct (do_pause_spec zs s c nx I Hc) as (p & i & Hn & Hi & Hcp & _ & He).
  rewrite Hd in He. injection He as ->.
  constructor; simpl.
  - apply (v_plan _ _ I).
  - exists i. split; auto. destruct (v_idx _ _ I) as (j & _ & Hj).
    destruct (p_use (s_plan s)); auto.
  - lia.
  - auto.
  - destruct Hnx as [->|(-> & H1 & H2)]; [lia|].
    rewrite Hn in H1. injection H1 as ->. split; auto.
  - constructor; [|apply (v_asks _ _ I)]. simpl. rewrite Hn. f_equal; lia.
Qed.

(** The step a pause goes back to. *)
Definition pause_target (n : Z) (s : scan) : Z :=
  let t := if n <? 0 then s_completed s else if s_total s <=? n then s_total s - 1 else n in
  match s_state s with
  | Armed | Finished => t
  | Running | Paused => if t =? s_configured s then t - 1 else t
  end.

Lemma pause_eq : forall n s, (n < 0 -> s_state s <> Finished) ->
  pause n s = do_pause (pause_target n s)
                (match s_state s with Armed | Finished => Armed | _ => Paused end) s.
Proof.
  intros n s H. unfold pause, pause_target. destruct (n <? 0) eqn:E.
  - apply Z.ltb_lt in E. destruct (s_state s) eqn:Es; auto. exfalso; apply H; auto.
  - destruct (s_state s); auto.
Qed.

Lemma pause_target_ok : forall zs s n, inv zs s -> polite s (Pause n) ->
  (n < 0 -> s_state s <> Finished) ->
  0 <= pause_target n s < s_total s /\
  (s_state s = Running \/ s_state s = Paused ->
   next_stop (totals 0 zs) (pause_target n s) = Some (s_configured s)).
Proof.
  intros zs s n I Hpol Hf. pose proof (inv_bounds _ _ I) as (Hb1 & Hb2 & Hin).
  pose proof (v_state _ _ I) as Hst. pose proof (v_seg _ _ I) as Hseg.
  destruct (v_plan _ _ I) as (Hp & Hz & Ht & _).
  assert (Hpred : next_stop (totals 0 zs) (s_configured s - 1) = Some (s_configured s))
    by (apply next_stop_pred; auto).
  simpl in Hpol. unfold inside_run in Hpol. rewrite (inv_stops _ _ I) in Hpol.
  unfold pause_target.
  destruct (n <? 0) eqn:En.
  - apply Z.ltb_lt in En.
    destruct (s_state s) eqn:Es; try (exfalso; apply Hf; now auto).
    + split; [lia|]. intros [H|H]; discriminate.
    + destruct (s_completed s =? s_configured s) eqn:E.
      * apply Z.eqb_eq in E. rewrite E. split; [lia|]. auto.
      * apply Z.eqb_neq in E. split; [lia|]. intros _. destruct Hseg; [auto|lia].
    + destruct Hst as [Hst _].
      destruct (s_completed s =? s_configured s) eqn:E.
      * apply Z.eqb_eq in E. lia.
      * split; [lia|]. intros _. destruct Hseg; [auto|lia].
  - apply Z.ltb_ge in En.
    assert (Hact : (n < 0 \/ n = s_configured s \/
                    next_stop (totals 0 zs) n = Some (s_configured s) \/
                    s_total s <= n /\ s_configured s = s_total s) ->
       let t := (if s_total s <=? n then s_total s - 1 else n) in
       0 <= (if t =? s_configured s then t - 1 else t) < s_total s /\
       next_stop (totals 0 zs) (if t =? s_configured s then t - 1 else t) = Some (s_configured s)).
    { intros Hi t. subst t. destruct (s_total s <=? n) eqn:El.
      - apply Z.leb_le in El.
        assert (Hct : s_configured s = s_total s).
        { destruct Hi as [H|[H|[H|H]]]; try lia. apply next_stop_In in H. lia. }
        destruct (s_total s - 1 =? s_configured s) eqn:E; [apply Z.eqb_eq in E; lia|].
        split; [lia|]. rewrite <- Hct. auto.
      - apply Z.leb_gt in El. destruct (n =? s_configured s) eqn:E.
        + apply Z.eqb_eq in E. subst n. split; [lia|auto].
        + apply Z.eqb_neq in E. split; [lia|]. destruct Hi as [H|[H|[H|H]]]; auto; lia. }
    destruct (s_state s) eqn:Es.
    + split; [|intros [H|H]; discriminate]. destruct (s_total s <=? n) eqn:El;
        [apply Z.leb_le in El | apply Z.leb_gt in El]; lia.
    + destruct (Hact Hpol). auto.
    + destruct (Hact Hpol). auto.
    + split; [|intros [H|H]; discriminate]. destruct (s_total s <=? n) eqn:El;
        [apply Z.leb_le in El | apply Z.leb_gt in El]; lia.
Qed.

Lemma min_progress_le : forall d n, min_progress d n <= n.
Proof.
  unfold min_progress; induction d as [|[k v] r IH]; intros n; simpl; [lia|].
  specialize (IH n). lia.
Qed.

Lemma min_progress_lower : forall d n v, In v (map snd d) -> min_progress d n <= v.
Proof.
  unfold min_progress; induction d as [|[k w] r IH]; intros n v H; simpl in *; [contradiction|].
  destruct H as [->|H]; [lia|]. specialize (IH n v H). lia.
Qed.

Lemma scan_step_inv : forall zs s o, inv zs s -> polite s o -> inv zs (scan_step s o).
Proof.
  intros zs s o I Hpol. pose proof (inv_bounds _ _ I) as (Hb1 & Hb2 & Hin).
  pose proof (v_state _ _ I) as Hst. pose proof (v_seg _ _ I) as Hseg.
  destruct (v_plan _ _ I) as (Hp & Hz & Ht & Hu).
  destruct (v_idx _ _ I) as (i & Hi & Hidx).
  pose proof (v_plan _ _ I) as Ipl. pose proof (v_idx _ _ I) as Iix.
  pose proof (v_nonneg _ _ I) as Inn. pose proof (v_asks _ _ I) as Ias.
  unfold scan_step, scan_try. destruct o.
  - unfold start_run. destruct (s_state s) eqn:Es; auto.
    constructor; simpl; auto.
  - unfold end_run. destruct (s_state s) eqn:Es; auto.
    destruct (s_configured s <? s_total s) eqn:El.
    + apply Z.ltb_lt in El. rewrite Ht in El.
      destruct (totals_next zs 0 i (s_configured s) Hp Hi ltac:(lia)) as (n & Hn1 & Hn2 & Hn3).
      assert (Hns := next_stop_after zs 0 i _ n Hp Hi Hn2).
      destruct (p_use (s_plan s)) eqn:Eu.
      * destruct Hu as [Hu1 Hu2]. subst i. rewrite Hu1, Hn1.
        constructor; simpl; auto.
        { exists (S (s_idx s)); rewrite Eu; auto. }
        { lia. }
        { rewrite Hst. lia. }
      * destruct Hu as (k & m & Hk & Hkp & Hzr). rewrite Hk, Hidx. simpl.
        assert (n = k). { subst zs. apply nth_error_In in Hn1. apply repeat_spec in Hn1. auto. }
        subst n.
        constructor; simpl; auto.
        { exists (S i); rewrite Eu; auto. }
        { lia. }
        { rewrite Hst. lia. }
    + apply Z.ltb_ge in El. constructor; simpl; auto.
      * lia.
      * rewrite Hst. lia.
  - unfold report_progress. simpl in Hpol.
    set (d := dset part n (s_progress s)). assert (Hm := min_progress_le d n).
    set (m := min_progress d n) in *.
    assert (Hc : let c' := if s_completed s <? m then m else s_completed s in
                 s_completed s <= c' <= s_configured s /\ (s_state s <> Running -> c' = s_completed s)).
    { cbv zeta. destruct (s_completed s <? m) eqn:E; [apply Z.ltb_lt in E|].
      - destruct (s_state s); split; try lia. congruence.
      - split; [lia|auto]. }
    cbv zeta in Hc. set (c' := if s_completed s <? m then m else s_completed s) in *. clearbody c'.
    destruct Hc as [Hc1 Hc2].
    constructor; simpl; auto.
    + lia.
    + destruct (Z.eq_dec c' (s_configured s)); auto. left.
      destruct Hseg as [H|H]; [|lia]. apply next_stop_mono with (n := s_completed s); auto. lia.
    + destruct (s_state s); try rewrite Hc2 by discriminate; auto.
  - destruct (s_state s) eqn:Es;
      [ | | | destruct (Z.ltb_spec n 0) as [Hneg|Hneg];
              [unfold pause; replace (n <? 0) with true by (symmetry; now apply Z.ltb_lt);
               rewrite Es; now auto|]].
    all: rewrite pause_eq by (intros; rewrite Es; try discriminate; lia).
    all: destruct (pause_target_ok zs s n I Hpol) as [Ht1 Ht2];
      [intros; rewrite Es; try discriminate; lia|].
    all: rewrite Es.
    all: match goal with |- inv _ (match do_pause ?cc ?nn ?ss with _ => _ end) =>
           destruct (do_pause_spec zs ss cc nn I Ht1) as (p & j & _ & _ & _ & _ & Hd);
           rewrite Hd; apply (do_pause_inv zs ss cc nn _ I Ht1 Hd); auto end.
    all: right; rewrite Es in *; repeat split; auto; tauto.
  - unfold resume. destruct (s_state s) eqn:Es; auto.
    constructor; simpl; auto. tauto.
Qed.

Lemma end_run_ok : forall zs s, inv zs s -> s_state s = Running ->
  s_configured s >= s_total s \/
  exists n, nth_error (p_steps (s_plan s)) (if p_use (s_plan s) then S (s_idx s) else s_idx s) = Some n.
Proof.
  intros zs s I Hs. destruct (Z.lt_ge_cases (s_configured s) (s_total s)) as [H|H]; [right|left; lia].
  destruct (v_plan _ _ I) as (Hp & Hz & Ht & Hu). destruct (v_idx _ _ I) as (i & Hi & Hidx).
  rewrite Ht in H.
  destruct (totals_next zs 0 i (s_configured s) Hp Hi ltac:(lia)) as (n & Hn1 & _).
  destruct (p_use (s_plan s)).
  - destruct Hu as [-> _]. subst i. eauto.
  - destruct Hu as (k & m & -> & _). rewrite Hidx. simpl; eauto.
Qed.

Lemma scan_run_inv : forall zs h s, inv zs s -> polite_history s h -> inv zs (scan_run s h).
Proof.
  intros zs h; induction h as [|o r IH]; intros s I Hp; simpl in *; auto.
  destruct Hp. apply IH; auto. now apply scan_step_inv.
Qed.

Lemma configure_inv : forall dims axes bps s, well_formed dims -> pos bps ->
  configure dims axes bps = Ok s -> exists zs, inv zs s /\ s_completed s = 0 /\
    s_state s = Armed /\ nth_error zs 0 = Some (s_configured s) /\ s_total s = gen_size dims /\
    s_asks s = [AConfigure 0 (s_configured s)].
Proof.
  intros dims axes bps s Hw Hb H. destruct (configure_plan_ok _ _ _ _ Hw Hb H) as (zs & Hz).
  exists zs. unfold configure in H.
  destruct (get_steps_per_run dims axes bps) as [p|] eqn:Eg; [|discriminate].
  destruct (nth_error (p_steps p) 0) as [n|] eqn:E0; [|discriminate]. injection H as <-. simpl in *.
  assert (Hz0 : nth_error zs 0 = Some n).
  { destruct Hz as (H1 & H2 & H3 & H4). destruct (p_use p).
    - destruct H4 as [<- _]; auto.
    - destruct H4 as (k & m & Hk & _ & ->). rewrite Hk in E0. simpl in E0. destruct m; [exfalso; apply H2; reflexivity|exact E0]. }
  assert (Hpos : 0 < n).
  { destruct Hz as (H1 & _). unfold pos in H1. rewrite Forall_forall in H1. apply H1.
    eapply nth_error_In; eauto. }
  assert (Hns : next_stop (totals 0 zs) 0 = Some n).
  { destruct zs as [|z r]; [discriminate|]. simpl in Hz0; injection Hz0 as ->. unfold next_stop; simpl.
    destruct n; try lia; auto. }
  split; [|auto]. constructor; simpl; auto; try lia.
  exists 0%nat. split; [|destruct (p_use p); auto].
  destruct zs as [|z r]; [discriminate|]. simpl in *. injection Hz0 as ->. auto.
Qed.

(** ** Theorems *)

Lemma steps_in_bounds : forall dims axes bps s h, well_formed dims -> pos bps ->
  configure dims axes bps = Ok s -> polite_history s h ->
  let s' := scan_run s h in
  0 <= s_completed s' <= s_configured s' /\ s_configured s' <= s_total s' /\
  s_total s' = gen_size dims /\
  stops s' = stops s /\ In (s_configured s') (stops s) /\
  (forall c n, In (c, n) (asked s') -> next_stop (stops s) c = Some (c + n)).
Proof.
  intros dims axes bps s h Hw Hb Hc Hh s'.
  destruct (configure_inv _ _ _ _ Hw Hb Hc) as (zs & I & _ & _ & _ & Ht & _).
  assert (I' := scan_run_inv zs h s I Hh). fold s' in I'.
  destruct (inv_bounds _ _ I') as (H1 & H2 & H3).
  rewrite (inv_stops _ _ I), (inv_stops _ _ I').
  repeat split; try tauto; try lia.
  - destruct (v_plan _ _ I) as (_ & _ & Ha & _). destruct (v_plan _ _ I') as (_ & _ & Hb' & _). lia.
  - intros c n Hi. unfold asked in Hi. apply in_flat_map in Hi. destruct Hi as (a & Ha & Hr).
    apply in_rev in Ha. pose proof (v_asks _ _ I') as Hf. rewrite Forall_forall in Hf.
    apply Hf in Ha. destruct a; simpl in *; try contradiction;
      (destruct Hr as [[= -> ->]|[]]; auto).
Qed.

Lemma seek_at_rest : forall dims axes bps s h n, well_formed dims -> pos bps ->
  configure dims axes bps = Ok s -> polite_history s h ->
  let s' := scan_run s h in
  s_state s' = Armed \/ s_state s' = Finished -> 0 <= n < s_total s' ->
  exists p s'', next_stop (stops s) n = Some p /\
    scan_try s' (Pause n) = Ok s'' /\ s_state s'' = Armed /\
    s_completed s'' = n /\ s_configured s'' = p /\ s_asks s'' = ASeek n (p - n) :: s_asks s'.
Proof.
  intros dims axes bps s h n Hw Hb Hc Hh s' Hst Hn.
  destruct (configure_inv _ _ _ _ Hw Hb Hc) as (zs & I & _).
  assert (I' := scan_run_inv zs h s I Hh). fold s' in I'.
  assert (Hpt : pause_target n s' = n).
  { unfold pause_target. destruct (n <? 0) eqn:E; [apply Z.ltb_lt in E; lia|].
    destruct (s_total s' <=? n) eqn:E2; [apply Z.leb_le in E2; lia|].
    destruct Hst as [-> | ->]; auto. }
  simpl. rewrite pause_eq by lia. rewrite Hpt.
  destruct (do_pause_spec zs s' n Armed I' Hn) as (p & i & H1 & _ & _ & _ & H2).
  rewrite (inv_stops _ _ I).
  exists p. eexists. split; [exact H1|]. 
  replace (match s_state s' with Armed | Finished => Armed | _ => Paused end) with Armed
    by (destruct Hst as [-> | ->]; auto).
  rewrite H2. repeat split.
Qed.

Lemma pause_resume_same_run : forall dims axes bps s h n, well_formed dims -> pos bps ->
  configure dims axes bps = Ok s -> polite_history s h ->
  let s' := scan_run s h in
  s_state s' = Running -> inside_run s' n ->
  let s'' := scan_run s' [Pause n; Resume] in
  s_state s'' = Running /\ s_configured s'' = s_configured s' /\
  (forall c, 0 <= n -> n <> s_configured s' -> n < s_total s' -> c = s_completed s'' -> c = n) /\
  let e1 := scan_step s' EndRun in
  let e2 := scan_step s'' EndRun in
  s_state e2 = s_state e1 /\ s_completed e2 = s_completed e1 /\
  s_configured e2 = s_configured e1 /\ s_idx e2 = s_idx e1 /\ s_plan e2 = s_plan e1 /\
  s_total e2 = s_total e1.
Proof.
  intros dims axes bps s h n Hw Hb Hc Hh s' Hst Hin s''.
  destruct (configure_inv _ _ _ _ Hw Hb Hc) as (zs & I & _).
  assert (I' := scan_run_inv zs h s I Hh). fold s' in I'.
  assert (Hpol : polite s' (Pause n)) by (simpl; rewrite Hst; auto).
  assert (Hnf : n < 0 -> s_state s' <> Finished) by (rewrite Hst; discriminate).
  destruct (pause_target_ok zs s' n I' Hpol Hnf) as [Ht1 Ht2]. specialize (Ht2 (or_introl Hst)).
  destruct (do_pause_spec zs s' (pause_target n s') Paused I' Ht1) as (p & i & H1 & Hi & _ & _ & H2).
  rewrite Ht2 in H1. injection H1 as <-.
  assert (E : s'' = mk_scan (s_total s') (s_plan s')
      (if p_use (s_plan s') then i else s_idx s') (s_configured s') (pause_target n s')
      Running (s_next s') (s_progress s')
      (ASeek (pause_target n s') (s_configured s' - pause_target n s') :: s_asks s')).
  { unfold s''. simpl. unfold scan_step at 2. unfold scan_try. rewrite pause_eq by auto. rewrite Hst, H2.
    reflexivity. }
  assert (Hidx : (if p_use (s_plan s') then i else s_idx s') = s_idx s').
  { destruct (v_idx _ _ I') as (j & Hj & Hj'). destruct (p_use (s_plan s')) eqn:Eu; auto.
    subst j. assert (Hnd : NoDup (totals 0 zs)).
    { destruct (v_plan _ _ I') as (Hp & _). clear - Hp. generalize 0.
      induction Hp as [|z r Hz Hr IH]; intros a; simpl; constructor; auto.
      intros Hin. pose proof (totals_bounds _ _ _ Hr Hin). lia. }
    eapply NoDup_nth_error; eauto.
    - apply nth_error_Some. congruence.
    - congruence. }
  rewrite Hidx in E. rewrite E. simpl. repeat split; auto.
  - intros c H0 Hne Hlt ->. unfold pause_target.
    destruct (n <? 0) eqn:E1; [apply Z.ltb_lt in E1; lia|].
    destruct (s_total s' <=? n) eqn:E2; [apply Z.leb_le in E2; lia|]. rewrite Hst.
    destruct (n =? s_configured s') eqn:E3; auto. apply Z.eqb_eq in E3; contradiction.
  - destruct (end_run_ok zs s' I' Hst) as [Hok|(m & Hok)];
      unfold scan_step, scan_try, end_run; simpl; rewrite Hst;
      destruct (s_configured s' <? s_total s') eqn:El; auto;
      try (apply Z.ltb_lt in El; lia); rewrite Hok; auto.
  - destruct (end_run_ok zs s' I' Hst) as [Hok|(m & Hok)];
      unfold scan_step, scan_try, end_run; simpl; rewrite Hst;
      destruct (s_configured s' <? s_total s') eqn:El; auto;
      try (apply Z.ltb_lt in El; lia); rewrite Hok; auto.
  - destruct (end_run_ok zs s' I' Hst) as [Hok|(m & Hok)];
      unfold scan_step, scan_try, end_run; simpl; rewrite Hst;
      destruct (s_configured s' <? s_total s') eqn:El; auto;
      try (apply Z.ltb_lt in El; lia); rewrite Hok; auto.
  - destruct (end_run_ok zs s' I' Hst) as [Hok|(m & Hok)];
      unfold scan_step, scan_try, end_run; simpl; rewrite Hst;
      destruct (s_configured s' <? s_total s') eqn:El; auto;
      try (apply Z.ltb_lt in El; lia); rewrite Hok; auto.
  - destruct (end_run_ok zs s' I' Hst) as [Hok|(m & Hok)];
      unfold scan_step, scan_try, end_run; simpl; rewrite Hst;
      destruct (s_configured s' <? s_total s') eqn:El; auto;
      try (apply Z.ltb_lt in El; lia); rewrite Hok; auto.
  - destruct (end_run_ok zs s' I' Hst) as [Hok|(m & Hok)];
      unfold scan_step, scan_try, end_run; simpl; rewrite Hst;
      destruct (s_configured s' <? s_total s') eqn:El; auto;
      try (apply Z.ltb_lt in El; lia); rewrite Hok; auto.
Qed.

(** ** Running to the end *)

Lemma totals_length : forall zs a, length (totals a zs) = length zs.
Proof. induction zs; intros; simpl; auto. Qed.

Lemma totals_last_index : forall zs a i, pos zs -> nth_error (totals a zs) i = Some (a + zsum zs) ->
  S i = length zs.
Proof.
  induction zs as [|n r IH]; intros a i Hp Hi.
  - destruct i; discriminate.
  - inv Hp. rewrite zsum_cons in Hi. destruct i as [|i]; simpl in Hi.
    + injection Hi as Hi. destruct r as [|m r]; auto. rewrite zsum_cons in Hi. inv H2.
      pose proof (zsum_nonneg r H4). lia.
    + simpl. f_equal. apply IH with (a := a + n); auto. rewrite Hi. f_equal; lia.
Qed.

Lemma asked_cons : forall s a t p i cf cm st nx pr,
  asked (mk_scan t p i cf cm st nx pr (a :: s_asks s)) = asked s ++ range_of a.
Proof.
  intros. unfold asked; simpl. rewrite flat_map_app. simpl. now rewrite app_nil_r.
Qed.

Lemma run_once : forall zs s i, inv zs s -> s_state s = Armed ->
  nth_error (totals 0 zs) i = Some (s_configured s) ->
  let s' := scan_run s [StartRun; EndRun] in
  s_completed s' = s_configured s /\ inv zs s' /\ s_total s' = s_total s /\
  ((s_configured s < s_total s /\ s_state s' = Armed /\
    (S i < length zs)%nat /\ nth_error (totals 0 zs) (S i) = Some (s_configured s') /\
    asked s' = asked s ++ [(s_configured s, s_configured s' - s_configured s)] /\
    s_configured s < s_configured s')
   \/ (s_configured s = s_total s /\ s_state s' = Finished /\ S i = length zs /\
       s_configured s' = s_total s /\ asked s' = asked s)).
Proof.
  intros zs s i I Hst Hi s'.
  assert (I1 : inv zs s') by (apply scan_run_inv; simpl; auto).
  pose proof (inv_bounds _ _ I) as (Hb1 & Hb2 & Hin).
  destruct (v_plan _ _ I) as (Hp & Hz & Ht & Hu). destruct (v_idx _ _ I) as (j & Hj & Hidx).
  assert (Hij : i = j).
  { assert (Hnd : NoDup (totals 0 zs)).
    { clear - Hp. generalize 0.
      induction Hp as [|z r Hz Hr IH]; intros a; simpl; constructor; auto.
      intros Hin. pose proof (totals_bounds _ _ _ Hr Hin). lia. }
    eapply NoDup_nth_error; eauto; [apply nth_error_Some; congruence | congruence]. }
  subst j.
  set (s1 := mk_scan (s_total s) (s_plan s) (s_idx s) (s_configured s) (s_completed s)
               Running (if s_configured s <? s_total s then Armed else Finished)
               (s_progress s) (s_asks s)).
  assert (E1 : scan_step s StartRun = s1).
  { unfold scan_step, scan_try, start_run. rewrite Hst. reflexivity. }
  assert (Is1 : inv zs s1) by (rewrite <- E1; apply scan_step_inv; simpl; auto).
  assert (E : s' = scan_step s1 EndRun) by (unfold s'; simpl; now rewrite E1).
  unfold scan_step, scan_try, end_run in E. cbn [s_state s1] in E. cbn [s_configured s_total s1] in E.
  destruct (s_configured s <? s_total s) eqn:El.
  - apply Z.ltb_lt in El. rewrite Ht in El.
    destruct (totals_next zs 0 i (s_configured s) Hp Hi ltac:(lia)) as (n & Hn1 & Hn2 & Hn3).
    assert (Hstep : nth_error (p_steps (s_plan s1))
               (if p_use (s_plan s1) then S (s_idx s1) else s_idx s1) = Some n).
    { simpl. destruct (p_use (s_plan s)) eqn:Eu.
      - destruct Hu as [-> _]. subst i. auto.
      - destruct Hu as (k & m & -> & _ & Hzr). rewrite Hidx. simpl. f_equal.
        subst zs. apply nth_error_In in Hn1. apply repeat_spec in Hn1. auto. }
    rewrite Hstep in E.
    assert (Hcf : s_configured s' = s_configured s + n) by (rewrite E; reflexivity).
    split; [rewrite E; reflexivity|]. split; auto. split; [rewrite E; reflexivity|].
    left. split; [lia|]. split. { rewrite E. reflexivity. }
    split. { assert (nth_error zs (S i) <> None) by congruence. now apply nth_error_Some. }
    rewrite Hcf. split; auto. split; [|lia].
    rewrite E. change (s_asks s1) with (s_asks s). rewrite asked_cons. simpl.
    repeat f_equal. lia.
  - apply Z.ltb_ge in El.
    split; [rewrite E; reflexivity|]. split; auto. split; [rewrite E; reflexivity|].
    right. assert (Heq : s_configured s = s_total s) by lia. split; auto.
    split; [rewrite E; reflexivity|].
    split. { apply (totals_last_index zs 0 i); auto. rewrite Hi. f_equal. lia. }
    split; [rewrite E; simpl; auto|].
    rewrite E. change (s_asks s1) with (s_asks s). rewrite asked_cons. simpl. apply app_nil_r.
Qed.

Lemma covers_app : forall l1 a b c l2, covers a b l1 -> covers b c l2 -> covers a c (l1 ++ l2).
Proof.
  induction l1 as [|[x n] r IH]; intros a b c l2 H1 H2; simpl in *.
  - now subst.
  - destruct H1 as (-> & Hn & H1). eauto.
Qed.

Lemma runs_cover : forall zs k s i, inv zs s -> s_state s = Armed ->
  nth_error (totals 0 zs) i = Some (s_configured s) -> (i + S k = length zs)%nat ->
  covers 0 (s_configured s) (asked s) ->
  (forall j, (j <= k)%nat -> let t := scan_run s (runs j) in
     s_state t = Armed /\ covers 0 (s_configured t) (asked t)) /\
  (let t := scan_run s (runs (S k)) in
   s_state t = Finished /\ s_completed t = s_total s /\ covers 0 (s_total s) (asked t)).
Proof.
  intros zs k; induction k as [|k IH]; intros s i I Hst Hi Hk Hcov.
  - pose proof (run_once zs s i I Hst Hi) as (H1 & H2 & H3 & H4).
    change (runs 1) with [StartRun; EndRun]. split.
    + intros j Hj. replace j with O by lia. simpl. auto.
    + destruct H4 as [(H4 & _ & H5 & _)|(H4 & H5 & _ & H6 & H7)]; [lia|].
      cbv zeta. rewrite H1, H7, <- H4. auto.
  - pose proof (run_once zs s i I Hst Hi) as (H1 & H2 & H3 & H4).
    set (s' := scan_run s [StartRun; EndRun]) in *.
    destruct H4 as [(H4 & H5 & H6 & H7 & H8 & H9)|(_ & _ & H5 & _)]; [|lia].
    assert (Hcov' : covers 0 (s_configured s') (asked s')).
    { rewrite H8. eapply covers_app; eauto. simpl. repeat split; lia. }
    destruct (IH s' (S i) H2 H5 H7 ltac:(lia) Hcov') as [Ha Hb].
    split.
    + intros [|j] Hj; [simpl; auto|].
      change (runs (S j)) with ([StartRun; EndRun] ++ runs j). unfold scan_run.
      rewrite fold_left_app. apply Ha. lia.
    + change (runs (S (S k))) with ([StartRun; EndRun] ++ runs (S k)). unfold scan_run.
      rewrite fold_left_app. fold (scan_run s [StartRun; EndRun]). fold s'.
      rewrite <- H3. apply Hb.
Qed.

Lemma runs_do_whole_scan : forall dims axes bps s, well_formed dims -> pos bps ->
  configure dims axes bps = Ok s ->
  let m := length (run_sizes s) in
  (0 < m)%nat /\
  (forall j, (j < m)%nat -> let t := scan_run s (runs j) in
     s_state t = Armed /\ covers 0 (s_configured t) (asked t)) /\
  (let t := scan_run s (runs m) in
   s_state t = Finished /\ s_completed t = gen_size dims /\ covers 0 (gen_size dims) (asked t)).
Proof.
  intros dims axes bps s Hw Hb Hc m.
  destruct (configure_inv _ _ _ _ Hw Hb Hc) as (zs & I & H0 & Hst & Hz0 & Ht & Hak).
  assert (Em : m = length zs).
  { unfold m. destruct s. rewrite (plan_ok_sizes _ _ _ _ _ _ _ _ _ _ (v_plan _ _ I)). auto. }
  clearbody m. subst m.
  destruct zs as [|z r] eqn:Ez; [discriminate|]. rewrite <- Ez in *.
  assert (Hi : nth_error (totals 0 zs) 0 = Some (s_configured s)).
  { subst zs. simpl in *. congruence. }
  assert (Hcov : covers 0 (s_configured s) (asked s)).
  { unfold asked. rewrite Hak. simpl. pose proof (inv_bounds _ _ I). repeat split; lia. }
  assert (Hl : (0 + S (length zs - 1) = length zs)%nat) by (subst zs; simpl; lia).
  destruct (runs_cover zs (length zs - 1) s 0 I Hst Hi Hl Hcov) as [Ha Hb'].
  replace (S (length zs - 1)) with (length zs) in Hb' by lia. rewrite Ht in Hb'.
  split; [subst zs; simpl; lia|]. split; auto. intros j Hj. apply Ha. lia.
Qed.

Lemma rest_states : forall dims axes bps s h, well_formed dims -> pos bps ->
  configure dims axes bps = Ok s -> polite_history s h ->
  let s' := scan_run s h in
  (s_state s' = Finished -> s_completed s' = s_total s') /\
  (s_state s' = Armed -> s_completed s' < s_total s') /\
  (s_state s' = Paused -> s_completed s' < s_total s').
Proof.
  intros dims axes bps s h Hw Hb Hc Hh s'.
  destruct (configure_inv _ _ _ _ Hw Hb Hc) as (zs & I & _).
  assert (I' := scan_run_inv zs h s I Hh). fold s' in I'.
  pose proof (inv_bounds _ _ I') as (H1 & H2 & H3). pose proof (v_state _ _ I') as Hv.
  destruct (s_state s'); repeat split; intros; try discriminate; lia.
Qed.

(** ** Progress *)

Lemma report_all_snoc : forall rs p n s,
  report_all (rs ++ [(p, n)]) s = report_progress p n (report_all rs s).
Proof.
  intros. unfold report_all, scan_run. rewrite map_app, fold_left_app. reflexivity.
Qed.

Lemma latest_report_app : forall p rs r2,
  latest_report p (rs ++ r2) = match latest_report p r2 with Some b => Some b | None => latest_report p rs end.
Proof.
  induction rs as [|[q n] r IH]; intros r2; simpl.
  - now destruct (latest_report p r2).
  - rewrite IH. destruct (latest_report p r2); auto.
Qed.

Lemma progress_latest : forall rs s, s_progress s = [] ->
  NoDup (dkeys (s_progress (report_all rs s))) /\
  forall p, dget p (s_progress (report_all rs s)) = latest_report p rs.
Proof.
  intros rs s Hs. induction rs as [|[q n] rs IH] using rev_ind.
  - unfold report_all; simpl. rewrite Hs. simpl. split; [constructor|auto].
  - rewrite report_all_snoc. destruct IH as [IH1 IH2]. unfold report_progress; simpl. split.
    + now apply dset_nodup.
    + intros p. rewrite dget_dset, latest_report_app. simpl.
      destruct (String.eqb p q); auto.
Qed.

Lemma min_progress_ge : forall d n b, (forall v, In v (map snd d) -> b <= v) -> b <= n ->
  b <= min_progress d n.
Proof.
  unfold min_progress; induction d as [|[k w] r IH]; intros n b H Hn; simpl in *; auto.
  specialize (IH n b ltac:(auto) Hn). specialize (H w ltac:(auto)). lia.
Qed.

Lemma min_progress_in : forall d n, min_progress d n = n \/ In (min_progress d n) (map snd d).
Proof.
  unfold min_progress; induction d as [|[k w] r IH]; intros n; simpl; auto.
  destruct (IH n) as [H|H]; destruct (Z.min_spec w (fold_right Z.min n (map snd r))) as [[_ Hm]|[_ Hm]];
    rewrite Hm; auto. 
Qed.

Lemma progress_slowest : forall rs p n s, s_progress s = [] ->
  let s1 := report_all rs s in
  let s2 := report_all (rs ++ [(p, n)]) s in
  s_completed s1 <= s_completed s2 /\
  (s_completed s2 = s_completed s1 \/
   forall q v, latest_report q (rs ++ [(p, n)]) = Some v -> s_completed s2 <= v) /\
  (exists q v, latest_report q (rs ++ [(p, n)]) = Some v /\ v <= s_completed s2).
Proof.
  intros rs p n s Hs s1 s2.
  destruct (progress_latest (rs ++ [(p, n)]) s Hs) as [Hnd Hl]. fold s2 in Hnd, Hl.
  assert (E2 : s2 = report_progress p n s1) by apply report_all_snoc.
  set (d := dset p n (s_progress s1)).
  assert (Ed : s_progress s2 = d) by (rewrite E2; reflexivity).
  assert (Ec : s_completed s2 = if s_completed s1 <? min_progress d n then min_progress d n
                                else s_completed s1) by (rewrite E2; reflexivity).
  destruct (s_completed s1 <? min_progress d n) eqn:E.
  - apply Z.ltb_lt in E. split; [lia|]. split.
    + right. intros q v Hq. rewrite <- Hl, Ed in Hq. apply dget_Some_In in Hq. rewrite Ec.
      apply min_progress_lower. apply in_map_iff. exists (q, v); auto.
    + destruct (min_progress_in d n) as [H|H].
      * exists p, n. split; [|lia]. rewrite <- Hl, Ed. unfold d. apply dget_dset_same.
      * apply in_map_iff in H. destruct H as ([q v] & Hv & Hi). simpl in Hv.
        exists q, v. split; [|lia]. rewrite <- Hl, Ed. apply dget_In_nodup; auto. now rewrite <- Ed.
  - apply Z.ltb_ge in E. split; [lia|]. split; auto.
    destruct (min_progress_in d n) as [H|H].
    + exists p, n. split; [|lia]. rewrite <- Hl, Ed. unfold d. apply dget_dset_same.
    + apply in_map_iff in H. destruct H as ([q v] & Hv & Hi). simpl in Hv.
      exists q, v. split; [|lia]. rewrite <- Hl, Ed. apply dget_In_nodup; auto. now rewrite <- Ed.
Qed.

Lemma progress_monotone : forall dims axes bps s h o, well_formed dims -> pos bps ->
  configure dims axes bps = Ok s -> polite_history s h ->
  let s' := scan_run s h in
  (forall n, o <> Pause n) -> s_completed s' <= s_completed (scan_step s' o).
Proof.
  intros dims axes bps s h o Hw Hb Hc Hh s' Ho.
  destruct (configure_inv _ _ _ _ Hw Hb Hc) as (zs & I & _).
  assert (I' := scan_run_inv zs h s I Hh). fold s' in I'.
  pose proof (inv_bounds _ _ I') as (H1 & H2 & H3).
  unfold scan_step, scan_try. destruct o; try (exfalso; eapply Ho; reflexivity).
  - unfold start_run. destruct (s_state s'); simpl; lia.
  - unfold end_run. destruct (s_state s'); simpl; try lia.
    destruct (s_configured s' <? s_total s'); simpl; try lia.
    destruct (nth_error _ _); simpl; lia.
  - simpl. destruct (s_completed s' <? _) eqn:E; [apply Z.ltb_lt in E|]; lia.
  - unfold resume. destruct (s_state s'); simpl; lia.
Qed.
