(** C57 and C58: the duration of a point and the move to the start of a scan. *)
From Coq Require Import String Ascii Bool ZArith QArith Qabs Qround Qfield Lia Lqa List.
From Verif Require Import Base Pmac_Model Motion_Model.
Import ListNotations.
Local Open Scope list_scope.
Local Open Scope Q_scope.

(** ** Arithmetic *)

Lemma qle_false : forall x y, Qle_bool x y = false -> y < x.
Proof. intros x y H. apply Qnot_le_lt. intros K. apply Qle_bool_iff in K. congruence. Qed.
Lemma qabs_eq : forall x, qabs x == Qabs x.
Proof.
  intros x. unfold qabs. destruct (Qle_bool 0 x) eqn:E.
  - apply Qle_bool_iff in E. now rewrite Qabs_pos.
  - apply qle_false in E. now rewrite Qabs_neg by lra.
Qed.
Lemma qabs_nonneg : forall x, 0 <= qabs x.
Proof. intros x. rewrite qabs_eq. apply Qabs_nonneg. Qed.
Lemma qmax_spec : forall x y, x <= qmax x y /\ y <= qmax x y /\ (qmax x y = x \/ qmax x y = y).
Proof.
  intros x y. unfold qmax. destruct (Qle_bool x y) eqn:E.
  - apply Qle_bool_iff in E. repeat split; auto; lra.
  - apply qle_false in E. repeat split; auto; lra.
Qed.
Lemma ceiling_is : forall x n, inject_Z n - 1 < x -> x <= inject_Z n -> Qceiling x = n.
Proof.
  intros x n H1 H2. pose proof (Qle_ceiling x) as C1. pose proof (Qceiling_lt x) as C2.
  assert (A : inject_Z (Qceiling x - 1) < inject_Z n) by lra. rewrite <- Zlt_Qlt in A.
  assert (B : inject_Z (n - 1) < inject_Z (Qceiling x)).
  { unfold Z.sub. rewrite inject_Z_plus. change (inject_Z (- (1))) with (-1). lra. }
  rewrite <- Zlt_Qlt in B. lia.
Qed.

(** ** C57 *)

(** The exposure [d] needs [n] ticks of the servo for its half: no fewer will do. *)
Definition half_needs (f d : Q) (n : Z) : Prop := (inject_Z n - 1) * (1 / f) < d / 2 <= inject_Z n * (1 / f).

Lemma aligned_at : forall f d n, 0 < f -> f <= 900000 -> half_needs f d n -> exists m,
  get_aligned f d == 2 * (inject_Z m * (1 # 1000000)) /\
  0 <= inject_Z n - f * (inject_Z m * (1 # 1000000)) /\ inject_Z n - f * (inject_Z m * (1 # 1000000)) < (2 # 1000) + f * (1 # 1000000).
Proof.
  intros f d n F F' [H1 H2].
  assert (E : Qceiling (f * (1 # 2) * d) = n).
  { apply ceiling_is.
    - apply (Qmult_lt_l _ _ f F) in H1. assert (X : f * ((inject_Z n - 1) * (1 / f)) == inject_Z n - 1) by (field; lra). rewrite X in H1.
      assert (Y : f * (d / 2) == f * (1 # 2) * d) by field. lra.
    - apply (Qmult_le_l _ _ f F) in H2. assert (X : f * (inject_Z n * (1 / f)) == inject_Z n) by (field; lra). rewrite X in H2.
      assert (Y : f * (d / 2) == f * (1 # 2) * d) by field. lra. }
  unfold get_aligned. rewrite E.
  set (t := if isclose f 3200 then inject_Z n else inject_Z n - (2 # 1000)).
  assert (T : inject_Z n - (2 # 1000) <= t <= inject_Z n) by (unfold t; destruct (isclose f 3200); lra).
  clearbody t. exists (Qfloor (t / f * 1000000)).
  pose proof (Qfloor_le (t / f * 1000000)) as L. pose proof (Qlt_floor (t / f * 1000000)) as U.
  rewrite inject_Z_plus in U. change (inject_Z 1) with 1 in U.
  set (m := inject_Z (Qfloor (t / f * 1000000))) in *. clearbody m. 
  apply (Qmult_le_l _ _ f F) in L. apply (Qmult_lt_l _ _ f F) in U.
  assert (X : f * (t / f * 1000000) == t * 1000000) by (field; lra). rewrite X in L, U.
  split; [field|]. split; lra.
Qed.
Lemma needs_exists : forall f d, 0 < f -> 0 < d -> exists n, (1 <= n)%Z /\ half_needs f d n.
Proof.
  intros f d F D. exists (Qceiling (f * (d / 2))). 
  pose proof (Qle_ceiling (f * (d / 2))) as C1. pose proof (Qceiling_lt (f * (d / 2))) as C2.
  unfold Z.sub in C2. rewrite inject_Z_plus in C2. change (inject_Z (- (1))) with (-1) in C2.
  assert (P : 0 < f * (d / 2)). { setoid_replace 0 with (f * 0) by field. apply Qmult_lt_l; [exact F|]. setoid_replace (d / 2) with (d * (1 # 2)) by field. lra. }
  split.
  - assert (B : inject_Z 0 < inject_Z (Qceiling (f * (d / 2)))) by (change (inject_Z 0) with 0; lra). rewrite <- Zlt_Qlt in B. lia.
  - unfold half_needs. set (n := inject_Z (Qceiling (f * (d / 2)))) in *. clearbody n. split.
    + apply (Qmult_lt_l _ _ f F). setoid_replace (f * ((n - 1) * (1 / f))) with (n - 1) by (field; lra). lra.
    + apply (Qmult_le_l _ _ f F). setoid_replace (f * (n * (1 / f))) with n by (field; lra). lra.
Qed.
Lemma needs_unique : forall f d n n', 0 < f -> half_needs f d n -> half_needs f d n' -> n = n'.
Proof.
  intros f d n n' F [A1 A2] [B1 B2].
  assert (G : 0 < 1 / f). { apply (Qmult_lt_l _ _ f F). setoid_replace (f * (1 / f)) with 1 by (field; lra). lra. }
  assert (H1 : (inject_Z n - 1) * (1 / f) < inject_Z n' * (1 / f)) by lra.
  assert (H2 : (inject_Z n' - 1) * (1 / f) < inject_Z n * (1 / f)) by lra.
  apply Qmult_lt_r in H1; [|exact G]. apply Qmult_lt_r in H2; [|exact G].
  assert (K1 : inject_Z (n - 1) < inject_Z n'). { unfold Z.sub. rewrite inject_Z_plus. change (inject_Z (- (1))) with (-1). lra. }
  assert (K2 : inject_Z (n' - 1) < inject_Z n). { unfold Z.sub. rewrite inject_Z_plus. change (inject_Z (- (1))) with (-1). lra. }
  rewrite <- Zlt_Qlt in K1, K2. lia.
Qed.

(** The half of the duration given is a whole number of microseconds, and up to the allowance for jitter
    and a microsecond the smallest number of servo ticks that the half asked for fits in. *)
Theorem C57_aligned : forall f d, 0 < f -> f <= 900000 -> 0 < d ->
  exists n m, (1 <= n)%Z /\ half_needs f d n /\ get_aligned f d / 2 == inject_Z m * (1 # 1000000) /\
  0 <= inject_Z n * (1 / f) - get_aligned f d / 2 < (2 # 1000) * (1 / f) + (1 # 1000000).
Proof.
  intros f d F F' D. destruct (needs_exists f d F D) as (n & N & H). destruct (aligned_at f d n F F' H) as (m & E & L & U).
  exists n, m. split; [exact N|]. split; [exact H|]. split; [rewrite E; field|].
  assert (E2 : get_aligned f d / 2 == inject_Z m * (1 # 1000000)) by (rewrite E; field).
  split.
  - rewrite E2. apply (Qmult_le_l _ _ f F). setoid_replace (f * 0) with 0 by field. setoid_replace (f * (inject_Z n * (1 / f) - inject_Z m * (1 # 1000000))) with (inject_Z n - f * (inject_Z m * (1 # 1000000))) by (field; lra). lra.
  - rewrite E2. apply (Qmult_lt_l _ _ f F). setoid_replace (f * (inject_Z n * (1 / f) - inject_Z m * (1 # 1000000))) with (inject_Z n - f * (inject_Z m * (1 # 1000000))) by (field; lra).
    setoid_replace (f * ((2 # 1000) * (1 / f) + (1 # 1000000))) with ((2 # 1000) + f * (1 # 1000000)) by (field; lra). lra.
Qed.
(** Less than this is lost. *)
Theorem C57_loss : forall f d, 0 < f -> f <= 900000 -> 0 < d -> d - get_aligned f d < 2 * ((2 # 1000) * (1 / f) + (1 # 1000000)).
Proof. intros f d F F' D. destruct (C57_aligned f d F F' D) as (n & m & _ & [_ H] & _ & _ & U).
  setoid_replace (d - get_aligned f d) with (2 * (d / 2 - get_aligned f d / 2)) by field. set (x := get_aligned f d / 2) in *. set (y := d / 2) in *.
  set (z := inject_Z n * (1 / f)) in *. set (w := (2 # 1000) * (1 / f)) in *. clearbody x y z w. lra.
Qed.
Lemma needs_aligned : forall f d n, 0 < f -> f <= 900000 -> half_needs f d n -> half_needs f (get_aligned f d) n.
Proof.
  intros f d n F F' H. destruct (aligned_at f d n F F' H) as (m & E & L & U).
  assert (E2 : get_aligned f d / 2 == inject_Z m * (1 # 1000000)) by (rewrite E; field). unfold half_needs. rewrite E2.
  split.
  - apply (Qmult_lt_l _ _ f F). setoid_replace (f * ((inject_Z n - 1) * (1 / f))) with (inject_Z n - 1) by (field; lra). lra.
  - apply (Qmult_le_l _ _ f F). setoid_replace (f * (inject_Z n * (1 / f))) with (inject_Z n) by (field; lra). lra.
Qed.
Lemma same_ticks : forall f d d' n, 0 < f -> half_needs f d n -> half_needs f d' n -> get_aligned f d = get_aligned f d'.
Proof.
  intros f d d' n F H H'.
  assert (C : forall x, half_needs f x n -> Qceiling (f * (1 # 2) * x) = n).
  { intros x [H1 H2]. apply ceiling_is.
    - apply (Qmult_lt_l _ _ f F) in H1. assert (X : f * ((inject_Z n - 1) * (1 / f)) == inject_Z n - 1) by (field; lra). rewrite X in H1.
      assert (Y : f * (x / 2) == f * (1 # 2) * x) by field. lra.
    - apply (Qmult_le_l _ _ f F) in H2. assert (X : f * (inject_Z n * (1 / f)) == inject_Z n) by (field; lra). rewrite X in H2.
      assert (Y : f * (x / 2) == f * (1 # 2) * x) by field. lra. }
  unfold get_aligned. now rewrite (C d H), (C d' H').
Qed.
(** A duration given is given again when it is asked for. *)
Theorem C57_again : forall f d, 0 < f -> f <= 900000 -> 0 < d -> get_aligned f (get_aligned f d) = get_aligned f d.
Proof.
  intros f d F F' D. destruct (needs_exists f d F D) as (n & N & H). symmetry. apply (same_ticks f _ _ n F H). now apply needs_aligned.
Qed.
Lemma aligned_pos : forall f d, 0 < f -> f <= 900000 -> 0 < d -> 0 < get_aligned f d.
Proof.
  intros f d F F' D. destruct (needs_exists f d F D) as (n & N & H). destruct (aligned_at f d n F F' H) as (m & E & L & U).
  rewrite E. rewrite Zle_Qle in N. change (inject_Z 1) with 1 in N.
  assert (K : 0 < f * (inject_Z m * (1 # 1000000))) by lra.
  assert (Z0 : f * 0 == 0) by field. rewrite <- Z0 in K. apply Qmult_lt_l in K; [|exact F]. lra.
Qed.

(** A guessed duration is positive. *)
Lemma fold_guess : forall p q (axes : list axis) d, 0 <= d ->
  let r := fold_left (fun d (a : axis) => let m := (pt_pos q (fst a) - pt_pos p (fst a)) / mi_max (snd (snd a)) in if Qle_bool m d then d else m) axes d in
  d <= r /\ forall a, In a axes -> (pt_pos q (fst a) - pt_pos p (fst a)) / mi_max (snd (snd a)) <= r.
Proof.
  intros p q axes. induction axes as [|a l IH]; intros d D; cbn [fold_left].
  - split; [lra|]. intros a [].
  - set (m := (pt_pos q (fst a) - pt_pos p (fst a)) / mi_max (snd (snd a))).
    set (d' := if Qle_bool m d then d else m).
    assert (H : d <= d' /\ m <= d').
    { unfold d'. destruct (Qle_bool m d) eqn:E; [apply Qle_bool_iff in E | apply qle_false in E]; lra. }
    clearbody d'. destruct (IH d' ltac:(lra)) as [I1 I2]. cbn zeta in *. split; [lra|]. intros b [<-|B]; [fold m; lra | auto].
Qed.
Lemma guess_pos : forall axes p q, 0 < duration_from_first_two axes p q.
Proof.
  intros axes p q. unfold duration_from_first_two. pose proof (fold_guess p q axes 0 ltac:(lra)) as [H _]. cbn zeta in H |- *.
  match goal with |- context [Qeq_bool ?x 0] => match type of H with _ <= ?y => change y with x in H end; set (r := x) in *; destruct (Qeq_bool r 0) eqn:E end.
  - reflexivity.
  - apply Qeq_bool_neq in E. clearbody r. apply Qle_lteq in H. destruct H; [assumption|]. exfalso. apply E. lra.
Qed.
Lemma turnaround_pos : forall infos t i, get_min_turnaround infos = Ok (t, i) -> MIN_TIME <= t.
Proof.
  intros infos t i H. destruct infos as [|[g j] [|? ?]]; cbn in H; try discriminate; injection H as <- _.
  - lra.
  - apply qmax_spec.
Qed.
Theorem C57_guess : forall moves mapping fly infos g, generator_duration moves mapping fly infos = Ok (Some g) -> 0 < g.
Proof.
  intros moves mapping fly infos g H. unfold generator_duration in H. destruct moves; [|injection H as <-; reflexivity].
  destruct mapping as [axes|]; [|discriminate]. destruct fly as [[p q]|].
  - injection H as <-. apply guess_pos.
  - destruct (get_min_turnaround infos) as [[t i]|e] eqn:E; [|discriminate]. injection H as <-. pose proof (turnaround_pos _ _ _ E).
    unfold MIN_TIME in *. lra.
Qed.
(** At the guess no axis has to be faster than it can be, if none goes down from the first point to the
    second. *)
Theorem C57_guess_speed : forall axes p q a, In a axes -> 0 < mi_max (snd (snd a)) ->
  (pt_pos q (fst a) - pt_pos p (fst a)) / duration_from_first_two axes p q <= mi_max (snd (snd a)).
Proof.
  intros axes p q a A M. pose proof (guess_pos axes p q) as G.
  assert (H : (pt_pos q (fst a) - pt_pos p (fst a)) / mi_max (snd (snd a)) <= duration_from_first_two axes p q).
  { unfold duration_from_first_two. pose proof (fold_guess p q axes 0 ltac:(lra)) as [_ H]. specialize (H a A). cbn zeta in H |- *.
    match goal with |- context [Qeq_bool ?x 0] => match type of H with _ <= ?y => change y with x in H end; set (r := x) in *; destruct (Qeq_bool r 0) eqn:E end; [|exact H].
    apply Qeq_bool_iff in E. unfold TICK_S. lra. }
  set (d := duration_from_first_two axes p q) in *. clearbody d. set (x := pt_pos q (fst a) - pt_pos p (fst a)) in *. clearbody x.
  set (m := mi_max (snd (snd a))) in *. clearbody m.
  apply Qle_shift_div_r; [exact G|]. apply (Qmult_le_l _ _ m M) in H. setoid_replace (m * (x / m)) with x in H by (field; lra). exact H.
Qed.
(** After a tweak nothing more is tweaked: the controller does not ask for ever. *)
Theorem C57_tweaked_once : forall superset trig f moves guess d d', 0 < f -> f <= 900000 ->
  (forall g, guess = Ok (Some g) -> 0 < g) ->
  on_validate superset trig f moves guess d = Ok (Some d') -> on_validate superset trig f moves guess d' = Ok None.
Proof.
  intros superset trig f moves guess d d' F F' G H. unfold on_validate in *. destruct superset; [|discriminate]. cbn [negb] in *.
  destruct (Qle_bool 0 d) eqn:D; [|discriminate]. cbn [negb] in H. apply Qle_bool_iff in D.
  set (align := fun x => match trig with EVERY_POINT => get_aligned f x | _ => x end) in *.
  assert (A : forall x, 0 < x -> 0 < align x /\ align (align x) = align x).
  { intros x X. unfold align. destruct trig; auto. split; [now apply aligned_pos | now apply C57_again]. }
  assert (K : exists x, 0 < x /\ d' = align x).
  { destruct (Qeq_bool d 0) eqn:E.
    - destruct (moves || match trig with NONE => false | _ => true end); [|discriminate]. destruct guess as [[g|]|e]; try discriminate.
      specialize (G g eq_refl). destruct (Qeq_bool g 0); [discriminate|]. fold (align g) in H. destruct (Qeq_bool (align g) d); [discriminate|]. injection H as <-. eauto.
    - fold (align d) in H. destruct (Qeq_bool (align d) d) eqn:E2; [discriminate|]. injection H as <-. exists d. split; [|reflexivity].
      apply Qeq_bool_neq in E. apply Qle_lteq in D. destruct D; [assumption|]. exfalso. apply E. lra. }
  destruct K as (x & X & ->). destruct (A x X) as [P Q]. fold (align (align x)). rewrite Q.
  rewrite (proj2 (Qle_bool_iff 0 (align x))) by lra. cbn [negb].
  assert (E : Qeq_bool (align x) 0 = false). { destruct (Qeq_bool (align x) 0) eqn:E; [|reflexivity]. apply Qeq_bool_iff in E. lra. }
  rewrite E. now rewrite Qeq_bool_refl.
Qed.

(** ** Examples and what goes wrong *)

Example C57_ex : get_aligned 3200 (1 # 10) == 1 # 10 /\ get_aligned 5000 (1 # 10) == 99998 # 1000000 /\ half_needs 5000 (1 # 10) 250.
Proof. unfold half_needs. split; [vm_compute; reflexivity|]. split; [vm_compute; reflexivity|]. split; vm_compute; [reflexivity | discriminate]. Qed.
Definition slow_motor : motor := mkMotor 10 2 100 (-100) true.
Definition at_x (x : Q) : ppoint := mkPt 1 (fun _ => x) (fun _ => x - (1 # 2)) (fun _ => x + (1 # 2)).
Example C57_ex_validate : on_validate true EVERY_POINT 5000 true (Ok (Some (1 # 10))) 0 = Ok (Some (get_aligned 5000 (1 # 10))) /\
  on_validate true NONE 5000 false (Ok None) 0 = Ok None.
Proof. split; vm_compute; reflexivity. Qed.
Example C57_ex_guess : duration_from_first_two [("x"%string, ("a"%string, slow_motor))] (at_x 0) (at_x 3) == 3 # 2.
Proof. vm_compute. reflexivity. Qed.
(** The duration can be made shorter than asked for. *)
Theorem C57_shorter_refuted : exists f d, 0 < f /\ 0 < d /\ get_aligned f d < d.
Proof. exists 5000, (1 # 10). split; [reflexivity|]. split; [reflexivity|]. vm_compute. reflexivity. Qed.
(** Going down, the guess can be far too short: the direction is not allowed for. *)
Theorem C57_guess_down_refuted : exists axes p q a, In a axes /\ 0 < mi_max (snd (snd a)) /\
  mi_max (snd (snd a)) * 1000000 < qabs ((pt_pos q (fst a) - pt_pos p (fst a)) / duration_from_first_two axes p q).
Proof.
  exists [("x"%string, ("a"%string, slow_motor))], (at_x 3), (at_x 0), ("x"%string, ("a"%string, slow_motor)).
  split; [left; reflexivity|]. split; vm_compute; reflexivity.
Qed.

(** ** C58: velocities at the bounds *)

(** Uniformly accelerated motion from [x0] with [v0] at first and acceleration [acc]. *)
Definition x_at (x0 v0 acc t : Q) : Q := x0 + v0 * t + acc / 2 * (t * t).
Definition v_at (v0 acc t : Q) : Q := v0 + acc * t.
(** A point of the scan on such a motion. *)
Definition moves_so (p : ppoint) (n : string) (x0 v0 acc : Q) : Prop :=
  pt_low p n == x_at x0 v0 acc 0 /\ pt_pos p n == x_at x0 v0 acc (pt_dur p / 2) /\ pt_up p n == x_at x0 v0 acc (pt_dur p).

Lemma velocity_ok : forall a p entry v, point_velocity a p entry = Ok v ->
  v = 4 * (if entry then pt_pos p (fst a) - pt_low p (fst a) else pt_up p (fst a) - pt_pos p (fst a)) / pt_dur p - (pt_up p (fst a) - pt_low p (fst a)) / pt_dur p.
Proof. intros a p entry v H. unfold point_velocity in H. destruct (Qle_bool _ _); [discriminate|]. injection H as <-. reflexivity. Qed.
(** The velocity found is that at the start or the end of the point. *)
Theorem C58_velocity : forall a p entry v x0 v0 acc, 0 < pt_dur p -> moves_so p (fst a) x0 v0 acc ->
  point_velocity a p entry = Ok v -> v == v_at v0 acc (if entry then 0 else pt_dur p).
Proof.
  intros a p entry v x0 v0 acc D (L & P & U) H. apply velocity_ok in H. subst v. unfold v_at, x_at in *. destruct entry.
  - rewrite P, U, L. field. lra.
  - rewrite P, U, L. field. lra.
Qed.
(** It is refused exactly if it is more than a millionth over what the motor can do. *)
Theorem C58_refused : forall a p entry x0 v0 acc, 0 < pt_dur p -> 0 < mi_max (snd (snd a)) -> moves_so p (fst a) x0 v0 acc ->
  ((exists v, point_velocity a p entry = Ok v) <-> Qabs (v_at v0 acc (if entry then 0 else pt_dur p)) < (1 + (1 # 1000000)) * mi_max (snd (snd a))).
Proof.
  intros a p entry x0 v0 acc D M (L & P & U). unfold point_velocity.
  set (v := 4 * _ / _ - _). set (m := mi_max (snd (snd a))) in *.
  assert (V : v == v_at v0 acc (if entry then 0 else pt_dur p)).
  { unfold v, v_at, x_at in *. destruct entry; rewrite P, U, L; field; lra. }
  clearbody v m. rewrite <- V. rewrite <- qabs_eq. set (w := qabs v). clearbody w.
  assert (X : (w - m) / m < 1 # 1000000 <-> w < (1 + (1 # 1000000)) * m).
  { split; intros H.
    - apply (Qmult_lt_l _ _ m M) in H. setoid_replace (m * ((w - m) / m)) with (w - m) in H by (field; lra). lra.
    - apply Qlt_shift_div_r; [exact M|]. lra. }
  destruct (Qle_bool (1 # 1000000) ((w - m) / m)) eqn:E.
  - apply Qle_bool_iff in E. split; [intros [? ?]; discriminate|]. intros H. apply X in H. lra.
  - apply qle_false in E. split; [|eauto]. intros _. now apply X.
Qed.

(** ** C58: the run up and the tail off *)

(** Where the move to the start sends an axis: accelerating uniformly from rest there, for no less than
    MIN_TIME and no faster than the motor can, it comes to the lower bound with the velocity of the point. *)
Definition runs_up (a : axis) (p : ppoint) (v pos t : Q) : Prop :=
  x_at pos 0 (v / t) t == pt_low p (fst a) /\ v_at 0 (v / t) t == v /\ Qabs (v / t) <= mi_acc (snd (snd a)).

Lemma ramp_ok : forall (mo : motor) v, 0 < mi_acc mo -> 
  let t := qmax (acceleration_time mo 0 v) MIN_TIME in
  MIN_TIME <= t /\ Qabs (v / t) <= mi_acc mo /\ ramp_distance mo 0 v None (Some MIN_TIME) == v * t / 2.
Proof.
  intros mo v A t. pose proof (qmax_spec (acceleration_time mo 0 v) MIN_TIME) as (M1 & M2 & _). fold t in M1, M2.
  assert (T : 0 < t) by (unfold MIN_TIME in M2; lra).
  split; [exact M2|]. split.
  - assert (Z : Qabs (v / t) == Qabs v / t). { unfold Qdiv. rewrite Qabs_Qmult. rewrite (Qabs_pos (/ t)); [reflexivity|]. apply Qlt_le_weak, Qinv_lt_0_compat, T. }
    rewrite Z. apply Qle_shift_div_r; [exact T|]. unfold acceleration_time in M1. rewrite qabs_eq in M1.
    setoid_replace (v - 0) with v in M1 by ring. clearbody t. set (w := Qabs v) in *. clearbody w. apply (Qmult_le_l _ _ (mi_acc mo) A) in M1. setoid_replace (mi_acc mo * (w / mi_acc mo)) with w in M1 by (field; lra). exact M1.
  - unfold ramp_distance. fold t. field.
Qed.
Lemma move_In : forall axes p l a, move_to_start axes p = Ok l -> In a axes -> exists v,
  point_velocity a p true = Ok v /\ let pos := pt_low p (fst a) - ramp_distance (snd (snd a)) 0 v None (Some MIN_TIME) in
  In (fst (snd a), pos) l /\ within_limits (snd (snd a)) pos = true.
Proof.
  intros axes. induction axes as [|b r IH]; [intros p l a _ []|]; intros p l a H [<-|A]; cbn [move_to_start] in H; destruct (point_velocity b p true) as [v|e1] eqn:V; try discriminate;
    destruct (within_limits (snd (snd b)) _) eqn:W; try discriminate; destruct (move_to_start r p) as [l'|e2] eqn:M; try discriminate; injection H as <-.
  - exists v. split; [first [exact V | reflexivity]|]. split; [left; reflexivity | exact W].
  - destruct (IH p l' a M A) as (w & H1 & H2 & H3). exists w. split; [exact H1|]. split; [right; exact H2 | exact H3].
Qed.
Theorem C58_start : forall axes p l a, (forall b, In b axes -> 0 < mi_acc (snd (snd b))) -> move_to_start axes p = Ok l -> In a axes ->
  exists v pos t, point_velocity a p true = Ok v /\ In (fst (snd a), pos) l /\ MIN_TIME <= t /\ runs_up a p v pos t /\
  (mi_soft (snd (snd a)) = true -> mi_low (snd (snd a)) <= pos <= mi_high (snd (snd a))).
Proof.
  intros axes p l a A M I. destruct (move_In axes p l a M I) as (v & V & L & W). 
  destruct (ramp_ok (snd (snd a)) v (A a I)) as (R1 & R2 & R3). cbn zeta in *.
  set (t := qmax (acceleration_time (snd (snd a)) 0 v) MIN_TIME) in *. set (pos := pt_low p (fst a) - _) in *.
  exists v, pos, t. split; [exact V|]. split; [exact L|]. split; [exact R1|]. split.
  - assert (T : 0 < t) by (unfold MIN_TIME in R1; lra). unfold runs_up, x_at, v_at. split; [|split; [field; lra | exact R2]].
    unfold pos. rewrite R3. field. lra.
  - intros S. unfold within_limits in W. rewrite S in W. apply andb_true_iff in W. destruct W as [W1 W2]. apply Qle_bool_iff in W1, W2. split; assumption.
Qed.
Lemma run_up_ge : forall axes p t T, run_up_time axes p t = Ok T -> t <= T /\
  (forall a, In a axes -> exists v, point_velocity a p true = Ok v /\ accel_time (snd (snd a)) v <= T) /\
  (T = t \/ exists a v, In a axes /\ point_velocity a p true = Ok v /\ T = accel_time (snd (snd a)) v).
Proof.
  intros axes. induction axes as [|b r IH]; intros p t T H; cbn [run_up_time] in H.
  - injection H as <-. split; [lra|]. split; [intros a []|left; reflexivity].
  - destruct (point_velocity b p true) as [v|e1] eqn:V; [|discriminate]. destruct (IH _ _ _ H) as (I1 & I2 & I3).
    pose proof (qmax_spec t (accel_time (snd (snd b)) v)) as (M1 & M2 & M3).
    split; [lra|]. split.
    + intros a [<-|A]; [exists v; split; [exact V | lra] | apply I2; exact A].
    + destruct I3 as [->|(a & w & A & W & ->)]; [|right; exists a, w; split; [right; exact A | auto]].
      destruct M3 as [->| ->]; [left; reflexivity | right; exists b, v; split; [left; reflexivity | auto]].
Qed.
(** The run up takes the time of the slowest axis. *)
Theorem C58_run_up_time : forall axes p interval T, run_up_time axes p interval = Ok T -> interval <= T /\
  (forall a, In a axes -> exists v, point_velocity a p true = Ok v /\ Qabs v / mi_acc (snd (snd a)) <= T) /\
  (T = interval \/ exists a v, In a axes /\ point_velocity a p true = Ok v /\ T == Qabs v / mi_acc (snd (snd a))).
Proof.
  intros axes p i T H. destruct (run_up_ge axes p i T H) as (H1 & H2 & H3). split; [exact H1|]. split.
  - intros a A. destruct (H2 a A) as (v & V & L). exists v. split; [exact V|]. unfold accel_time in L. now rewrite qabs_eq in L.
  - destruct H3 as [->|(a & v & A & V & ->)]; [left; reflexivity | right]. exists a, v. split; [exact A|]. split; [exact V|]. unfold accel_time. now rewrite qabs_eq.
Qed.
(** An axis as slow as that arrives at the bound at that time with the velocity of the point. *)
Theorem C58_slowest : forall axes p l interval T a v, (forall b, In b axes -> 0 < mi_acc (snd (snd b))) -> move_to_start axes p = Ok l ->
  run_up_time axes p interval = Ok T -> In a axes -> point_velocity a p true = Ok v -> MIN_TIME <= interval -> Qabs v / mi_acc (snd (snd a)) == T ->
  exists pos, In (fst (snd a), pos) l /\ runs_up a p v pos T.
Proof.
  intros axes p l i T a v A M R I V L E. destruct (move_In axes p l a M I) as (v' & V' & K & _). assert (v' = v) by congruence. subst v'.
  destruct (ramp_ok (snd (snd a)) v (A a I)) as (R1 & R2 & R3). cbn zeta in *.
  destruct (run_up_ge axes p i T R) as (G & _ & _).
  set (t := qmax (acceleration_time (snd (snd a)) 0 v) MIN_TIME) in *.
  assert (Et : t == T).
  { assert (B : acceleration_time (snd (snd a)) 0 v == T). { unfold acceleration_time. rewrite qabs_eq. setoid_replace (v - 0) with v by ring. exact E. }
    unfold t. destruct (qmax_spec (acceleration_time (snd (snd a)) 0 v) MIN_TIME) as (M1 & M2 & [M3|M3]).
    - rewrite M3. exact B.
    - rewrite M3 in *. lra. }
  eexists. split; [exact K|]. assert (T0 : 0 < T) by (unfold MIN_TIME in *; lra).
  unfold runs_up, x_at, v_at. cbn zeta. split; [|split].
  - rewrite R3, Et. field. lra.
  - field. lra.
  - rewrite <- Et. exact R2.
Qed.
(** A faster axis has to go a different way: if it accelerates uniformly it is too slow at the bound. *)
Definition fast_motor : motor := mkMotor 100 10 100 (-100) true.
Definition xy : list axis := [("x"%string, ("a"%string, slow_motor)); ("y"%string, ("b"%string, fast_motor))].
Definition xy_point : ppoint := mkPt 1 (fun n => if String.eqb n "x" then 1 # 2 else 1 # 2) (fun _ => 0) (fun n => 1).
Theorem C58_run_up_refuted : exists axes p l T a v pos, (forall b, In b axes -> 0 < mi_acc (snd (snd b))) /\ move_to_start axes p = Ok l /\
  run_up_time axes p MIN_INTERVAL = Ok T /\ In a axes /\ point_velocity a p true = Ok v /\ In (fst (snd a), pos) l /\
  forall acc, x_at pos 0 acc T == pt_low p (fst a) -> v_at 0 acc T == v / 10.
Proof.
  exists xy, xy_point. eexists. eexists. exists ("y"%string, ("b"%string, fast_motor)). eexists. eexists.
  split. { intros b [<-|[<-|[]]]; reflexivity. }
  split; [vm_compute; reflexivity|]. split; [vm_compute; reflexivity|]. split; [right; left; reflexivity|].
  split; [vm_compute; reflexivity|]. split; [right; left; reflexivity|].
  intros acc H. unfold x_at, v_at in *. cbn [pt_low xy_point fst] in H.
  unfold Qdiv in *. change (/ 2) with (1 # 2) in *. change (/ 10) with (1 # 10). lra.
Qed.
Example C58_ex : match move_to_start xy xy_point, run_up_time xy xy_point MIN_INTERVAL with
  | Ok [(_, x); (_, y)], Ok t => x == - (1 # 20) /\ y == - (1 # 200) /\ t == 1 # 10 | _, _ => False end.
Proof. vm_compute. auto. Qed.
Example C58_ex_moves : moves_so xy_point "x" 0 1 0.
Proof. repeat split; vm_compute; reflexivity. Qed.

(** The tail off: slowing down uniformly from the upper bound, as fast as the motor can, an axis stops
    where it is sent, within its limits. *)
Lemma tail_In : forall axes p t T l a, tail_off axes p t = Ok (T, l) -> In a axes -> exists v pos, point_velocity a p false = Ok v /\
  In (fst a, pos) l /\ pos = pt_up p (fst a) + ramp_to_zero (snd (snd a)) v /\ within_limits (snd (snd a)) pos = true /\ accel_time (snd (snd a)) v <= T.
Proof.
  assert (G : forall axes p t T l, tail_off axes p t = Ok (T, l) -> t <= T).
  { intros axes. induction axes as [|b r IH]; intros p t T l H; cbn [tail_off] in H; [injection H as <- _; lra|].
    destruct (point_velocity b p false) as [v|e1]; [|discriminate]. destruct (within_limits _ _); [|discriminate].
    destruct (tail_off r p _) as [[t' pts]|e2] eqn:E; [|discriminate]. injection H as <- _. apply IH in E. pose proof (qmax_spec t (accel_time (snd (snd b)) v)) as (M1 & _). lra. }
  intros axes. induction axes as [|b r IH]; [intros p t T l a _ []|]; intros p t T l a H [<-|A]; cbn [tail_off] in H; destruct (point_velocity b p false) as [v|e1] eqn:V; try discriminate;
    destruct (within_limits (snd (snd b)) _) eqn:W; try discriminate; destruct (tail_off r p _) as [[t' pts]|e2] eqn:E; try discriminate; injection H as <- <-.
  - exists v. eexists. split; [first [exact V | reflexivity]|]. split; [left; reflexivity|]. split; [reflexivity|]. split; [exact W|]. apply G in E. pose proof (qmax_spec t (accel_time (snd (snd b)) v)) as (_ & M2 & _). lra.
  - destruct (IH _ _ _ _ _ E A) as (w & pos & H1 & H2 & H3). exists w, pos. split; [exact H1|]. split; [right; exact H2 | exact H3].
Qed.
Theorem C58_tail : forall axes p interval T l a, (forall b, In b axes -> 0 < mi_acc (snd (snd b))) -> tail_off axes p interval = Ok (T, l) -> In a axes ->
  exists v pos t, point_velocity a p false = Ok v /\ In (fst a, pos) l /\ 0 <= t <= T /\
  (v == 0 \/ x_at (pt_up p (fst a)) v (- (v / t)) t == pos /\ v_at v (- (v / t)) t == 0 /\ Qabs (v / t) == mi_acc (snd (snd a))) /\
  (v == 0 -> pos == pt_up p (fst a)) /\ (mi_soft (snd (snd a)) = true -> mi_low (snd (snd a)) <= pos <= mi_high (snd (snd a))).
Proof.
  intros axes p i T l a A H I. destruct (tail_In axes p i T l a H I) as (v & pos & V & L & E & W & G). specialize (A a I).
  set (c := mi_acc (snd (snd a))) in *. exists v, pos, (Qabs v / c). split; [exact V|]. split; [exact L|].
  assert (At : accel_time (snd (snd a)) v == Qabs v / c) by (unfold accel_time; rewrite qabs_eq; reflexivity).
  split. { split; [|rewrite <- At; exact G]. apply Qle_shift_div_l; [exact A|]. pose proof (Qabs_nonneg v). lra. }
  assert (R : pos == pt_up p (fst a) + v * (Qabs v / c) / 2) by (rewrite E; unfold ramp_to_zero; rewrite At; reflexivity).
  split; [|split].
  - destruct (Qeq_dec v 0) as [Z|Z]; [left; exact Z | right].
    assert (N : 0 < Qabs v). { pose proof (Qabs_nonneg v) as P. apply Qle_lteq in P. destruct P as [P|P]; [exact P|]. exfalso. apply Z. 
      destruct (Qlt_le_dec v 0) as [K|K]; [rewrite Qabs_neg in P by lra; lra | rewrite Qabs_pos in P by lra; lra]. }
    assert (X : Qabs (v / (Qabs v / c)) == c).
    { setoid_replace (v / (Qabs v / c)) with (v * (c / Qabs v)) by (field; split; lra). rewrite Qabs_Qmult. rewrite (Qabs_pos (c / Qabs v)); [field; lra|]. apply Qle_shift_div_l; [exact N|]. lra. }
    unfold x_at, v_at. set (w := Qabs v) in *. clearbody w c. split; [|split; [|exact X]].
    + rewrite R. field. split; lra.
    + field. split; lra.
  - intros Z. rewrite R, Z. field. lra.
  - intros S. unfold within_limits in W. rewrite S in W. apply andb_true_iff in W. destruct W as [W1 W2]. apply Qle_bool_iff in W1, W2. split; assumption.
Qed.
Example C58_ex_tail : match tail_off xy xy_point MIN_INTERVAL with Ok (t, [(_, x); (_, y)]) => t == 1 # 10 /\ x == 21 # 20 /\ y == 201 # 200 | _ => False end.
Proof. vm_compute. auto. Qed.

Print Assumptions C57_aligned.
Print Assumptions C57_loss.
Print Assumptions C57_again.
Print Assumptions C57_guess.
Print Assumptions C57_guess_speed.
Print Assumptions C57_tweaked_once.
Print Assumptions C57_shorter_refuted.
Print Assumptions C57_guess_down_refuted.
Print Assumptions C58_velocity.
Print Assumptions C58_refused.
Print Assumptions C58_start.
Print Assumptions C58_run_up_time.
Print Assumptions C58_slowest.
Print Assumptions C58_run_up_refuted.
Print Assumptions C58_tail.
