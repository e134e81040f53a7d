(* C111: the rows that become one line, and how far from that line their points are. *)
From Coq Require Import String Bool ZArith QArith Qabs Qround Lia Lqa List.
From Verif Require Import Base Pmac_Model Motion_Model Motion_Props Sparse_Model PTime_Props.
Import ListNotations.
Local Open Scope list_scope.
Local Open Scope Q_scope.

(* ---- specification ---- *)
(* the time of these points *)
Definition time_of (l : list ppoint) : Q := fold_right (fun p t => pt_dur p + t) 0 l.
(* how far these points take an axis in all *)
Definition way_of (a : string) (first last : ppoint) : Q := pt_up last a - pt_low first a.
(* the line from the lower bound of the first to the upper bound of the last point, after that time *)
Definition on_line (a : string) (first last : ppoint) (T t : Q) : Q := pt_low first a + way_of a first last * t / T.
Section Row.
Variable a : string.
(* each point goes on where the one before ended *)
Fixpoint chained (l : list ppoint) : Prop :=
  match l with p :: ((q :: _) as r) => pt_up p a == pt_low q a /\ chained r | _ => True end.
Definition timed (l : list ppoint) : Prop := Forall (fun p => 0 < pt_dur p) l.
Definition speed (p : ppoint) : Q := (pt_up p a - pt_low p a) / pt_dur p.
(* neighbours have velocities that differ by at most e *)
Fixpoint steady (e : Q) (l : list ppoint) : Prop :=
  match l with p :: ((q :: _) as r) => Qabs (speed p - speed q) <= e /\ steady e r | _ => True end.

(* ---- proofs ---- *)
Lemma ways l : forall p f, chained (f :: l ++ [p]) -> fold_right (fun p t => pt_up p a - pt_low p a + t) 0 (f :: l ++ [p]) == way_of a f p.
Proof.
  unfold way_of. induction l as [|x r IH]; intros p f C.
  - cbn [app chained fold_right] in *. destruct C as [C _]. rewrite C. ring.
  - cbn [app] in *. destruct C as [C1 C2]. specialize (IH p x C2). cbn [fold_right] in *. rewrite IH, C1. ring.
Qed.
Lemma span_speed p : 0 < pt_dur p -> pt_up p a - pt_low p a == speed p * pt_dur p.
Proof. intros D. unfold speed. field. lra. Qed.
Lemma spread l w B : timed l -> Forall (fun p => Qabs (speed p - w) <= B) l ->
  Qabs (fold_right (fun p t => pt_up p a - pt_low p a + t) 0 l - w * time_of l) <= B * time_of l.
Proof.
  unfold time_of. induction l as [|p r IH]; intros D F; cbn [fold_right].
  - setoid_replace (0 - w * 0) with 0 by ring. rewrite Qabs_pos by lra. lra.
  - inversion D as [|? ? D1 D2]; subst. inversion F as [|? ? F1 F2]; subst. specialize (IH D2 F2).
    set (s := fold_right _ 0 r) in *. set (t := fold_right (fun p t => pt_dur p + t) 0 r) in *. clearbody s t.
    pose proof (span_speed p D1) as S. set (u := pt_up p a - pt_low p a) in *. clearbody u.
    setoid_replace (u + s - w * (pt_dur p + t)) with ((speed p - w) * pt_dur p + (s - w * t)) by (rewrite S; ring).
    eapply Qle_trans; [apply Qabs_triangle|]. rewrite Qabs_Qmult, (Qabs_pos (pt_dur p)) by lra.
    setoid_replace (B * (pt_dur p + t)) with (B * pt_dur p + B * t) by ring. apply Qplus_le_compat; [|exact IH].
    apply Qmult_le_compat_r; [exact F1|lra].
Qed.
Lemma steady_head e l : 0 <= e -> forall p w k, steady e (p :: l) -> Qabs (speed p - w) <= k * e ->
  Forall (fun x => Qabs (speed x - w) <= (k + inject_Z (Z.of_nat (length l))) * e) (p :: l).
Proof.
  intros E. induction l as [|q r IH]; intros p w k S H.
  - constructor; [|constructor]. eapply Qle_trans; [exact H|]. cbn [length]. change (inject_Z (Z.of_nat 0)) with 0. lra.
  - cbn [steady] in S. destruct S as [S1 S2].
    assert (HQ : Qabs (speed q - w) <= (k + 1) * e).
    { setoid_replace (speed q - w) with ((speed p - w) + - (speed p - speed q)) by ring.
      eapply Qle_trans; [apply Qabs_triangle|]. rewrite Qabs_opp. lra. }
    specialize (IH q w (k + 1) S2 HQ).
    assert (L : (k + 1 + inject_Z (Z.of_nat (length r))) * e == (k + inject_Z (Z.of_nat (length (q :: r)))) * e).
    { cbn [length]. rewrite Nat2Z.inj_succ, <- Z.add_1_r, inject_Z_plus. ring. }
    constructor.
    + eapply Qle_trans; [exact H|]. apply Qmult_le_compat_r; [|exact E].
      assert (0 <= inject_Z (Z.of_nat (length (q :: r)))) by (change 0 with (inject_Z 0); rewrite <- Zle_Qle; lia). lra.
    + eapply Forall_impl; [|exact IH]. intros x X. cbn beta in X. rewrite L in X. exact X.
Qed.
Lemma time_pos l : timed l -> l <> [] -> 0 < time_of l.
Proof.
  unfold time_of. intros D N. destruct l as [|p r]; [congruence|]. inversion D as [|? ? D1 D2]; subst. cbn [fold_right]. clear N D.
  assert (0 <= fold_right (fun p t => pt_dur p + t) 0 r); [|lra]. induction D2 as [|x l X D2 IH]; cbn [fold_right]; lra.
Qed.
Lemma chained_prefix l k : chained (l ++ k) -> chained l.
Proof. induction l as [|p r IH]; intros H; [exact I|]. destruct r as [|q r]; [exact I|]. cbn [app] in H. destruct H as [A B]. split; [exact A|]. apply IH. exact B. Qed.
Lemma in_bounds l f p w B : chained (f :: l ++ [p]) -> timed (f :: l ++ [p]) -> Forall (fun x => Qabs (speed x - w) <= B) (f :: l ++ [p]) ->
  Qabs (way_of a f p - w * time_of (f :: l ++ [p])) <= B * time_of (f :: l ++ [p]).
Proof. intros C D F. rewrite <- (ways l p f C). now apply spread. Qed.
(* the points of a row between its first f and its last z: how far the upper bound of p is from the line *)
Lemma off_line f l p k z w B : 0 <= B -> let row := f :: l ++ [p] ++ k ++ [z] in
  chained row -> timed row -> Forall (fun x => Qabs (speed x - w) <= B) row ->
  Qabs (pt_up p a - on_line a f z (time_of row) (time_of (f :: l ++ [p]))) <= 2 * B * time_of (f :: l ++ [p]).
Proof.
  intros HB row C D F. assert (E : row = f :: (l ++ [p] ++ k) ++ [z]) by (unfold row; now rewrite <- !app_assoc).
  assert (E2 : row = (f :: l ++ [p]) ++ k ++ [z]) by (unfold row; cbn [app]; now rewrite <- app_assoc).
  assert (A1 : Qabs (way_of a f p - w * time_of (f :: l ++ [p])) <= B * time_of (f :: l ++ [p])).
  { rewrite E2 in C, D, F. unfold timed in D. apply Forall_app in D as [D _]. apply Forall_app in F as [F _]. apply in_bounds; [exact (chained_prefix _ _ C)|exact D|exact F]. }
  assert (A2 : Qabs (way_of a f z - w * time_of row) <= B * time_of row).
  { rewrite E. apply in_bounds; rewrite <- E; assumption. }
  assert (P1 : 0 < time_of (f :: l ++ [p])). { apply time_pos; [|discriminate]. rewrite E2 in D. unfold timed in *. now apply Forall_app in D. }
  assert (P2 : 0 < time_of row) by (apply time_pos; [exact D|discriminate]).
  unfold on_line. set (T := time_of row) in *. set (t := time_of (f :: l ++ [p])) in *. clearbody T t.
  assert (G : pt_up p a - (pt_low f a + way_of a f z * t / T) == (way_of a f p - w * t) + - ((way_of a f z - w * T) * (t / T))).
  { unfold way_of at 2. field. lra. }
  rewrite G. eapply Qle_trans; [apply Qabs_triangle|]. rewrite Qabs_opp, Qabs_Qmult.
  assert (R : 0 <= t / T) by (apply Qle_shift_div_l; lra). rewrite (Qabs_pos (t / T)) by exact R.
  assert (X : Qabs (way_of a f z - w * T) * (t / T) <= B * T * (t / T)) by (apply Qmult_le_compat_r; assumption).
  assert (Y : B * T * (t / T) == B * t) by (field; lra). rewrite Y in X. lra.
Qed.
End Row.

(* what the two tests see *)
Lemma seen names delay a row V : In a names -> straight (joined_pair delay names) (same_pair names) row ->
  (forall p, In p row -> Qabs (speed a p) <= V) ->
  chained a row /\ timed row /\ steady a ((1 # 100000000) + (1 # 100000) * V) row.
Proof.
  intros Ha. induction row as [|p r IH]; intros S HV; [repeat split; constructor|]. cbn [straight] in S. destruct S as (D & J & S).
  destruct (IH S (fun x I => HV x (or_intror I))) as (A & B & C). destruct r as [|q r]; [repeat split; now constructor|].
  destruct J as [J1 J2]. unfold joined_pair in J1. unfold same_pair in J2. rewrite forallb_forall in J1, J2. specialize (J1 a Ha). specialize (J2 a Ha). cbn beta in *.
  apply andb_true_iff in J1 as [J1 _]. apply Qeq_bool_iff in J1. unfold isclose in J2. apply Qle_bool_iff in J2. rewrite !qabs_eq in J2.
  split; [split; assumption|]. split; [constructor; assumption|]. split; [|exact C]. change (velocity a) with (speed a) in J2.
  eapply Qle_trans; [exact J2|]. specialize (HV q (or_intror (or_introl eq_refl))). lra.
Qed.
(* A row that is thinned out to a line (C110_straight_row): the points that are left out are not further from
   that line than the time to get there allows with the change of velocity seen as none from one point to the
   next, taken over all points *)
Theorem C111_near_the_line names delay a f l p k z V : In a names -> let row := f :: l ++ [p] ++ k ++ [z] in
  straight (joined_pair delay names) (same_pair names) row -> (forall x, In x row -> Qabs ((pt_up x a - pt_low x a) / pt_dur x) <= V) ->
  let B := inject_Z (Z.of_nat (length row)) * ((1 # 100000000) + (1 # 100000) * V) in
  Qabs (pt_up p a - on_line a f z (time_of row) (time_of (f :: l ++ [p]))) <= 2 * B * time_of (f :: l ++ [p]).
Proof.
  intros Ha row S HV B. destruct (seen names delay a row V Ha S HV) as (C & D & St). set (e := (1 # 100000000) + (1 # 100000) * V) in *.
  assert (E : 0 <= e). { assert (0 <= V); [|unfold e; lra]. eapply Qle_trans; [apply Qabs_nonneg|]. apply (HV f). now left. }
  assert (HB : 0 <= B). { unfold B. apply Qmult_le_0_compat; [|exact E]. change 0 with (inject_Z 0). rewrite <- Zle_Qle. lia. }
  apply off_line with (w := speed a f); [exact HB|exact C|exact D|].
  assert (Z0 : Qabs (speed a f - speed a f) <= 0 * e) by (setoid_replace (speed a f - speed a f) with 0 by ring; rewrite Qabs_pos by lra; lra).
  eapply Forall_impl; [|exact (steady_head a e (l ++ [p] ++ k ++ [z]) E f (speed a f) 0 St Z0)].
  intros x X. cbn beta in X. eapply Qle_trans; [exact X|]. unfold B. apply Qmult_le_compat_r; [|exact E]. unfold row. cbn [length].
  rewrite Nat2Z.inj_succ, <- Z.add_1_r, inject_Z_plus. change (inject_Z 1) with 1. lra.
Qed.
(* with the same velocity over all points they are on it *)
Theorem C111_on_the_line a f l p k z v : let row := f :: l ++ [p] ++ k ++ [z] in
  chained a row -> timed row -> (forall x, In x row -> (pt_up x a - pt_low x a) / pt_dur x == v) ->
  pt_up p a == on_line a f z (time_of row) (time_of (f :: l ++ [p])).
Proof.
  intros row C D E. assert (H : Qabs (pt_up p a - on_line a f z (time_of row) (time_of (f :: l ++ [p]))) <= 2 * 0 * time_of (f :: l ++ [p])).
  { apply off_line with (w := v); [lra|exact C|exact D|]. apply Forall_forall. intros x I. unfold speed. rewrite (E x I).
    setoid_replace (v - v) with 0 by ring. rewrite Qabs_pos by lra. lra. }
  assert (H0 : Qabs (pt_up p a - on_line a f z (time_of row) (time_of (f :: l ++ [p]))) <= 0) by lra.
  apply Qabs_Qle_condition in H0. lra.
Qed.

(* But there is no bound to it: each point as fast as the one before as far as the code can see, all of them far
   from the line *)
Definition at_ (k : Z) : Q := (200000 * k + k * (k - 1)) # 200000.
Definition bend_pt (k : nat) : ppoint :=
  let z := Z.of_nat k in mkPt 1 (fun _ => (at_ z + at_ (z + 1)) / 2) (fun _ => at_ z) (fun _ => at_ (z + 1)).
Definition bend (n : nat) : list ppoint := map bend_pt (seq 0 n).
Lemma bend_speed a k : velocity a (bend_pt k) == 1 + (Z.of_nat k # 100000).
Proof.
  unfold velocity, bend_pt, at_. cbn [pt_up pt_low pt_dur]. set (z := Z.of_nat k). unfold Qeq, Qdiv, Qminus, Qplus, Qopp, Qmult, Qinv. cbn [Qnum Qden].
  cbn [Pos.mul]. lia.
Qed.
Lemma bend_same names k : same_pair names (bend_pt k) (bend_pt (S k)) = true.
Proof.
  unfold same_pair. apply forallb_forall. intros a _. unfold isclose. apply Qle_bool_iff. rewrite !qabs_eq.
  rewrite !bend_speed. assert (P : 0 <= Z.of_nat k # 100000) by (unfold Qle; cbn; lia).
  assert (E : Z.of_nat (S k) # 100000 == (Z.of_nat k # 100000) + (1 # 100000)) by (unfold Qeq, Qplus; cbn [Qnum Qden]; lia).
  rewrite E. set (u := Z.of_nat k # 100000) in *. clearbody u.
  setoid_replace (1 + u - (1 + (u + (1 # 100000)))) with (- (1 # 100000)) by ring. rewrite Qabs_opp, !Qabs_pos by lra. lra.
Qed.
Lemma bend_joined names k : joined_pair (fun _ => 0) names (bend_pt k) (bend_pt (S k)) = true.
Proof.
  unfold joined_pair. apply forallb_forall. intros a _. apply andb_true_iff. split; [|reflexivity]. apply Qeq_bool_iff. unfold bend_pt. cbn [pt_up pt_low].
  rewrite Nat2Z.inj_succ. reflexivity.
Qed.
Lemma bend_straight names n : forall s, straight (joined_pair (fun _ => 0) names) (same_pair names) (map bend_pt (seq s n)).
Proof.
  induction n as [|n IH]; intros s; [exact I|]. cbn [seq map straight]. split; [reflexivity|]. split; [|apply IH].
  destruct n; cbn [seq map]; [exact I|]. split; [apply bend_joined|apply bend_same].
Qed.
Lemma bend_time n : forall s, time_of (map bend_pt (seq s n)) == inject_Z (Z.of_nat n).
Proof.
  unfold time_of. induction n as [|n IH]; intros s; [reflexivity|]. cbn [seq map fold_right]. rewrite IH, Nat2Z.inj_succ, <- Z.add_1_r, inject_Z_plus.
  change (pt_dur (bend_pt s)) with 1. change (inject_Z 1) with 1. ring.
Qed.
Theorem C111_bent_refuted names a : forall D, exists f l p k z, let row := f :: l ++ [p] ++ k ++ [z] in
  straight (joined_pair (fun _ => 0) names) (same_pair names) row /\
  D <= Qabs (pt_up p a - on_line a f z (time_of row) (time_of (f :: l ++ [p]))).
Proof.
  intros D. pose (m := Z.to_nat (200000 * Z.max 1 (Qceiling D))).
  assert (M : (Z.of_nat m = 200000 * Z.max 1 (Qceiling D))%Z) by (unfold m; rewrite Z2Nat.id; lia). clearbody m.
  assert (M2 : (2 <= m)%nat) by lia.
  exists (bend_pt 0), (map bend_pt (seq 1 (m - 2))), (bend_pt (m - 1)), (map bend_pt (seq m (m - 1))), (bend_pt (2 * m - 1)).
  assert (E1 : bend_pt 0 :: map bend_pt (seq 1 (m - 2)) ++ [bend_pt (m - 1)] = map bend_pt (seq 0 m)).
  { replace m with (S (m - 2) + 1)%nat at 3 by lia. rewrite seq_app, map_app. cbn [seq map app]. do 4 f_equal. lia. }
  assert (E2 : bend_pt 0 :: map bend_pt (seq 1 (m - 2)) ++ [bend_pt (m - 1)] ++ map bend_pt (seq m (m - 1)) ++ [bend_pt (2 * m - 1)] = map bend_pt (seq 0 (2 * m))).
  { replace (2 * m)%nat with (m + ((m - 1) + 1))%nat at 2 by lia. rewrite !seq_app, !map_app, <- E1. cbn [seq map app]. rewrite <- app_assoc. cbn [app].
    do 5 f_equal. f_equal. lia. }
  cbv zeta. rewrite E2, E1. split; [apply bend_straight|].
  unfold on_line, way_of. rewrite !bend_time. unfold bend_pt. cbn [pt_up pt_low].
  replace (Z.of_nat (m - 1) + 1)%Z with (Z.of_nat m) by lia. replace (Z.of_nat (2 * m - 1) + 1)%Z with (2 * Z.of_nat m)%Z by lia.
  replace (Z.of_nat (2 * m)) with (2 * Z.of_nat m)%Z by lia. change (Z.of_nat 0) with 0%Z. set (w := Z.of_nat m) in *. clearbody w.
  assert (W : 0 < inject_Z w) by (change 0 with (inject_Z 0); rewrite <- Zlt_Qlt; lia).
  assert (A : forall k, at_ k == inject_Z k + inject_Z k * (inject_Z k - 1) / 200000).
  { intros k. unfold at_. change 1 with (inject_Z 1). unfold Qminus, Qdiv. rewrite <- inject_Z_opp, <- inject_Z_plus, <- inject_Z_mult.
    unfold Qeq, Qplus, Qmult, Qinv, inject_Z. cbn [Qnum Qden]. lia. }
  rewrite !A, inject_Z_mult. change (inject_Z 2) with 2. change (inject_Z 0) with 0.
  set (q := inject_Z w) in *.
  assert (G : q + q * (q - 1) / 200000 - (0 + 0 * (0 - 1) / 200000 + (2 * q + 2 * q * (2 * q - 1) / 200000 - (0 + 0 * (0 - 1) / 200000)) * q / (2 * q))
     == - (q * (q / 200000))) by (field; lra).
  rewrite G, Qabs_opp.
  assert (Q1 : q / 200000 == inject_Z (Z.max 1 (Qceiling D))).
  { unfold q. rewrite M, inject_Z_mult. change (inject_Z 200000) with 200000. field. }
  rewrite Q1. pose proof (Qle_ceiling D) as LC.
  assert (L1 : inject_Z (Qceiling D) <= inject_Z (Z.max 1 (Qceiling D))) by (rewrite <- Zle_Qle; lia).
  assert (L2 : 1 <= inject_Z (Z.max 1 (Qceiling D))) by (change 1 with (inject_Z 1); rewrite <- Zle_Qle; lia).
  assert (L3 : 1 <= q) by (unfold q; change 1 with (inject_Z 1); rewrite <- Zle_Qle; lia).
  set (c := inject_Z (Z.max 1 (Qceiling D))) in *. clearbody c. clearbody q.
  assert (L4 : c <= q * c). { setoid_replace c with (1 * c) at 1 by ring. apply Qmult_le_compat_r; lra. }
  rewrite Qabs_pos by lra. lra.
Qed.

(* ---- concrete cases ---- *)
Definition row3 : list ppoint := [mkPt 1 (fun _ => 1) (fun _ => 0) (fun _ => 2); mkPt (1 # 2) (fun _ => 5 # 2) (fun _ => 2) (fun _ => 3); mkPt 2 (fun _ => 5) (fun _ => 3) (fun _ => 7)].
Example C111_ex : straight (joined_pair (fun _ => 0) ["x"%string]) (same_pair ["x"%string]) row3 /\ Forall (fun p => Qabs (speed "x" p) <= 2) row3 /\
  joined_pair (fun _ => 1) ["x"%string] (hd (bend_pt 0) row3) (bend_pt 1) = false.
Proof. vm_compute. repeat split; try (intros H; discriminate H). repeat constructor; intros H; discriminate H. Qed.
(* 2000 points of a second each, from 1 to 1.02 in velocity: 5 off half way *)
Example C111_ex_bent : Qred (at_ 1000 - at_ 2000 / 2) = - (5 # 1) /\ Qred (velocity "x" (bend_pt 1999)) = (101999 # 100000).
Proof. vm_compute. split; reflexivity. Qed.

Print Assumptions C111_near_the_line.
Print Assumptions C111_on_the_line.
Print Assumptions C111_bent_refuted.
