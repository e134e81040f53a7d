(* C38: exposures fit in their frames. *)
From Coq Require Import String Bool ZArith QArith Qround Lqa Lia List.
From Verif Require Import Base Expo_Model.
Import ListNotations.
Local Open Scope list_scope.
Local Open Scope Q_scope.

(* ---- what C38 says ---- *)
(* an exposure fits a frame: with the readout and what the crystal may be wrong by over the
   frame it takes no longer than the frame *)
Definition fits (i : info) (d e : Q) : Prop := e + readout_time i + frequency_accuracy i * d / 1000000 <= d.
Definition sane (i : info) : Prop :=
  0 <= readout_time i /\ 0 <= frequency_accuracy i /\ frequency_accuracy i < 1000000 /\ 0 <= min_exposure i.

Lemma qlt_true a b : qlt a b = true <-> a < b.
Proof.
  unfold qlt. rewrite negb_true_iff. split; intros H.
  - apply Qnot_le_lt. intros X. apply Qle_bool_iff in X. congruence.
  - apply not_true_is_false. intros X. apply Qle_bool_iff in X. lra.
Qed.
Lemma qlt_false a b : qlt a b = false <-> b <= a.
Proof. unfold qlt. rewrite negb_false_iff. apply Qle_bool_iff. Qed.
Lemma qle_false a b : Qle_bool a b = false <-> b < a.
Proof.
  split; intros H.
  - apply Qnot_le_lt. intros X. apply Qle_bool_iff in X. congruence.
  - apply not_true_is_false. intros X. apply Qle_bool_iff in X. lra.
Qed.
Lemma qeq_true a b : Qeq_bool a b = true <-> a == b.
Proof. apply Qeq_bool_iff. Qed.
Lemma qeq_false a b : Qeq_bool a b = false <-> ~ a == b.
Proof. split; intros H; [apply Qeq_bool_neq, H|]. apply not_true_is_false. intros X. now apply Qeq_bool_iff in X. Qed.

(* the largest exposure is the largest that fits, or the minimum *)
Lemma max_spec i d : let m := calculate_maximum_exposure i d in
  min_exposure i <= m /\ (forall e, fits i d e -> e <= m) /\ (fits i d m \/ m == min_exposure i /\ ~ fits i d m) /\
  (fits i d (min_exposure i) -> fits i d m).
Proof.
  cbn zeta. unfold calculate_maximum_exposure, fits. destruct (qlt _ _) eqn:E.
  - apply qlt_true in E. split; [lra|]. split; [intros e F; lra|]. split; [right; split; [reflexivity|lra]|intros; lra].
  - apply qlt_false in E. split; [lra|]. split; [intros e F; lra|]. split; [left; lra|intros; lra].
Qed.

(* The exposure that is chosen for a frame: at least the minimum; it fits whenever the
   minimum does; a requested exposure that is allowed and fits is used unchanged; and without
   a request the longest exposure that fits is used *)
Theorem C38_chosen i d e : sane i -> ~ (d == 0 /\ e == 0) -> let x := calculate_exposure i d e in
  min_exposure i <= x /\
  (fits i d (min_exposure i) -> fits i d x) /\
  (~ fits i d (min_exposure i) -> x == min_exposure i) /\
  (0 < e -> min_exposure i <= e -> fits i d e -> x == e) /\
  (e <= 0 -> fits i d (min_exposure i) -> forall y, fits i d y -> y <= x).
Proof.
  intros (S1 & S2 & S3 & S4) N. cbn zeta. unfold calculate_exposure.
  destruct (max_spec i d) as (M1 & M2 & M3 & M4). set (m := calculate_maximum_exposure i d) in *. clearbody m.
  destruct (Qeq_bool e 0 && Qeq_bool d 0) eqn:Z.
  { apply andb_true_iff in Z as [Z1 Z2]. apply qeq_true in Z1, Z2. tauto. }
  destruct (Qle_bool e 0 || qlt m e) eqn:B.
  - assert (C : e <= 0 \/ m < e) by (apply orb_true_iff in B as [B|B]; [left; now apply Qle_bool_iff|right; now apply qlt_true]).
    split; [exact M1|]. split; [exact M4|]. split.
    + intros F. destruct M3 as [M3|[M3 _]]; [|exact M3]. exfalso. apply F. unfold fits in *. lra.
    + split; [|intros _ _; exact M2]. intros P Le F. destruct C as [C|C]; [lra|]. specialize (M2 e F). lra.
  - apply orb_false_iff in B as [B1 B2]. apply qle_false in B1. apply qlt_false in B2.
    destruct (qlt e (min_exposure i)) eqn:C.
    + apply qlt_true in C. split; [lra|]. split; [auto|]. split; [reflexivity|]. split; [lra|lra].
    + apply qlt_false in C. split; [lra|]. split; [|split].
      * intros F. specialize (M4 F). unfold fits in *. lra.
      * intros F. destruct M3 as [M3|[M3 _]]; [|lra]. exfalso. apply F. unfold fits in *. lra.
      * split; [reflexivity|lra].
Qed.
Print Assumptions C38_chosen.

(* Over a mid-length frame: duration 0.1 s, readout 2 ms, 50 ppm *)
Definition ex_i : info := mkInfo (2 # 1000) 50 (1 # 10000).
Example C38_ex : sane ex_i /\ calculate_exposure ex_i (1 # 10) 0 == 97995 # 1000000 /\
  calculate_exposure ex_i (1 # 10) (5 # 100) == 5 # 100 /\ calculate_exposure ex_i (1 # 10) (2 # 10) == 97995 # 1000000.
Proof. unfold sane. repeat split; vm_compute; try reflexivity; discriminate. Qed.

(* ---- the duration that is chosen for an exposure ---- *)
Definition eps1 : Q := 1 + (1 # 1000000000000).
Lemma den_pos i : sane i -> 0 < 1 - frequency_accuracy i / 1000000.
Proof. intros (_ & _ & S & _). assert (frequency_accuracy i / 1000000 == frequency_accuracy i * (1 # 1000000)) as -> by (unfold Qdiv; reflexivity). lra. Qed.
Lemma min_duration_spec i e d : sane i -> (fits i d e <-> calculate_minimum_duration i e <= d).
Proof.
  intros S. pose proof (den_pos i S) as P. unfold fits, calculate_minimum_duration.
  assert (X : frequency_accuracy i * d / 1000000 == d * (frequency_accuracy i / 1000000)) by (unfold Qdiv; ring).
  rewrite X. set (a := frequency_accuracy i / 1000000) in *. clearbody a.
  assert (Y : (e + readout_time i) / (1 - a) <= d <-> e + readout_time i <= d * (1 - a)).
  { split; intros H.
    - assert (Z : (e + readout_time i) / (1 - a) * (1 - a) <= d * (1 - a)) by (apply Qmult_le_compat_r; lra).
      assert (W : (e + readout_time i) / (1 - a) * (1 - a) == e + readout_time i) by (field; lra). lra.
    - apply Qle_shift_div_r; assumption. }
  rewrite Y. split; intros; lra.
Qed.
Lemma min_duration_nonneg i e : sane i -> 0 <= e -> 0 <= calculate_minimum_duration i e.
Proof.
  intros S E. pose proof (den_pos i S) as P. unfold calculate_minimum_duration. destruct S as (S1 & _).
  apply Qle_shift_div_l; [exact P|]. lra.
Qed.
Lemma inject_pos n : (1 <= n)%Z -> 1 <= inject_Z n.
Proof. intros H. replace 1 with (inject_Z 1) by reflexivity. now rewrite <- Zle_Qle. Qed.

(* When the duration is to be worked out from an exposure, each frame of the step is long
   enough for it, however many frames the step has *)
Theorem C38_guessed_duration i e n D : sane i -> (1 <= n)%Z -> 0 < e -> expo_validate i 0 e n = TweakDuration D ->
  fits i (frame_duration D n) e /\ forall d, fits i d e -> frame_duration D n <= d * eps1.
Proof.
  intros S N E H. unfold expo_validate in H. cbn [Qeq_bool] in H. change (Qeq_bool 0 0) with true in H. cbn [andb] in H.
  assert (X : Qeq_bool e 0 = false) by (apply qeq_false; lra). rewrite X in H. injection H as <-.
  pose proof (inject_pos n N) as Nq. assert (E0 : 0 <= e) by lra. pose proof (min_duration_nonneg i e S E0) as M.
  assert (F : frame_duration (calculate_minimum_duration i e * inject_Z n * eps1) n == calculate_minimum_duration i e * eps1).
  { unfold frame_duration. destruct (1 <? n)%Z eqn:L; [field; lra|]. apply Z.ltb_ge in L. assert (n = 1%Z) as -> by lia. unfold inject_Z. field. }
  fold eps1. split.
  - apply min_duration_spec; [exact S|]. rewrite F. unfold eps1. lra.
  - intros d Fd. apply (min_duration_spec i e d S) in Fd. rewrite F. apply Qmult_le_compat_r; [exact Fd|unfold eps1; lra].
Qed.
Print Assumptions C38_guessed_duration.
Example C38_guessed_duration_ex : exists D, expo_validate ex_i 0 (1 # 10) 3 = TweakDuration D.
Proof. eexists. reflexivity. Qed.

(* ---- a detector's validate, for one frame per step ---- *)
Lemma expo_eq i d e n : expo_validate i d e n =
  if Qeq_bool d 0 then TweakDuration (calculate_minimum_duration i (if Qeq_bool e 0 then calculate_exposure i d e else e) * inject_Z n * eps1)
  else if Qeq_bool e 0 then TweakExposure (calculate_exposure i d e)
  else if Qle_bool (min_exposure i) e then
         if Qle_bool e (calculate_maximum_exposure i d) then Fine else Refuse else Refuse.
Proof. reflexivity. Qed.
Lemma driver_spec mp d n : 0 <= mp -> ~ d == 0 -> driver_validate mp d n = if Qle_bool mp d || Qle_bool mp 0 then Fine else Refuse.
Proof.
  intros P D. unfold driver_validate. destruct (qlt 0 mp) eqn:Q.
  - apply qlt_true in Q. assert (Qle_bool mp 0 = false) as -> by (apply qle_false; exact Q). rewrite orb_false_r.
    assert (Qeq_bool d 0 = false) as -> by (now apply qeq_false). reflexivity.
  - apply qlt_false in Q. assert (Qle_bool mp 0 = true) as -> by (now apply Qle_bool_iff). now rewrite orb_true_r.
Qed.
Lemma frames1 q : q * inject_Z 1 == q.
Proof. unfold inject_Z. ring. Qed.

(* what the two parts agree on, once both are given *)
Lemma round_given i mp n d e : 0 <= mp -> ~ d == 0 -> ~ e == 0 ->
  det_round i mp n (d, e) =
  if (Qle_bool (min_exposure i) e && Qle_bool e (calculate_maximum_exposure i d) && (Qle_bool mp d || Qle_bool mp 0))%bool
  then inr (Some (d, e)) else inr None.
Proof.
  intros P D E. unfold det_round. rewrite expo_eq, (driver_spec mp d n P D).
  assert (Qeq_bool d 0 = false) as -> by (now apply qeq_false). assert (Qeq_bool e 0 = false) as -> by (now apply qeq_false).
  destruct (Qle_bool (min_exposure i) e); cbn [andb]; [|reflexivity].
  destruct (Qle_bool e _); cbn [andb]; [|reflexivity]. now destruct (Qle_bool mp d || Qle_bool mp 0).
Qed.
Definition good (i : info) (mp d e : Q) : Prop :=
  min_exposure i <= e /\ (fits i d e \/ e == min_exposure i) /\ (mp <= d \/ mp <= 0).
Lemma le_max_iff i d e : e <= calculate_maximum_exposure i d <-> fits i d e \/ e <= min_exposure i.
Proof.
  unfold calculate_maximum_exposure, fits. destruct (qlt _ _) eqn:E.
  - apply qlt_true in E. split; [auto|]. intros [F|F]; lra.
  - apply qlt_false in E. split; [left; lra|]. intros [F|F]; lra.
Qed.
Lemma given_iff i mp d e : 
  (Qle_bool (min_exposure i) e && Qle_bool e (calculate_maximum_exposure i d) && (Qle_bool mp d || Qle_bool mp 0))%bool = true <-> good i mp d e.
Proof.
  unfold good. rewrite !andb_true_iff, orb_true_iff, !Qle_bool_iff, le_max_iff. split.
  - intros [[A [B|B]] C]; (split; [exact A|split; [|exact C]]); [now left|right; lra].
  - intros [A [[B|B] C]]; (split; [split; [exact A|]|exact C]); [now left|right; lra].
Qed.
Lemma rounds_given i mp n k d e : 0 <= mp -> ~ d == 0 -> ~ e == 0 ->
  (det_rounds (S k) i mp n (d, e) = Some (d, e) /\ good i mp d e) \/ (det_rounds (S k) i mp n (d, e) = None /\ ~ good i mp d e).
Proof.
  intros P D E. cbn [det_rounds]. rewrite (round_given i mp n d e P D E).
  destruct (_ && _)%bool eqn:B; [left|right]; (split; [reflexivity|]).
  - now apply given_iff in B.
  - intros G. apply given_iff in G. congruence.
Qed.

(* Both given: accepted, unchanged, exactly when the exposure is not below the minimum, the
   frame is not shorter than the least period of the driver, and the exposure fits - or it
   is the minimum *)
Theorem C38_both_given i mp n d e : 0 <= mp -> ~ d == 0 -> ~ e == 0 ->
  (good i mp d e -> det_validate i mp n d e = Some (d, e)) /\ (~ good i mp d e -> det_validate i mp n d e = None).
Proof.
  intros P D E. unfold det_validate. destruct (rounds_given i mp n 9 d e P D E) as [[A B]|[A B]]; split; intros X; tauto.
Qed.
Print Assumptions C38_both_given.
Example C38_both_given_ex : good ex_i (1 # 1000) (1 # 10) (5 # 100) /\ det_validate ex_i (1 # 1000) 1 (1 # 10) (5 # 100) = Some (1 # 10, 5 # 100) /\
  det_validate ex_i (1 # 1000) 1 (1 # 10) (99 # 1000) = None.
Proof. split; [apply given_iff; vm_compute; reflexivity|]. vm_compute. split; reflexivity. Qed.

(* Only the duration given: the exposure is the longest that fits; and if not even the
   minimum fits, the minimum *)
Lemma chosen_no_request i d : sane i -> ~ d == 0 -> let x := calculate_exposure i d 0 in
  min_exposure i <= x /\ (fits i d (min_exposure i) -> fits i d x /\ forall y, fits i d y -> y <= x) /\
  (~ fits i d (min_exposure i) -> x == min_exposure i).
Proof.
  intros S D. cbn zeta. assert (N : ~ (d == 0 /\ 0 == 0)) by tauto.
  destruct (C38_chosen i d 0 S N) as (A & B & C & _ & F). split; [exact A|]. split; [|exact C].
  intros H. split; [now apply B|]. apply F; [lra|exact H].
Qed.
Theorem C38_duration_given i mp n d : sane i -> 0 <= mp -> ~ d == 0 -> (mp <= d \/ mp <= 0) ->
  let x := calculate_exposure i d 0 in
  (0 < x -> det_validate i mp n d 0 = Some (d, x) /\ (fits i d (min_exposure i) -> fits i d x /\ forall y, fits i d y -> y <= x)) /\
  (x <= 0 -> det_validate i mp n d 0 = None).
Proof.
  intros S P D M. cbn zeta. destruct (chosen_no_request i d S D) as (A & B & C).
  assert (R : forall e, e == 0 -> det_round i mp n (d, e) = inl (d, calculate_exposure i d e)).
  { intros e E. unfold det_round. rewrite expo_eq, (driver_spec mp d n P D).
    assert (Qeq_bool d 0 = false) as -> by (now apply qeq_false). assert (Qeq_bool e 0 = true) as -> by (now apply qeq_true).
    assert ((Qle_bool mp d || Qle_bool mp 0)%bool = true) as -> by (apply orb_true_iff; rewrite !Qle_bool_iff; exact M). reflexivity. }
  split.
  - intros X. split; [|exact B]. unfold det_validate. cbn [det_rounds]. rewrite (R 0) by reflexivity.
    assert (Nx : ~ calculate_exposure i d 0 == 0) by lra.
    assert (G : good i mp d (calculate_exposure i d 0)).
    { split; [exact A|]. split; [|exact M]. destruct (Qlt_le_dec d (calculate_minimum_duration i (min_exposure i))) as [L|L].
      - right. apply C. intros F. apply (min_duration_spec i _ d S) in F. lra.
      - left. apply B. now apply min_duration_spec. }
    destruct (rounds_given i mp n 8 d _ P D Nx) as [[Y _]|[_ Y]]; [exact Y|tauto].
  - intros X. assert (Z : forall e, e == 0 -> calculate_exposure i d e == 0).
    { intros e E. destruct S as (S1 & S2 & S3 & S4). assert (X0 : calculate_exposure i d 0 == 0) by lra.
      rewrite <- X0. unfold calculate_exposure.
      assert (Qeq_bool d 0 = false) as -> by (now apply qeq_false). rewrite !andb_false_r.
      assert (Qle_bool e 0 = true) as -> by (apply Qle_bool_iff; lra). change (Qle_bool 0 0) with true. reflexivity. }
    assert (L : forall k e, e == 0 -> det_rounds k i mp n (d, e) = None).
    { induction k as [|k IH]; intros e E; cbn [det_rounds]; [reflexivity|]. rewrite (R e E). apply IH. now apply Z. }
    unfold det_validate. now apply L.
Qed.
Print Assumptions C38_duration_given.
Example C38_duration_given_ex : det_validate ex_i (1 # 1000) 1 (1 # 10) 0 = Some (1 # 10, calculate_exposure ex_i (1 # 10) 0).
Proof. vm_compute. reflexivity. Qed.

(* Only the exposure given: it is kept, and the frame is made long enough for it *)
Lemma larger_spec a b : a <= larger a b /\ b <= larger a b /\ (larger a b == a \/ larger a b == b).
Proof.
  unfold larger. destruct (qlt a b) eqn:E; [apply qlt_true in E|apply qlt_false in E]; (split; [lra|split; [lra|]]); [right|left]; reflexivity.
Qed.
Lemma fits_longer i d d' e : sane i -> fits i d e -> d <= d' -> fits i d' e.
Proof. intros S F L. apply (min_duration_spec i e d S) in F. apply min_duration_spec; [exact S|lra]. Qed.
Theorem C38_exposure_given i mp e : sane i -> 0 <= mp -> 0 < e -> min_exposure i <= e ->
  exists d, det_validate i mp 1 0 e = Some (d, e) /\ fits i d e /\ mp <= d.
Proof.
  intros S P E Le. destruct (expo_validate i 0 e 1) as [|D| |] eqn:V;
    try (rewrite expo_eq in V; change (Qeq_bool 0 0) with true in V; cbn in V; discriminate).
  destruct (C38_guessed_duration i e 1 D S (Z.le_refl _) E V) as [F _]. change (frame_duration D 1) with D in F.
  assert (Dp : 0 < D). { destruct S as (S1 & S2 & S3 & S4). apply (min_duration_spec i e D (conj S1 (conj S2 (conj S3 S4)))) in F.
    unfold calculate_minimum_duration in F. eapply Qlt_le_trans; [|exact F]. apply Qlt_shift_div_l; [apply den_pos; exact (conj S1 (conj S2 (conj S3 S4)))|]. lra. }
  assert (R : exists D', det_round i mp 1 (0, e) = inl (D', e) /\ D <= D' /\ mp <= D').
  { unfold det_round. rewrite V. unfold driver_validate. change (Qeq_bool 0 0) with true. cbn [andb].
    destruct (qlt 0 mp) eqn:Q.
    - eexists. split; [reflexivity|]. destruct (larger_spec (larger 0 D) (mp * inject_Z 1)) as (A1 & A2 & _).
      destruct (larger_spec 0 D) as (_ & B & _). pose proof (frames1 mp). split; lra.
    - apply qlt_false in Q. eexists. split; [reflexivity|]. split; lra. }
  destruct R as (D' & R & L1 & L2). exists D'. assert (F' : fits i D' e) by (apply (fits_longer i D D' e S F L1)).
  split; [|split; assumption]. unfold det_validate. cbn [det_rounds]. rewrite R.
  assert (ND : ~ D' == 0) by lra. assert (NE : ~ e == 0) by lra.
  destruct (rounds_given i mp 1 8 D' e P ND NE) as [[Y _]|[_ Y]]; [exact Y|]. exfalso. apply Y.
  split; [exact Le|]. split; [now left|now left].
Qed.
Print Assumptions C38_exposure_given.
Example C38_exposure_given_ex : exists d, det_validate ex_i (1 # 1000) 1 0 (1 # 10) = Some (d, 1 # 10).
Proof. eexists. vm_compute. reflexivity. Qed.

(* Neither given: both are chosen, and they fit, if anything takes time at all *)
Theorem C38_neither_given i mp : sane i -> 0 <= mp -> 0 < readout_time i + min_exposure i ->
  exists d e, det_validate i mp 1 0 0 = Some (d, e) /\ fits i d e /\ min_exposure i <= e /\ 0 < e /\ mp <= d.
Proof.
  intros S P T. pose proof S as (S1 & S2 & S3 & S4). pose proof (den_pos i S) as Dp.
  set (D := calculate_minimum_duration i (min_exposure i) * inject_Z 1 * eps1).
  assert (M : 0 < calculate_minimum_duration i (min_exposure i)).
  { unfold calculate_minimum_duration. apply Qlt_shift_div_l; [exact Dp|lra]. }
  assert (V : expo_validate i 0 0 1 = TweakDuration D) by reflexivity.
  assert (DM : calculate_minimum_duration i (min_exposure i) < D).
  { unfold D. pose proof (frames1 (calculate_minimum_duration i (min_exposure i))) as X. unfold eps1. rewrite X. lra. }
  assert (R : exists D', det_round i mp 1 (0, 0) = inl (D', 0) /\ D <= D' /\ mp <= D').
  { unfold det_round. rewrite V. unfold driver_validate. change (Qeq_bool 0 0) with true. cbn [andb].
    destruct (qlt 0 mp) eqn:Q.
    - eexists. split; [reflexivity|]. destruct (larger_spec (larger 0 D) (mp * inject_Z 1)) as (A1 & A2 & _).
      destruct (larger_spec 0 D) as (_ & B & _). pose proof (frames1 mp). split; lra.
    - apply qlt_false in Q. eexists. split; [reflexivity|]. split; lra. }
  destruct R as (D' & R & L1 & L2). assert (ND : ~ D' == 0) by lra.
  destruct (chosen_no_request i D' S ND) as (A & B & _).
  assert (F : fits i D' (min_exposure i)) by (apply min_duration_spec; [exact S|lra]).
  destruct (B F) as [B1 B2]. set (x := calculate_exposure i D' 0) in *.
  assert (X : min_exposure i < x).
  { (* a little more than the minimum fits *)
    set (y := min_exposure i + (D' - calculate_minimum_duration i (min_exposure i)) * (1 - frequency_accuracy i / 1000000)).
    assert (Y : y <= x).
    { apply B2. unfold fits, y. assert (W : calculate_minimum_duration i (min_exposure i) * (1 - frequency_accuracy i / 1000000) == min_exposure i + readout_time i)
        by (unfold calculate_minimum_duration; field; lra).
      assert (W2 : frequency_accuracy i * D' / 1000000 == D' * (frequency_accuracy i / 1000000)) by (unfold Qdiv; ring).
      rewrite W2. set (a := frequency_accuracy i / 1000000) in *. clearbody a. set (z := calculate_minimum_duration i (min_exposure i)) in *.
      assert (W3 : (D' - z) * (1 - a) == D' - D' * a - z * (1 - a)) by ring. rewrite W3, W. lra. }
    assert (Z : 0 < (D' - calculate_minimum_duration i (min_exposure i)) * (1 - frequency_accuracy i / 1000000)).
    { rewrite <- (Qmult_0_l (1 - frequency_accuracy i / 1000000)). apply Qmult_lt_compat_r; lra. }
    unfold y in Y. lra. }
  exists D', x. unfold det_validate. cbn [det_rounds]. rewrite R.
  assert (R2 : det_round i mp 1 (D', 0) = inl (D', x)).
  { unfold det_round. rewrite expo_eq, (driver_spec mp D' 1 P ND). assert (Qeq_bool D' 0 = false) as -> by (now apply qeq_false).
    change (Qeq_bool 0 0) with true. cbn iota. assert ((Qle_bool mp D' || Qle_bool mp 0)%bool = true) as -> by (apply orb_true_iff; left; now apply Qle_bool_iff). reflexivity. }
  rewrite R2. assert (NX : ~ x == 0) by lra.
  destruct (rounds_given i mp 1 7 D' x P ND NX) as [[Y _]|[_ Y]].
  - split; [exact Y|]. split; [exact B1|]. split; [lra|split; lra].
  - exfalso. apply Y. split; [exact A|]. split; [now left|now left].
Qed.
Print Assumptions C38_neither_given.
Example C38_neither_given_ex : exists d e, det_validate ex_i (1 # 1000) 1 0 0 = Some (d, e).
Proof. eexists _, _. vm_compute. reflexivity. Qed.

(* ---- the frames of a step guessed from an exposure ---- *)
Theorem C38_guessed_frames i d e n : sane i -> 0 < d -> 0 < e -> fits i d (min_exposure i) ->
  guess_frames d e (calculate_exposure i d 0) = Some n ->
  ((1 <= n)%Z -> fits i (frame_duration d n) e) /\
  ((n < 1)%Z -> ~ fits i d e) /\
  (* one more frame, with the dead time that was allowed for each, is too many *)
  d < inject_Z (n + 1) * (e + (d - calculate_exposure i d 0)).
Proof.
  intros S D E F H. assert (ND : ~ d == 0) by lra. destruct (chosen_no_request i d S ND) as (A & B & _). destruct (B F) as [B1 B2].
  set (x := calculate_exposure i d 0) in *. unfold guess_frames in H. destruct (Qeq_bool _ 0) eqn:Z; [discriminate|].
  assert (Hn : Qfloor (d / (e + (d - x))) = n) by congruence. clear H. pose proof S as (S1 & S2 & S3 & S4).
  (* the dead time is at least readout and inaccuracy *)
  assert (Dead : readout_time i + frequency_accuracy i * d / 1000000 <= d - x) by (unfold fits in B1; lra).
  assert (Xeq : d - x <= readout_time i + frequency_accuracy i * d / 1000000).
  { assert (Y : fits i d (d - readout_time i - frequency_accuracy i * d / 1000000)) by (unfold fits; lra). specialize (B2 _ Y). lra. }
  assert (Acc : 0 <= frequency_accuracy i * d / 1000000).
  { unfold Qdiv. apply Qmult_le_0_compat; [|discriminate]. apply Qmult_le_0_compat; lra. }
  set (dead := d - x) in *. assert (Pos : 0 < e + dead) by lra.
  pose proof (Qfloor_le (d / (e + dead))) as L1. pose proof (Qlt_floor (d / (e + dead))) as L2. rewrite Hn in L1, L2. clearbody dead.
  assert (Nle : inject_Z n * (e + dead) <= d).
  { assert (Y : inject_Z n * (e + dead) <= d / (e + dead) * (e + dead)) by (apply Qmult_le_compat_r; lra).
    assert (W : d / (e + dead) * (e + dead) == d) by (field; lra). lra. }
  assert (Nlt : d < inject_Z (n + 1) * (e + dead)).
  { assert (Y : d / (e + dead) * (e + dead) < inject_Z (n + 1) * (e + dead)) by (apply Qmult_lt_compat_r; assumption).
    assert (W : d / (e + dead) * (e + dead) == d) by (field; lra). lra. }
  split; [|split; [|exact Nlt]].
  - intros N1. pose proof (inject_pos n N1) as Nq. assert (FD : frame_duration d n == d / inject_Z n).
    { unfold frame_duration. destruct (1 <? n)%Z eqn:L; [reflexivity|]. apply Z.ltb_ge in L. assert (E1 : n = 1%Z) by (apply Z.le_antisymm; assumption). rewrite E1. unfold inject_Z. field. }
    apply min_duration_spec; [exact S|]. rewrite FD. apply min_duration_spec; [exact S|]. unfold fits.
    assert (G1 : e + dead <= d / inject_Z n). { apply Qle_shift_div_l; [lra|]. rewrite Qmult_comm. exact Nle. }
    assert (G2 : d / inject_Z n <= d). { apply Qle_shift_div_r; [lra|]. rewrite <- (Qmult_1_r d) at 1. rewrite !(Qmult_comm d). apply Qmult_le_compat_r; lra. }
    assert (G3 : frequency_accuracy i * (d / inject_Z n) / 1000000 <= frequency_accuracy i * d / 1000000).
    { unfold Qdiv at 1 3. apply Qmult_le_compat_r; [|discriminate]. rewrite !(Qmult_comm (frequency_accuracy i)). apply Qmult_le_compat_r; lra. }
    lra.
  - intros N1 Fe. assert (Le : (n + 1 <= 1)%Z) by lia. assert (Q1 : inject_Z (n + 1) <= 1) by (change 1 with (inject_Z 1); now rewrite <- Zle_Qle).
    assert (Y : inject_Z (n + 1) * (e + dead) <= 1 * (e + dead)) by (apply Qmult_le_compat_r; lra). unfold fits in Fe. lra.
Qed.
Print Assumptions C38_guessed_frames.
Example C38_guessed_frames_ex : fits ex_i (1 # 10) (min_exposure ex_i) /\ guess_frames (1 # 10) (3 # 100) (calculate_exposure ex_i (1 # 10) 0) = Some 3%Z.
Proof. split; [unfold fits; vm_compute; discriminate|vm_compute; reflexivity]. Qed.

(* ---- where it is false ---- *)
(* A frame too short for the readout is accepted, with the minimum exposure *)
Theorem C38_short_frame_refuted : exists i d e, sane i /\ det_validate i 0 1 d 0 = Some (d, e) /\ ~ fits i d e.
Proof.
  exists (mkInfo (2 # 1000) 50 (1 # 10000)), (1 # 1000). eexists. split; [unfold sane; repeat split; vm_compute; try reflexivity; discriminate|].
  split; [vm_compute; reflexivity|]. unfold fits. vm_compute. intros H. now apply H.
Qed.
Print Assumptions C38_short_frame_refuted.
(* Several frames in a step with neither duration nor exposure given: the detector takes the
   duration of the step for that of the frame, so the exposure does not fit the frame *)
Theorem C38_several_frames_refuted : exists i n d e, sane i /\ (1 < n)%Z /\ det_validate i 0 n 0 0 = Some (d, e) /\ ~ fits i (frame_duration d n) e.
Proof.
  exists (mkInfo (2 # 1000) 50 (1 # 10000)), 2%Z. eexists _, _. split; [unfold sane; repeat split; vm_compute; try reflexivity; discriminate|].
  split; [reflexivity|]. split; [vm_compute; reflexivity|]. unfold fits. vm_compute. intros H. now apply H.
Qed.
Print Assumptions C38_several_frames_refuted.
