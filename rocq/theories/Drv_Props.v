(* C81: what detector drivers are told about exposure, period and samples. *)
From Coq Require Import String Bool ZArith QArith Qround Lqa Lia List.
From Verif Require Import Base Expo_Model Scan_Model Det_Model Expo_Props Drv_Model.
Import ListNotations.
Local Open Scope list_scope.
Local Open Scope Q_scope.

(* ---- the driver of any detector ---- *)
(* After a configure or a seek the detector has the exposure asked for, and its period is that
   and the readout; if the exposure fits into the frame the period does. *)
Theorem C81_setup hw bp i d v e : sane i -> 0 <= d -> fits i d e ->
  forall h, h = HConfigure e \/ h = HSeek e -> let v' := base_hook hw bp (Some i) d v h in
  v_exposure v' = e /\ v_period v' == e + readout_time i /\ v_period v' <= d.
Proof.
  intros S D F h H. destruct S as (_ & S & _ & _). unfold fits in F.
  assert (M : 0 <= frequency_accuracy i * d) by (apply Qmult_le_0_compat; assumption).
  assert (E : frequency_accuracy i * d / 1000000 == (1 # 1000000) * (frequency_accuracy i * d)) by field.
  rewrite E in F. clear E. generalize dependent (frequency_accuracy i * d). intros m F M.
  assert (L : e + readout_time i <= d) by lra.
  destruct H as [-> | ->]; (split; [reflexivity|]; split; [reflexivity|exact L]).
Qed.
Print Assumptions C81_setup.

(* A hardware triggered detector without breakpoints keeps them from run to run. *)
Theorem C81_kept i d v e n : let v' := base_hook true false i d v (HConfigure e) in
  base_hooks true false i d v' (repeat HPostRunArmed n) = v'.
Proof.
  cbn zeta. generalize (base_hook true false i d v (HConfigure e)). intros v'. induction n as [|n IH]; [reflexivity|exact IH].
Qed.
Print Assumptions C81_kept.

(* Otherwise each later run keeps the exposure but takes the period of the longest exposure. *)
Theorem C81_later hw bp i d v e n : bp = true \/ hw = false -> 
  base_hooks hw bp (Some i) d (base_hook hw bp (Some i) d v (HConfigure e)) (repeat HPostRunArmed (S n))
  = mkDrv e (calculate_exposure i d 0 + readout_time i).
Proof.
  intros H. assert (B : bp || negb hw = true) by (destruct H as [-> | ->]; [reflexivity|destruct bp; reflexivity]).
  set (v1 := base_hook hw bp (Some i) d v (HConfigure e)). set (v2 := mkDrv e _).
  assert (X1 : base_hook hw bp (Some i) d v1 HPostRunArmed = v2) by (cbn [base_hook]; rewrite B; reflexivity).
  assert (X2 : base_hook hw bp (Some i) d v2 HPostRunArmed = v2) by (cbn [base_hook]; rewrite B; reflexivity).
  clearbody v1 v2. unfold base_hooks. change (repeat HPostRunArmed (S n)) with (HPostRunArmed :: repeat HPostRunArmed n).
  cbn [fold_left]. rewrite X1. clear X1. induction n as [|n IH]; [reflexivity|]. cbn [repeat fold_left]. rewrite X2. exact IH.
Qed.
Print Assumptions C81_later.

(* So the period of a later run is not that of the first. *)
Theorem C81_later_refuted : exists i d v e, sane i /\ 0 < e /\ fits i d e /\
  let first := base_hook false false (Some i) d v (HConfigure e) in
  let later := base_hook false false (Some i) d first HPostRunArmed in
  v_exposure later = v_exposure first /\ ~ v_period later == v_period first /\ ~ v_period later == v_exposure later + readout_time i.
Proof.
  exists ex_i, (1 # 10), (mkDrv 0 0), (5 # 100). split; [unfold sane; repeat split; vm_compute; discriminate || reflexivity|].
  split; [reflexivity|]. split; [vm_compute; discriminate|]. cbn zeta.
  split; [reflexivity|]. split; vm_compute; discriminate.
Qed.
Print Assumptions C81_later_refuted.

(* ---- Andor ---- *)
(* what an Andor needs besides the exposure: the readout, 1 ms, and 0.4 % and 50 ppm of the frame *)
Definition andor_needs (readout d : Q) : Q := readout + (1 # 1000) + (405 # 100000) * d.
Lemma andor_fits readout d e :
  fits (mkInfo (readout + additional_readout d) 50 0) d e <-> e + andor_needs readout d <= d.
Proof.
  unfold fits, andor_needs, additional_readout. cbn [readout_time frequency_accuracy].
  assert (E : 50 * d / 1000000 == (50 # 1000000) * d) by field. rewrite E. split; intros H; lra.
Qed.
Lemma andor_sane readout d : 0 <= readout -> 0 <= d -> sane (mkInfo (readout + additional_readout d) 50 0).
Proof. intros R D. unfold sane, additional_readout. cbn [readout_time frequency_accuracy min_exposure]. repeat split; lra. Qed.

(* A frame that has room for the readout: the period ends before the frame does; the exposure is
   the one asked for if that fits, otherwise the longest that fits; without a request it is the
   longest. *)
Theorem C81_andor accumulate readout d x v : 0 <= readout -> 0 < d -> andor_needs readout d <= d ->
  andor_setup false accumulate readout d x = Some v ->
  0 <= v_exposure v /\ v_period v == v_exposure v + readout + (1 # 1000) + (4 # 1000) * d /\ v_period v <= d - (50 # 1000000) * d
  /\ (0 < x -> x + andor_needs readout d <= d -> v_exposure v == x)
  /\ (x <= 0 \/ d < x + andor_needs readout d -> v_exposure v == d - andor_needs readout d).
Proof.
  intros R D N E. unfold andor_setup, andor_adjusted in E. injection E as <-. cbn [v_exposure v_period].
  set (i := mkInfo (readout + additional_readout d) 50 0) in *.
  assert (S : sane i) by (apply andor_sane; lra). assert (N0 : ~ (d == 0 /\ x == 0)) by lra.
  assert (F0 : fits i d (min_exposure i)) by (apply andor_fits; cbn; lra).
  destruct (C38_chosen i d x S N0) as (C1 & C2 & _ & C4 & C5). specialize (C2 F0). apply andor_fits in C2.
  assert (C4' : 0 < x -> x + andor_needs readout d <= d -> calculate_exposure i d x == x).
  { intros P F. apply C4; [exact P|cbn; lra|apply andor_fits; exact F]. }
  assert (C6 : x <= 0 \/ d < x + andor_needs readout d -> calculate_exposure i d x == d - andor_needs readout d).
  { intros [Le|Lt].
    - assert (d - andor_needs readout d <= calculate_exposure i d x) by (apply C5; [exact Le|exact F0|apply andor_fits; lra]). lra.
    - unfold calculate_exposure. destruct (Qeq_bool x 0 && Qeq_bool d 0) eqn:Z.
      { apply andb_true_iff in Z as [_ Z]. apply qeq_true in Z. lra. }
      assert (M : calculate_maximum_exposure i d == d - andor_needs readout d).
      { destruct (max_spec i d) as (M1 & M2 & _ & M4). specialize (M4 F0). apply andor_fits in M4.
        assert (d - andor_needs readout d <= calculate_maximum_exposure i d) by (apply M2, andor_fits; lra). lra. }
      assert (qlt (calculate_maximum_exposure i d) x = true) as -> by (apply qlt_true; lra).
      rewrite orb_true_r. exact M. }
  change (min_exposure i) with 0 in C1. clearbody i. set (e := calculate_exposure i d x) in *. clearbody e.
  unfold andor_needs, additional_readout in *. split; [exact C1|]. split; [lra|]. split; [lra|]. split; [exact C4'|exact C6].
Qed.
Print Assumptions C81_andor.

(* In frame transfer mode: a frame is taken exactly if it is longer than the accumulate period. *)
Theorem C81_transfer accumulate readout d x :
  (exists v, andor_setup true accumulate readout d x = Some v) <-> accumulate < d.
Proof.
  unfold andor_setup. split.
  - intros (v & E). destruct (qlt accumulate d) eqn:Q; [apply qlt_true, Q|discriminate].
  - intros H. apply qlt_true in H. rewrite H. eexists. reflexivity.
Qed.
Print Assumptions C81_transfer.
Theorem C81_transfer_period accumulate readout d x v : andor_setup true accumulate readout d x = Some v ->
  v_exposure v = 0 /\ v_period v < d.
Proof.
  unfold andor_setup. destruct (qlt accumulate d) eqn:Q; [|discriminate]. intros E. injection E as <-. apply qlt_true in Q. auto.
Qed.
Print Assumptions C81_transfer_period.
Example C81_andor_ex : andor_needs (1 # 100) (1 # 10) <= 1 # 10
  /\ exists v, andor_setup false 0 (1 # 100) (1 # 10) (5 # 100) = Some v /\ v_exposure v == 5 # 100 /\ v_period v == 614 # 10000.
Proof. split; [vm_compute; discriminate|]. eexists. split; [reflexivity|]. split; vm_compute; reflexivity. Qed.

(* The duration on_validate asks for never gives the exposure it was asked for. *)
Theorem C81_validated_less mp readout x accumulate D v : 0 <= readout -> 0 < x ->
  andor_validate mp readout 0 x 1 = TweakDuration D -> andor_setup false accumulate readout D x = Some v ->
  andor_validate mp readout D x 1 = Fine /\ v_exposure v < x.
Proof.
  intros R X V E. unfold andor_validate in V. cbn [qlt] in V.
  assert (Q0 : qlt 0 0 = false) by reflexivity. rewrite Q0 in V. assert (QX : qlt 0 x = true) by (apply qlt_true, X).
  rewrite QX in V. assert (Z0 : Qeq_bool 0 0 = true) by reflexivity. rewrite Z0 in V. injection V as V.
  assert (HD : D == x + readout) by (rewrite <- V; change (inject_Z 1) with 1; lra). clear V. split.
  - unfold andor_validate. rewrite QX. assert (qlt D 0 = false) as -> by (apply qlt_false; lra).
    assert (Qeq_bool D 0 = false) as -> by (apply qeq_false; lra). assert (Qle_bool (x + readout) D = true) as -> by (apply Qle_bool_iff; lra).
    reflexivity.
  - destruct (Qlt_le_dec D (andor_needs readout D)) as [L|L].
    + unfold andor_setup, andor_adjusted in E. injection E as <-. cbn [v_exposure].
      set (i := mkInfo (readout + additional_readout D) 50 0).
      assert (S : sane i) by (apply andor_sane; lra). assert (N0 : ~ (D == 0 /\ x == 0)) by lra.
      destruct (C38_chosen i D x S N0) as (_ & _ & C & _). rewrite C; [exact X|]. intros F. apply andor_fits in F. cbn in F. lra.
    + destruct (C81_andor accumulate readout D x v R ltac:(lra) L E) as (_ & _ & _ & _ & C).
      rewrite C; unfold andor_needs in *; [lra|]. right. lra.
Qed.
Print Assumptions C81_validated_less.
(* The duration it asks for has room for the exposure and the readout in each of the frames. *)
Theorem C81_andor_open mp readout x n D : (0 < n)%Z -> 0 < x -> andor_validate mp readout 0 x n = TweakDuration D -> D / inject_Z n == x + readout.
Proof.
  intros N X. unfold andor_validate. change (qlt 0 0) with false. apply qlt_true in X. rewrite X. change (Qeq_bool 0 0) with true. cbn iota. intros E. injection E as <-.
  field. intros H. assert (0 < inject_Z n) by (change 0 with (inject_Z 0); rewrite <- Zlt_Qlt; exact N). lra.
Qed.
Print Assumptions C81_andor_open.
Example C81_andor_open_ex : exists D, andor_validate 0 (1 # 10) 0 (1 # 10) 3 = TweakDuration D /\ D == 6 # 10.
Proof. eexists. split; reflexivity. Qed.
Example C81_validated_ex : andor_validate 0 (1 # 10) 0 (1 # 10) 1 = TweakDuration (20 # 100)
  /\ exists v, andor_setup false 0 (1 # 10) (20 # 100) (1 # 10) = Some v /\ v_exposure v == 9819 # 100000.
Proof. split; [reflexivity|]. eexists. split; [reflexivity|]. vm_compute. reflexivity. Qed.

(* A frame too short for the readout is not refused: the period is longer than the frame. *)
Theorem C81_short_refuted : exists readout d v, 0 < d /\ andor_validate 0 readout d 0 1 = Fine
  /\ andor_setup false 0 readout d 0 = Some v /\ d < v_period v.
Proof.
  exists (1 # 10), (5 # 100). eexists. split; [reflexivity|]. split; [reflexivity|]. split; [reflexivity|]. reflexivity.
Qed.
Print Assumptions C81_short_refuted.

(* An Andor that is set up again for a later run does not keep the exposure asked for. *)
Theorem C81_andor_later_refuted : exists readout d x v1 v2, 0 < x
  /\ andor_hook false false false 0 readout d (mkDrv 0 0) (HConfigure x) = Some v1 /\ v_exposure v1 == x
  /\ andor_hook false false false 0 readout d v1 HPostRunArmed = Some v2 /\ x < v_exposure v2.
Proof.
  exists (1 # 100), (1 # 10), (5 # 100). do 2 eexists. split; [reflexivity|]. split; [reflexivity|]. split; [vm_compute; reflexivity|].
  split; [reflexivity|]. reflexivity.
Qed.
Print Assumptions C81_andor_later_refuted.

(* ---- Reframe ---- *)
Lemma trunc_spec q n : 0 <= q -> trunc q = n <-> inject_Z n <= q /\ q < inject_Z (n + 1).
Proof.
  intros Q. unfold trunc. apply Qle_bool_iff in Q. rewrite Q. split.
  - intros <-. split; [apply Qfloor_le|apply Qlt_floor].
  - intros [A B]. pose proof (Qfloor_le q) as F1. pose proof (Qlt_floor q) as F2.
    assert (inject_Z (Qfloor q) < inject_Z (n + 1)) by lra. assert (inject_Z n < inject_Z (Qfloor q + 1)) by lra.
    rewrite <- Zlt_Qlt in *. lia.
Qed.
(* With triggers at the starts of the frames: the samples after a trigger are over at least one
   sample before the next trigger, and there is no room for two more. *)
Theorem C81_reframe freq always_on d n : 0 < freq -> 0 <= d ->
  (reframe_setup freq true false always_on d = Ok n <->
   (0 < n)%Z /\ (inject_Z n + 1) / freq <= d /\ d < (inject_Z n + 2) / freq).
Proof.
  intros F D. assert (DF : 0 <= d * freq) by (apply Qmult_le_0_compat; lra).
  assert (A : forall q, q / freq <= d <-> q <= d * freq).
  { intros q. split; intros H.
    - apply (Qmult_le_r _ _ freq F) in H. assert (E : q / freq * freq == q) by (field; lra). lra.
    - apply Qle_shift_div_r; assumption. }
  assert (B : forall q, d < q / freq <-> d * freq < q).
  { intros q. split; intros H; [|apply Qlt_shift_div_l; assumption].
    destruct (Qlt_le_dec (d * freq) q) as [L|L]; [exact L|]. apply A in L. lra. }
  rewrite A, B. unfold reframe_setup, adc_samples. set (m := trunc (d * freq)).
  assert (M : trunc (d * freq) = m) by reflexivity. apply (trunc_spec _ _ DF) in M as [M1 M2]. rewrite inject_Z_plus in M2. change (inject_Z 1) with 1 in M2.
  split.
  - destruct (Z.ltb_spec 0 (m - 1)); [|discriminate]. intros E. injection E as <-. split; [assumption|].
    unfold Z.sub. rewrite inject_Z_plus. change (inject_Z (- (1))) with (- (1)). lra.
  - intros (N & L1 & L2). assert (E : m = (n + 1)%Z).
    { apply (trunc_spec _ _ DF). rewrite !inject_Z_plus. change (inject_Z 1) with 1. lra. }
    rewrite E. replace (n + 1 - 1)%Z with n by lia. destruct (Z.ltb_spec 0 n); [reflexivity|lia].
Qed.
Print Assumptions C81_reframe.
(* With gates nothing is counted; without triggers a frame is as many samples as it has room for. *)
Theorem C81_reframe_other freq d n : 0 < freq -> 0 <= d ->
  (forall always_on, reframe_setup freq true true always_on d = Ok 0%Z)
  /\ (forall gated, reframe_setup freq false gated true d = Ok n <-> inject_Z n / freq <= d /\ d < (inject_Z n + 1) / freq)
  /\ (forall gated, reframe_setup freq false gated false d = Err RNotAlwaysOn).
Proof.
  intros F D. split; [reflexivity|]. split; [|reflexivity]. intros gt. assert (DF : 0 <= d * freq) by (apply Qmult_le_0_compat; lra).
  assert (A : forall q, q / freq <= d <-> q <= d * freq).
  { intros q. split; intros H.
    - apply (Qmult_le_r _ _ freq F) in H. assert (E : q / freq * freq == q) by (field; lra). lra.
    - apply Qle_shift_div_r; assumption. }
  assert (B : forall q, d < q / freq <-> d * freq < q).
  { intros q. split; intros H; [|apply Qlt_shift_div_l; assumption].
    destruct (Qlt_le_dec (d * freq) q) as [L|L]; [exact L|]. apply A in L. lra. }
  rewrite A, B. pose proof (trunc_spec (d * freq) n DF) as T. rewrite inject_Z_plus in T. change (inject_Z 1) with 1 in T. rewrite <- T. unfold reframe_setup, adc_samples. split; [intros E; now injection E|now intros ->].
Qed.
Print Assumptions C81_reframe_other.
(* The duration on_validate asks for can be set up, with one sample. *)
Theorem C81_reframe_open freq D always_on : 0 < freq -> reframe_validate freq 0 = Ok (Some D) ->
  reframe_setup freq true false always_on D = Ok 1%Z /\ reframe_validate freq D = Ok None.
Proof.
  intros F E. unfold reframe_validate in E. cbn [Qeq_bool] in E. assert (Z0 : Qeq_bool 0 0 = true) by reflexivity. rewrite Z0 in E.
  injection E as E.
  assert (D2 : D * freq == 2) by (rewrite <- E; field; lra).
  assert (P : 0 < D) by (rewrite <- E; apply Qlt_shift_div_l; lra).
  assert (T : adc_samples freq D = 2%Z) by (unfold adc_samples; apply trunc_spec; [lra|]; change (inject_Z 2) with 2; change (inject_Z (2 + 1)) with 3; lra).
  split.
  - unfold reframe_setup. rewrite T. reflexivity.
  - unfold reframe_validate. rewrite T. assert (Qeq_bool D 0 = false) as -> by (apply qeq_false; lra).
    assert (qlt 0 D = true) as -> by (apply qlt_true; lra). reflexivity.
Qed.
Print Assumptions C81_reframe_open.
Example C81_reframe_ex : reframe_setup 10000 true false false (1 # 10) = Ok 999%Z /\ reframe_setup 10000 true true false (1 # 10) = Ok 0%Z
  /\ reframe_setup 10000 false false true (1 # 10) = Ok 1000%Z /\ reframe_validate 10000 (1 # 100000) = Err RNoSample.
Proof. repeat split. Qed.
(* A duration can be validated that can not be set up. *)
Theorem C81_reframe_refuted : exists freq d, 0 < freq /\ reframe_validate freq d = Ok None
  /\ forall always_on, reframe_setup freq true false always_on d = Err RTooShort.
Proof. exists 10000, (15 # 100000). split; [reflexivity|]. split; [reflexivity|]. intros. reflexivity. Qed.
Print Assumptions C81_reframe_refuted.

(* ---- TetrAMM ---- *)
(* For each target that the attribute (uint32) can hold a value is put; it is at least five, a
   frame does not get more samples than the target, and the value is the least such. *)
Theorem C81_tetramm target e : (0 <= target)%Z ->
  exists v, tetramm_values target e = Some v /\ (5 <= v)%Z
    /\ ((target = 0)%Z -> v = 5%Z)
    /\ ((0 < target)%Z -> 100000 * e <= inject_Z target * inject_Z v
        /\ forall u, (5 <= u < v)%Z -> inject_Z target * inject_Z u < 100000 * e).
Proof.
  intros T. unfold tetramm_values. destruct (Z.eqb_spec target 0) as [->|N].
  - exists 5%Z. split; [reflexivity|]. split; [lia|]. split; [reflexivity|lia].
  - destruct (Z.ltb_spec 0 target) as [P|]; [|lia]. eexists. split; [reflexivity|].
    assert (PQ : 0 < inject_Z target) by (unfold Qlt; cbn; lia).
    set (q := 100000 * e / inject_Z target). assert (Hq : q * inject_Z target == 100000 * e) by (unfold q; field; lra).
    split; [lia|]. split; [contradiction|]. intros _. split.
    + assert (L : q <= inject_Z (Z.max (Qceiling q) 5)).
      { apply (Qle_trans _ (inject_Z (Qceiling q))); [apply Qle_ceiling|]. rewrite <- Zle_Qle. lia. }
      apply (Qmult_le_r _ _ _ PQ) in L. lra.
    + intros u [U1 U2]. assert (U3 : (u <= Qceiling q - 1)%Z) by lia.
      assert (L : inject_Z u < q).
      { pose proof (Qceiling_lt q). apply (Qle_lt_trans _ (inject_Z (Qceiling q - 1))); [rewrite <- Zle_Qle; exact U3|assumption]. }
      apply (Qmult_lt_r _ _ _ PQ) in L. lra.
Qed.
Print Assumptions C81_tetramm.
Example C81_tetramm_ex : tetramm_values 100 (1 # 10) = Some 100%Z /\ tetramm_values 300 (1 # 10) = Some 34%Z /\ tetramm_values 100000 (1 # 10) = Some 5%Z.
Proof. repeat split. Qed.

(* ---- XMAP ---- *)
(* With breakpoints, or if a run has all the steps, the pixels of a run are the images. *)
Theorem C81_xmap bp size old c n a : (a = AConfigure c n \/ a = ASeek c n) -> bp = true \/ (n = size - c)%Z ->
  fst (xmap_ask bp size old a) = snd (xmap_ask bp size old a).
Proof.
  intros [-> | ->] H; cbn [xmap_ask fst snd]; unfold num_images; destruct H as [-> | ->]; try reflexivity; destruct bp; reflexivity.
Qed.
Print Assumptions C81_xmap.
(* Without breakpoints the images of all runs are armed for, with the pixels of one. *)
Theorem C81_xmap_refuted : exists size n, (0 < n < size)%Z
  /\ let x1 := xmap_ask false size (0, 0)%Z (AConfigure 0 n) in let x2 := xmap_ask false size x1 (APostRunArmed n (size - n)) in
     fst x2 = size /\ (snd x2 < size)%Z.
Proof. exists 10%Z, 5%Z. split; [lia|]. split; [reflexivity|]. cbn. lia. Qed.
Print Assumptions C81_xmap_refuted.
