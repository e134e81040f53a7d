(* Signals and reported steps of a scan that triggers at every point. *)
From Coq Require Import String Ascii Bool ZArith QArith Qabs Qround Lia Lqa List.
From Verif Require Import Base Pmac_Model Pmac_Spec Pmac_Proofs PmacScan_Proofs.
Import ListNotations.
Local Open Scope list_scope.
Local Open Scope nat_scope.

Lemma signals_app a b : signals (a ++ b) = signals a ++ signals b.
Proof. unfold signals. rewrite map_app, filter_app. reflexivity. Qed.

Lemma signals_cut p e : signals (cut p e) = signals [e].
Proof.
  unfold cut. rewrite signals_app.
  assert (G : forall (l : list nat) f t s, signals (map (fun i => mkEntry t 0 0 s (f i)) l) = []).
  { intros l f t s. induction l; [reflexivity|]. exact IHl. }
  rewrite (G _ (fun i a => between (e_pos p a) (e_pos e a) i (pieces (e_time e)))). reflexivity.
Qed.

Lemma signals_extend E e E' : extend E e = Some E' ->
  signals E' = signals E ++ signals [e] /\
  exists r x, E' = r ++ [x] /\ e_prog x = e_prog e.
Proof.
  unfold extend. destruct (Qle_bool _ _); intro H.
  - injection H as <-. rewrite signals_app. split; [reflexivity|]. eauto.
  - destruct (last_entry E) as [p|]; [|discriminate]. injection H as <-.
    rewrite signals_app, signals_cut. split; [reflexivity|].
    unfold cut. rewrite app_assoc. eexists. eexists. split; [reflexivity|]. reflexivity.
Qed.

Section Signals.
  Variable gen : list ppoint.
  Variable N start : nat.
  Variable joined : ppoint -> ppoint -> bool.
  Variable gap : ppoint -> ppoint -> list (Q * (string -> Q)).
  Hypothesis HN : N <= length gen.
  Hypothesis Hgap : forall p q, joined p q = false -> gap p q <> [].

  Lemma sig_adds es : forall E E', sop_run E (map SAdd es) = Some E' ->
    signals E' = signals E ++ signals es.
  Proof.
    induction es as [|e es IH]; intros E E' H; cbn in H.
    - injection H as <-. rewrite app_nil_r. reflexivity.
    - destruct (extend E e) as [E1|] eqn:E1E; [|discriminate].
      apply signals_extend in E1E as [S1 _]. rewrite (IH _ _ H), S1, <- app_assoc.
      rewrite <- signals_app. reflexivity.
  Qed.

  Lemma sig_gap E E' p q i : gap p q <> [] ->
    sop_run E (ideal_gap gap p q i) = Some E' -> signals E' = signals E ++ [1%Z].
  Proof.
    intros Hg H. unfold ideal_gap in H.
    destruct (exists_last Hg) as (g & tf & Eg). rewrite Eg, map_app in H. cbn [map] in H.
    rewrite <- app_assoc, sop_run_app in H.
    destruct (sop_run E (map _ g)) as [E1|] eqn:R1; [|discriminate].
    cbn [app sop_run sop_step] in H.
    destruct (extend E1 _) as [E2|] eqn:R2; [|discriminate].
    apply signals_extend in R2 as [S2 (r & x & -> & Hx)]. cbn [e_prog] in Hx.
    rewrite amend_snoc in H. injection H as <-.
    rewrite signals_app in S2. rewrite signals_app.
    assert (Sx : signals [x] = []) by (unfold signals; cbn; rewrite Hx; reflexivity).
    assert (Sa : forall t st f, signals [mkEntry t 1 1 st f] = [1%Z]) by reflexivity.
    assert (Sb : forall t st f, signals [mkEntry t 1 8 st f] = []) by reflexivity.
    rewrite Sx, Sb, !app_nil_r in S2. rewrite S2, Sa.
    assert (signals E1 = signals E) as ->.
    { assert (HR : sop_run E (map SAdd (map (fun tf => mkEntry (fst tf) 1 8 (Z.of_nat (S i)) (snd tf)) g))
                   = Some E1) by (rewrite map_map; exact R1).
      apply sig_adds in HR. rewrite HR.
      assert (G : signals (map (fun tf : Q * (string -> Q) => mkEntry (fst tf) 1 8 (Z.of_nat (S i)) (snd tf)) g) = []).
      { clear. induction g; [reflexivity|]. exact IHg. }
      rewrite G, app_nil_r. reflexivity. }
    reflexivity.
  Qed.

  Lemma sig_pair E E' p i j : sop_run E (ideal_pair p i j) = Some E' ->
    signals E' = signals E ++ [4%Z; if j then 1%Z else 2%Z].
  Proof.
    intro H. change (ideal_pair p i j) with
      (map SAdd [mkEntry (pt_dur p / 2) 0 4 (Z.of_nat i) (pt_pos p);
                 mkEntry (pt_dur p / 2) (if j then 0 else 1)%Z (if j then 1 else 2)%Z
                      (Z.of_nat (S i)) (pt_up p)]) in H.
    apply sig_adds in H. rewrite H. f_equal. destruct j; reflexivity.
  Qed.

  Definition wanted i :=
    match nth_error gen i, nth_error gen (S i) with
    | Some p, Some q => if Nat.ltb (S i) N && joined p q then [1; 4]%Z else [1; 4; 2]%Z
    | _, _ => [1; 4; 2]%Z
    end.

  Lemma sig_point E E' i : i < N ->
    sop_run E (ideal_point gen N joined gap i) = Some E' ->
    forall pre, signals E = pre ++ [1%Z] ->
    signals E' = pre ++ wanted i ++ (if Nat.ltb (S i) N then [1%Z] else []).
  Proof.
    intros Hi H pre Hpre. unfold ideal_point in H. unfold wanted.
    destruct (nth_error gen i) as [p|] eqn:Ep.
    2:{ apply nth_error_None in Ep. lia. }
    destruct (Nat.ltb_spec (S i) N) as [HS|HS].
    - destruct (nth_error gen (S i)) as [q|] eqn:Eq.
      2:{ apply nth_error_None in Eq. lia. }
      rewrite sop_run_app in H.
      destruct (sop_run E (ideal_pair p i (joined p q))) as [E1|] eqn:R1; [|discriminate].
      apply sig_pair in R1. cbn [andb]. destruct (joined p q) eqn:J.
      + cbn in H. injection H as <-. rewrite R1, Hpre, <- app_assoc. reflexivity.
      + apply sig_gap in H; [|apply Hgap; exact J]. rewrite H, R1, Hpre, <- !app_assoc. reflexivity.
    - cbn [andb]. apply sig_pair in H. rewrite H, Hpre, <- app_assoc.
      destruct (nth_error gen (S i)); reflexivity.
  Qed.

  Lemma sig_points k : forall a E E' pre, a + k <= N ->
    sop_run E (flat_map (ideal_point gen N joined gap) (seq a k)) = Some E' ->
    a < N -> signals E = pre ++ [1%Z] ->
    signals E' = pre ++ flat_map wanted (seq a k) ++ (if Nat.ltb (a + k) N then [1%Z] else []).
  Proof.
    induction k as [|k IH]; intros a E E' pre Hle H Ha Hpre; cbn [seq flat_map] in *.
    - cbn in H. injection H as <-. rewrite Nat.add_0_r.
      destruct (Nat.ltb_spec a N); [exact Hpre|lia].
    - rewrite sop_run_app in H.
      destruct (sop_run E (ideal_point gen N joined gap a)) as [E1|] eqn:R1; [|discriminate].
      pose proof (sig_point E E1 a Ha R1 pre Hpre) as S1.
      destruct (Nat.ltb_spec (S a) N) as [HS|HS].
      + rewrite app_assoc in S1. apply (IH (S a) E1 E' (pre ++ wanted a)) in H; auto; [|lia].
        replace (a + S k) with (S a + k) by lia. rewrite H, <- !app_assoc. reflexivity.
      + assert (k = 0) by lia. subst k. cbn in H. injection H as <-.
        cbn [seq flat_map]. rewrite S1, app_nil_r. destruct (Nat.ltb_spec (a + 1) N); [lia|].
        rewrite app_nil_r. reflexivity.
  Qed.

  Lemma sig_ideal ru tl E : start < N -> e_prog ru = 1%Z -> e_prog tl = 8%Z ->
    sop_run [] (ideal gen N start joined gap ru tl) = Some E ->
    signals E = wanted_signals gen N start joined.
  Proof.
    intros Hs Hr Ht H. unfold ideal, ideal_upto in H.
    change (SAdd ru :: ?a) with ([SAdd ru] ++ a) in H. rewrite <- app_assoc, sop_run_app in H.
    destruct (sop_run [] [SAdd ru]) as [E0|] eqn:R0; [|discriminate].
    rewrite sop_run_app in H.
    destruct (sop_run E0 _) as [E1|] eqn:R1; [|discriminate].
    apply (sig_adds [tl]) in H. rewrite H.
    apply (sig_adds [ru]) in R0.
    assert (Hru : signals [ru] = [1%Z]) by (unfold signals; cbn; rewrite Hr; reflexivity).
    assert (Htl : signals [tl] = []) by (unfold signals; cbn; rewrite Ht; reflexivity).
    rewrite Hru in R0. rewrite Htl, app_nil_r.
    apply (sig_points (N - start) start E0 E1 []) in R1; auto; [|lia].
    rewrite R1. replace (start + (N - start)) with N by lia. rewrite Nat.ltb_irrefl, app_nil_r.
    reflexivity.
  Qed.

  (* reported steps *)
  Lemma steps_asked_app a b : steps_asked (a ++ b) = steps_asked a ++ steps_asked b.
  Proof. unfold steps_asked. apply flat_map_app. Qed.

  Definition within (lo hi : Z) (l : list Z) : Prop :=
    nondecreasing l /\ Forall (fun z => (lo <= z <= hi)%Z) l.

  Lemma within_app lo mid hi a b : within lo mid a -> within mid hi b -> (lo <= mid <= hi)%Z ->
    within lo hi (a ++ b).
  Proof.
    intros [A1 A2] [B1 B2] H. split.
    - apply nondecreasing_app. split; [exact A1|]. split; [exact B1|].
      intros x y r Hx Hy. subst b. apply last_of_Some in Hx as (r' & ->).
      apply Forall_app in A2 as [_ A2]. inversion A2; inversion B2; subst. lia.
    - apply Forall_app. split; eapply Forall_impl; try eassumption; cbn; intros; lia.
  Qed.

  Lemma steps_point i : within (Z.of_nat i) (Z.of_nat (S i))
    (steps_asked (ideal_point gen N joined gap i)).
  Proof.
    assert (HP : forall p j, within (Z.of_nat i) (Z.of_nat (S i)) (steps_asked (ideal_pair p i j))).
    { intros p j. cbn [ideal_pair steps_asked flat_map app e_step]. split.
      - cbn [nondecreasing]. split; [lia|]. auto.
      - repeat constructor; lia. }
    assert (H0 : within (Z.of_nat i) (Z.of_nat (S i)) []) by (split; [exact I|constructor]).
    unfold ideal_point. destruct (nth_error gen i) as [p|]; [|exact H0].
    destruct (Nat.ltb (S i) N); [|apply HP].
    destruct (nth_error gen (S i)) as [q|]; [|exact H0].
    rewrite steps_asked_app. apply within_app with (mid := Z.of_nat (S i)); [apply HP| |lia].
    destruct (joined p q); [split; [exact I|constructor]|].
    unfold ideal_gap. rewrite steps_asked_app. cbn [steps_asked flat_map].
    rewrite app_nil_r.
    generalize (gap p q) as g. intro g.
    assert (G : steps_asked (map (fun tf : Q * (string -> Q) =>
                SAdd (mkEntry (fst tf) 1 8 (Z.of_nat (S i)) (snd tf))) g)
                = repeat (Z.of_nat (S i)) (length g)).
    { induction g as [|x g IH]; [reflexivity|]. cbn. f_equal. exact IH. }
    rewrite G. split.
    - clear G. induction g as [|x g IH]; [exact I|]. cbn [length repeat nondecreasing].
      destruct g; cbn [length repeat] in *; split; auto; lia.
    - clear G. apply Forall_forall. intros x Hx. apply repeat_spec in Hx. subst. lia.
  Qed.

  Lemma steps_points k : forall a,
    within (Z.of_nat a) (Z.of_nat (a + k))
      (steps_asked (flat_map (ideal_point gen N joined gap) (seq a k))).
  Proof.
    induction k as [|k IH]; intro a; cbn [seq flat_map].
    - split; [exact I|constructor].
    - rewrite steps_asked_app. apply within_app with (mid := Z.of_nat (S a)); [apply steps_point| |lia].
      replace (a + S k) with (S a + k) by lia. apply IH.
  Qed.

  Lemma steps_upto ru k : start <= k -> e_step ru = Z.of_nat start ->
    within (Z.of_nat start) (Z.of_nat k) (steps_asked (ideal_upto gen N start joined gap ru k)).
  Proof.
    intros Hk Hr. unfold ideal_upto.
    change (steps_asked (SAdd ru :: ?l)) with ([e_step ru] ++ steps_asked l).
    apply within_app with (mid := Z.of_nat start); [| |lia].
    - rewrite Hr. split; [cbn; auto|]. repeat constructor; lia.
    - replace k with (start + (k - start)) at 1 by lia. apply steps_points.
  Qed.

  Lemma steps_ideal ru tl : start <= N -> e_step ru = Z.of_nat start -> e_step tl = Z.of_nat N ->
    within (Z.of_nat start) (Z.of_nat N) (steps_asked (ideal gen N start joined gap ru tl)).
  Proof.
    intros Hs Hr Ht. unfold ideal. rewrite steps_asked_app.
    apply within_app with (mid := Z.of_nat N); [apply steps_upto; auto| |lia].
    cbn. rewrite Ht. split; [cbn; auto|]. repeat constructor; lia.
  Qed.
End Signals.

(* every step of the trajectory is one that was asked for *)
Lemma sop_run_steps_in os : forall E E', sop_run E os = Some E' ->
  forall s, In s (map e_step E') -> In s (map e_step E) \/ In s (steps_asked os).
Proof.
  induction os as [|o os IH]; intros E E' H s Hs; cbn in H.
  - injection H as <-. auto.
  - destruct (sop_step E o) as [E1|] eqn:E1E; [|discriminate].
    specialize (IH _ _ H s Hs). destruct o as [e|mode prog f|]; cbn in E1E.
    + change (steps_asked (SAdd e :: os)) with (e_step e :: steps_asked os).
      destruct IH as [IH|IH]; [|right; right; exact IH].
      apply steps_extend in E1E as (k & s0 & Hst & Hk). rewrite Hst in IH.
      apply in_app_or in IH as [IH|IH]; [left; exact IH|].
      apply in_app_or in IH as [IH|[IH|[]]]; [|right; left; exact IH].
      apply repeat_spec in IH as HIH. subst s0. destruct Hk as [-> | (r & Hr)]; [destruct IH|].
      left. rewrite Hr. apply in_or_app. right. left. reflexivity.
    + apply amend_shape in E1E as [_ HS]. rewrite HS in IH. exact IH.
    + injection E1E as <-. exact IH.
Qed.

Lemma list_bound {A} (f : A -> nat) l : exists M, forall x, In x l -> f x <= M.
Proof.
  induction l as [|a l [M HM]]; [exists 0; intros x []|].
  exists (Nat.max (f a) M). intros x [<-|Hx]; [lia|]. specialize (HM x Hx). lia.
Qed.

Lemma points_bounded gen N joined gap : exists M, all_points_at_most gen N joined gap M.
Proof.
  destruct (list_bound (fun i => entries_of (ideal_point gen N joined gap i)) (seq 0 (length gen)))
    as [M HM].
  exists M. intro i. destruct (Nat.lt_ge_cases i (length gen)).
  - apply HM. apply in_seq. lia.
  - unfold ideal_point. apply nth_error_None in H. rewrite H. cbn. lia.
Qed.
