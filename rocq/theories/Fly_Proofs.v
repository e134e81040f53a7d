(* Lemmas for C107: profiles only grow at the PMAC, and no entry claims a step before its point. *)
From Coq Require Import String Bool ZArith QArith Lia List.
From Verif Require Import Base Pmac_Model Pmac_Spec.
Import ListNotations.
Local Open Scope list_scope.
Local Open Scope nat_scope.

(* ---- what was sent stays sent ---- *)
Lemma set_point_sent m st mode prog step pts st' : set_point m st mode prog step pts = Ok st' -> pf_sent st' = pf_sent st.
Proof. unfold set_point. destruct (append_axes m pts (pf_axes st)); intros [= <-]; reflexivity. Qed.
Lemma add_sent m st t mode prog step pts st' : add_profile_point m st t mode prog step pts = Ok st' -> pf_sent st' = pf_sent st.
Proof.
  unfold add_profile_point. destruct (negb _).
  - destruct (pf_time st) as [|q l]; [discriminate|]. cbv zeta. destruct (stretch_axes _ _ _ _); [|discriminate].
    destruct (last_of (pf_lookup st)); [|discriminate]. intros H. apply set_point_sent in H. exact H.
  - intros H. apply set_point_sent in H. exact H.
Qed.
Lemma fix_sent m st mode prog pts st' : fix_last m st mode prog pts = Ok st' -> pf_sent st' = pf_sent st.
Proof.
  unfold fix_last. intros H. repeat match type of H with context [match ?x with _ => _ end] => destruct x; try discriminate end.
  all: injection H as <-; reflexivity.
Qed.

Section Sent.
  Variable axes : list (string * (string * motor)).
  Variable gen : list ppoint.
  Variable N : nat.
  Variables joined same : ppoint -> ppoint -> bool.
  Variable gap : ppoint -> ppoint -> list (Q * (string -> Q)).
  Variable interval : Q.
  Variables PP BATCH : nat.
  Notation T := EVERY_POINT.

  Lemma pair_sent st p n j st' : add_generator_point_pair axes T st p n j = Ok st' -> pf_sent st' = pf_sent st.
  Proof.
    unfold add_generator_point_pair. destruct (add axes T st _ _ _ _ _) as [s1|] eqn:A; [|discriminate].
    intros H. apply add_sent in H, A. congruence.
  Qed.
  Lemma turn_sent g : forall st n st', add_turnaround axes T st g n = Ok st' -> pf_sent st' = pf_sent st.
  Proof.
    induction g as [|[t f] g IH]; intros st n st' H; cbn [add_turnaround] in H; [injection H as <-; reflexivity|].
    destruct (add axes T st _ _ _ _ _) as [s1|] eqn:A; [|discriminate]. apply IH in H. apply add_sent in A. congruence.
  Qed.
  Lemma gap_sent st p q n st' : insert_gap axes gap T st p q n = Ok st' -> pf_sent st' = pf_sent st.
  Proof.
    unfold insert_gap. destruct (add_turnaround axes T st _ n) as [s1|] eqn:A; [|discriminate].
    intros H. apply fix_sent in H. apply turn_sent in A. congruence.
  Qed.
  Lemma loop_sent points : forall i st st' j b, every_loop axes joined gap T PP points i st = Ok (st', j, b) -> pf_sent st' = pf_sent st.
  Proof.
    induction points as [|p rest IH]; intros i st st' j b H; [injection H as <- _ _; reflexivity|].
    destruct rest as [|q r]; [injection H as <- _ _; reflexivity|].
    change (every_loop axes joined gap T PP (p :: q :: r) i st) with
      (match add_generator_point_pair axes T st p i (joined p q) with
       | Err e => Err e
       | Ok st1 => match (if joined p q then Ok st1 else insert_gap axes gap T st1 p q (S i)) with
                   | Err e => Err e
                   | Ok st2 => if exceeds PP st2 then Ok (set_end st2 (S i), i, true)
                               else every_loop axes joined gap T PP (q :: r) (S i) st2
                   end
       end) in H.
    destruct (add_generator_point_pair axes T st p i (joined p q)) as [s1|] eqn:A; [|discriminate]. apply pair_sent in A.
    destruct (if joined p q then Ok s1 else insert_gap axes gap T s1 p q (S i)) as [s2|] eqn:B; [|discriminate].
    assert (X : pf_sent s2 = pf_sent s1). { destruct (joined p q); [now injection B as <-|now apply gap_sent in B]. }
    destruct (exceeds PP s2).
    - injection H as <- _ _. cbn. congruence.
    - apply IH in H. congruence.
  Qed.
  Lemma batches_sent fuel : forall sb i st st' b, every_batches axes gen N joined gap T PP BATCH fuel sb i st = Ok (st', b) ->
    pf_sent st' = pf_sent st.
  Proof.
    induction fuel as [|fuel IH]; intros sb i st st' b H; cbn [every_batches] in H; [discriminate|].
    destruct (get_some_points gen N BATCH sb) as [points|]; [|injection H as <- _; reflexivity].
    destruct (every_loop axes joined gap T PP points i st) as [[[s1 pi] e]|] eqn:A; [|discriminate]. apply loop_sent in A.
    destruct e; [injection H as <- _; exact A|].
    destruct (Nat.eqb _ N).
    - destruct (last_of points); [|discriminate].
      destruct (add_generator_point_pair axes T s1 _ pi false) as [s2|] eqn:B; [|discriminate]. apply pair_sent in B.
      destruct (exceeds PP s2); [injection H as <- _; cbn; congruence|].
      destruct (Nat.eqb (S pi) N); [injection H as <- _; congruence|]. apply IH in H. congruence.
    - destruct (Nat.eqb pi N); [injection H as <- _; exact A|]. apply IH in H. congruence.
  Qed.
  Lemma tail_sent st st' : add_tail_off axes gen N T interval st = Ok st' -> pf_sent st' = pf_sent st.
  Proof.
    unfold add_tail_off. destruct (nth_error gen (N - 1)); [|discriminate]. destruct (tail_off axes _ _) as [[t pts]|]; [|discriminate].
    destruct (add axes T st _ _ _ _ _) as [s1|] eqn:A; [|discriminate]. intros [= <-]. apply add_sent in A. exact A.
  Qed.
  Lemma calc_sent st k st' : calculate_generator_profile axes gen N joined same gap T interval PP BATCH st k false = Ok st' ->
    pf_sent st' = pf_sent st.
  Proof.
    unfold calculate_generator_profile, calculate_more. cbn [is_every].
    destruct (every_batches _ _ _ _ _ _ _ _ _ _ _ _) as [[s1 nt]|] eqn:A; [|discriminate]. apply batches_sent in A. cbn in A.
    destruct (nt && negb (pf_tail s1)).
    - intros H. apply tail_sent in H. congruence.
    - intros [= <-]. exact A.
  Qed.
  Lemma upd_sent st k st' : update_step axes gen N joined same gap T interval PP BATCH st k = Ok st' ->
    exists more, pf_sent st' = pf_sent st ++ more.
  Proof.
    unfold update_step. cbv zeta.
    set (C := fun s => calculate_generator_profile axes gen N joined same gap T interval PP BATCH s (pf_end s) false).
    assert (W : forall s s', match C s with Err e => Err e | Ok s1 => Ok (write_profile_points PP s1) end = Ok s' ->
                exists more, pf_sent s' = pf_sent s ++ more).
    { intros s s'. unfold C. destruct (calculate_generator_profile _ _ _ _ _ _ _ _ _ _ s _ false) as [s1|] eqn:A; [|discriminate].
      intros [= <-]. apply calc_sent in A. cbn. rewrite A. eauto. }
    intros H.
    match type of H with match ?x with _ => _ end = _ => destruct x as [s1|] eqn:R1; [|discriminate] end.
    assert (X : exists more, pf_sent s1 = pf_sent st ++ more).
    { destruct (Nat.ltb (pf_end st) N && Nat.ltb (length (pf_lookup st) - k) PP).
      - apply W. exact R1.
      - injection R1 as <-. exists []. now rewrite app_nil_r. }
    destruct X as [m1 X]. destruct (Nat.eqb (pf_end s1) N && negb (Nat.eqb (length (pf_time s1)) 0)).
    - match type of H with match ?x with _ => _ end = _ => destruct x as [s2|] eqn:R2; [|discriminate] end.
      apply W in R2 as [m2 R2]. destruct (_ && _) in H; [discriminate|]. injection H as <-.
      exists (m1 ++ m2). rewrite R2, X. now rewrite <- app_assoc.
    - injection H as <-. eauto.
  Qed.
End Sent.

(* ---- the steps of the entries ---- *)
(* 4 is the program of the middle of a point. *)
Definition mids (l : list Z) : Z := Z.of_nat (length (filter (Z.eqb 4) l)).
Lemma mids_app a b : mids (a ++ b) = (mids a + mids b)%Z.
Proof. unfold mids. rewrite filter_app, app_length. lia. Qed.
Lemma mids_nonneg l : (0 <= mids l)%Z.
Proof. unfold mids. lia. Qed.
Definition progs (E : list entry) : list Z := map e_prog E.

(* Each entry is at a step no further than that of the points whose middle is passed with it. *)
Definition behind (c : Z) (E : list entry) : Prop :=
  forall pre e post, E = pre ++ e :: post -> (e_step e <= c + mids (progs (pre ++ [e])))%Z.
Definition one (z : Z) : Z := if Z.eqb 4 z then 1%Z else 0%Z.
Fixpoint fits (c mid : Z) (free : bool) (os : list sop) : Prop :=
  match os with
  | [] => True
  | SAdd e :: r => (e_step e <= c + mid + one (e_prog e))%Z /\ fits c (mid + one (e_prog e)) (negb (Z.eqb 4 (e_prog e))) r
  | SFix _ p _ :: r => free = true /\ Z.eqb 4 p = false /\ fits c mid free r
  | SWrite :: r => fits c mid free r
  end.
Lemma one_mids z : mids [z] = one z.
Proof. unfold mids, one. cbn [filter]. destruct (Z.eqb 4 z); reflexivity. Qed.

Lemma snoc_inv {A} (l : list A) x pre e post : l ++ [x] = pre ++ e :: post ->
  (post = [] /\ pre = l /\ e = x) \/ (exists p', post = p' ++ [x] /\ l = pre ++ e :: p').
Proof.
  intros H. destruct (rev post) as [|y r] eqn:R.
  - assert (post = []) as -> by (rewrite <- (rev_involutive post), R; reflexivity).
    apply app_inj_tail in H as [-> ->]. auto.
  - assert (post = rev r ++ [y]) as -> by (rewrite <- (rev_involutive post), R; reflexivity).
    right. exists (rev r). replace (pre ++ e :: rev r ++ [y]) with ((pre ++ e :: rev r) ++ [y]) in H by now rewrite <- app_assoc.
    apply app_inj_tail in H as [-> ->]. auto.
Qed.
Lemma behind_snoc c E e : behind c E -> (e_step e <= c + mids (progs E) + one (e_prog e))%Z -> behind c (E ++ [e]).
Proof.
  intros B L pre x post H. destruct (snoc_inv _ _ _ _ _ H) as [(-> & -> & ->)|(p' & -> & HE)].
  - unfold progs. rewrite map_app, mids_app. cbn [map]. rewrite one_mids. fold (progs E). lia.
  - eapply B. exact HE.
Qed.
Lemma fill_behind c s (l : list entry) : forall E, behind c E -> (s <= c + mids (progs E))%Z ->
  Forall (fun e => e_step e = s /\ e_prog e = 0%Z) l -> behind c (E ++ l) /\ mids (progs (E ++ l)) = mids (progs E).
Proof.
  induction l as [|e l IH]; intros E B L F; [rewrite app_nil_r; auto|].
  inversion F as [|? ? [F1 F2] F3]; subst. replace (E ++ e :: l) with ((E ++ [e]) ++ l) by now rewrite <- app_assoc.
  assert (M : mids (progs (E ++ [e])) = mids (progs E)).
  { unfold progs. rewrite map_app, mids_app. cbn [map]. rewrite one_mids, F2. cbn. lia. }
  rewrite <- M. apply IH; [|rewrite M; exact L|exact F3].
  apply behind_snoc; [exact B|]. rewrite F2. cbn. lia.
Qed.
Lemma extend_behind c E e E' : behind c E -> (e_step e <= c + mids (progs E) + one (e_prog e))%Z -> extend E e = Some E' ->
  behind c E' /\ mids (progs E') = (mids (progs E) + one (e_prog e))%Z /\ (exists r x, E' = r ++ [x] /\ e_prog x = e_prog e).
Proof.
  intros B L H. unfold extend in H. destruct (Qle_bool (e_time e) 4).
  - injection H as <-. split; [now apply behind_snoc|]. split; [unfold progs; rewrite map_app, mids_app; cbn [map]; rewrite one_mids; lia|eauto].
  - unfold last_entry, last_of in H. destruct (rev E) as [|p r] eqn:R; [discriminate|]. injection H as <-.
    assert (HE : E = rev r ++ [p]) by (rewrite <- (rev_involutive E), R; reflexivity).
    assert (LP : (e_step p <= c + mids (progs E))%Z) by (rewrite HE; apply (B (rev r) p []); exact HE).
    unfold cut. set (F := map _ _). set (z := mkEntry _ _ _ _ _). cbv zeta.
    assert (FF : Forall (fun e => e_step e = e_step p /\ e_prog e = 0%Z) F).
    { apply Forall_forall. intros y Y. apply in_map_iff in Y as (i & <- & _). auto. }
    destruct (fill_behind c (e_step p) F E B LP FF) as [B1 M1].
    replace (E ++ F ++ [z]) with ((E ++ F) ++ [z]) by now rewrite <- app_assoc.
    split; [apply behind_snoc; [exact B1|rewrite M1; exact L]|]. split; [|exists (E ++ F), z; auto].
    transitivity (mids (progs (E ++ F)) + one (e_prog e))%Z; [|now rewrite M1].
    unfold progs. rewrite map_app, mids_app. cbn [map]. rewrite one_mids. reflexivity.
Qed.
Lemma amend_behind c E mode p g E' : behind c E -> Z.eqb 4 p = false -> (exists r x, E = r ++ [x] /\ Z.eqb 4 (e_prog x) = false) ->
  amend E mode p g = Some E' -> behind c E' /\ mids (progs E') = mids (progs E) /\ (exists r x, E' = r ++ [x] /\ Z.eqb 4 (e_prog x) = false).
Proof.
  intros B P (r & x & -> & X) H. unfold amend in H. rewrite rev_app_distr in H. cbn in H. rewrite rev_involutive in H. injection H as <-.
  assert (BR : behind c r). { intros pre e post ->. apply (B pre e (post ++ [x])). now rewrite <- app_assoc. }
  assert (SX : (e_step x <= c + mids (progs r))%Z).
  { pose proof (B r x [] eq_refl) as K. unfold progs in K. rewrite map_app, mids_app in K. cbn [map] in K. rewrite one_mids in K.
    unfold one in K. rewrite X in K. fold (progs r) in K. lia. }
  split; [|split; [|eauto]].
  - apply behind_snoc; [exact BR|]. cbn [e_step e_prog]. unfold one. rewrite P. lia.
  - unfold progs. rewrite !map_app, !mids_app. cbn [map]. rewrite !one_mids. unfold one. cbn [e_prog]. now rewrite P, X.
Qed.
Lemma run_behind c os : forall E free E', behind c E -> (free = true -> exists r x, E = r ++ [x] /\ Z.eqb 4 (e_prog x) = false) ->
  fits c (mids (progs E)) free os -> sop_run E os = Some E' -> behind c E'.
Proof.
  induction os as [|o os IH]; intros E free E' B FR F H; [injection H as <-; exact B|].
  cbn [sop_run] in H. destruct o as [e|mode p g|]; cbn [sop_step fits] in *.
  - destruct F as [F1 F2]. destruct (extend E e) as [E1|] eqn:X; [|discriminate].
    destruct (extend_behind c E e E1 B F1 X) as (B1 & M1 & r & x & HE & PX). rewrite <- M1 in F2.
    eapply IH; [exact B1| |exact F2|exact H]. intros K. exists r, x. split; [exact HE|]. rewrite PX. now destruct (Z.eqb 4 (e_prog e)).
  - destruct F as (F1 & F2 & F3). destruct (amend E mode p g) as [E1|] eqn:X; [|discriminate].
    destruct (amend_behind c E mode p g E1 B F2 (FR F1) X) as (B1 & M1 & L1). rewrite <- M1 in F3.
    eapply IH; [exact B1| |exact F3|exact H]. intros _. exact L1.
  - eapply IH; eauto.
Qed.

Section Steps.
  Variable gen : list ppoint.
  Variables N a : nat.
  Variable joined : ppoint -> ppoint -> bool.
  Variable gap : ppoint -> ppoint -> list (Q * (string -> Q)).
  Hypothesis HN : N <= length gen.

  Lemma fits_turn (l : list (Q * (string -> Q))) c mid s rest : (s <= c + mid)%Z -> fits c mid true rest ->
    fits c mid true (map (fun tf => SAdd (mkEntry (fst tf) 1 8 s (snd tf))) l ++ rest).
  Proof.
    intros L R. induction l as [|x l IH]; [exact R|]. cbn. split; [lia|]. rewrite Z.add_0_r. exact IH.
  Qed.
  Lemma fits_point i rest free : a <= i < N -> fits (Z.of_nat a) (Z.of_nat (S i) - Z.of_nat a) true rest ->
    fits (Z.of_nat a) (Z.of_nat i - Z.of_nat a) free (ideal_point gen N joined gap i ++ rest).
  Proof.
    intros I R. unfold ideal_point. destruct (nth_error gen i) as [p|] eqn:E.
    2:{ apply nth_error_None in E. lia. }
    assert (P : forall j r, fits (Z.of_nat a) (Z.of_nat (S i) - Z.of_nat a) true r ->
                fits (Z.of_nat a) (Z.of_nat i - Z.of_nat a) free (ideal_pair p i j ++ r)).
    { intros j r F. unfold ideal_pair. cbn [app fits e_step e_prog]. change (one 4) with 1%Z. split; [lia|].
      assert (O : one (if j then 1 else 2)%Z = 0%Z) by (destruct j; reflexivity). rewrite O.
      split; [lia|]. replace (negb (Z.eqb 4 (if j then 1 else 2)%Z)) with true by (destruct j; reflexivity).
      replace (Z.of_nat i - Z.of_nat a + 1 + 0)%Z with (Z.of_nat (S i) - Z.of_nat a)%Z by lia. exact F. }
    destruct (Nat.ltb_spec (S i) N) as [L|L]; [|apply P; exact R].
    destruct (nth_error gen (S i)) as [q|] eqn:E2; [|apply nth_error_None in E2; lia].
    rewrite <- app_assoc. apply P. destruct (joined p q); [exact R|]. unfold ideal_gap. rewrite <- app_assoc.
    apply fits_turn; [lia|]. cbn [app fits]. auto.
  Qed.
  Lemma fits_points k : forall i rest free, a <= i -> i + k <= N -> fits (Z.of_nat a) (Z.of_nat (i + k) - Z.of_nat a) true rest ->
    (k = 0 -> free = true) ->
    fits (Z.of_nat a) (Z.of_nat i - Z.of_nat a) free (flat_map (ideal_point gen N joined gap) (seq i k) ++ rest).
  Proof.
    induction k as [|k IH]; intros i rest free A B R F.
    - rewrite Nat.add_0_r in R. rewrite (F eq_refl). exact R.
    - cbn [seq flat_map]. rewrite <- app_assoc. apply fits_point; [lia|]. apply IH; try lia; auto.
      replace (S i + k) with (i + S k) by lia. exact R.
  Qed.
  Lemma upto_behind ru k E : a <= k <= N -> e_prog ru = 1%Z -> e_step ru = Z.of_nat a ->
    sop_run [] (ideal_upto gen N a joined gap ru k) = Some E -> behind (Z.of_nat a) E.
  Proof.
    intros K P S H. eapply (run_behind _ _ [] false E); [|discriminate| |exact H].
    - intros pre e post X. destruct pre; discriminate.
    - unfold ideal_upto. cbn [fits]. change (mids (progs [])) with 0%Z. rewrite P, S. change (one 1) with 0%Z. split; [lia|].
      cbn [Z.eqb Pos.eqb negb]. rewrite <- (app_nil_r (flat_map _ _)).
      replace (0 + 0)%Z with (Z.of_nat a - Z.of_nat a)%Z by lia. apply fits_points; cbn [fits]; auto; lia.
  Qed.
  Lemma ideal_behind ru tl E : a <= N -> e_prog ru = 1%Z -> e_step ru = Z.of_nat a -> e_prog tl = 8%Z -> e_step tl = Z.of_nat N ->
    sop_run [] (ideal gen N a joined gap ru tl) = Some E -> behind (Z.of_nat a) E.
  Proof.
    intros K P S PT ST H. eapply (run_behind _ _ [] false E); [|discriminate| |exact H].
    - intros pre e post X. destruct pre; discriminate.
    - unfold ideal, ideal_upto. cbn [fits app]. change (mids (progs [])) with 0%Z. rewrite P, S. change (one 1) with 0%Z. split; [lia|].
      cbn [Z.eqb Pos.eqb negb].
      replace (0 + 0)%Z with (Z.of_nat a - Z.of_nat a)%Z by lia. apply fits_points; auto; try lia.
      cbn [fits]. rewrite PT, ST. change (one 8) with 0%Z. split; [lia|exact I].
  Qed.
End Steps.
