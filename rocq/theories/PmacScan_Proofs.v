(* Proofs about generating the profile of a scan that triggers at every point. *)
From Coq Require Import String Ascii Bool ZArith QArith Qabs Qround Lia Lqa List.
From Verif Require Import Base Pmac_Model Pmac_Spec Pmac_Proofs.
Import ListNotations.
Local Open Scope list_scope.
Local Open Scope nat_scope.

Lemma at_axes_points axes f : at_axes axes f = points_at (the_mapping axes) f.
Proof. unfold at_axes, points_at, the_mapping. rewrite map_map. reflexivity. Qed.

Lemma extend_ne E e E' : extend E e = Some E' -> E' <> [].
Proof.
  unfold extend. destruct (Qle_bool _ _); intro H.
  - injection H as <-. destruct E; discriminate.
  - destruct (last_entry E) as [p|] eqn:EL; [|discriminate]. injection H as <-.
    destruct E; [discriminate|]. discriminate.
Qed.

Lemma extend_total E e : E <> [] -> exists E', extend E e = Some E'.
Proof.
  intro H. unfold extend. destruct (Qle_bool _ _); [eauto|].
  destruct (last_entry E) as [p|] eqn:EL; [eauto|].
  unfold last_entry in EL. apply last_of_nil_iff in EL. contradiction.
Qed.

Lemma sop_run_app os1 os2 : forall E,
  sop_run E (os1 ++ os2) = match sop_run E os1 with None => None | Some E1 => sop_run E1 os2 end.
Proof.
  induction os1 as [|o os1 IH]; intro E; cbn; [reflexivity|].
  destruct (sop_step E o); [apply IH|reflexivity].
Qed.

Lemma entries_of_app a b : entries_of (a ++ b) = entries_of a + entries_of b.
Proof. unfold entries_of. induction a as [|x a IH]; cbn; [reflexivity|]. rewrite IH. lia. Qed.

Lemma sop_run_length os : forall E E', sop_run E os = Some E' ->
  length E' = length E + entries_of os.
Proof.
  induction os as [|o os IH]; intros E E' H; cbn in H.
  - injection H as <-. cbn. lia.
  - destruct (sop_step E o) as [E1|] eqn:E1E; [|discriminate].
    rewrite (IH _ _ H). destruct o as [e|mode prog f|]; cbn in E1E; cbn [entries_of fold_right].
    + change (fold_right _ 0 os) with (entries_of os). unfold extend in E1E.
      destruct (Qle_bool (e_time e) 4).
      * injection E1E as <-. rewrite app_length. cbn. lia.
      * destruct (last_entry E) as [p|]; [|discriminate]. injection E1E as <-.
        rewrite app_length. pose proof (cut_map_time p e) as HC.
        apply (f_equal (@length Q)) in HC. rewrite map_length, repeat_length in HC. lia.
    + change (fold_right _ 0 os) with (entries_of os).
      apply amend_shape in E1E as [HT _]. apply (f_equal (@length Q)) in HT.
      rewrite !map_length in HT. lia.
    + injection E1E as <-. reflexivity.
Qed.

Section Scan.
  Variable axes : list (string * (string * motor)).
  Variable gen : list ppoint.
  Variable N : nat.
  Variable joined same : ppoint -> ppoint -> bool.
  Variable gap : ppoint -> ppoint -> list (Q * (string -> Q)).
  Variable interval : Q.
  Variables PP BATCH : nat.
  Hypothesis ND1 : NoDup (map fst axes).
  Hypothesis ND2 : NoDup (map (fun a => fst (snd a)) axes).
  Hypothesis HN : N <= length gen.
  Hypothesis HB : 0 < BATCH.

  Let m := the_mapping axes.
  Let trig := EVERY_POINT.

  Lemma NDm1 : NoDup (map fst m).
  Proof. unfold m, the_mapping. rewrite map_map. exact ND1. Qed.
  Lemma NDm2 : NoDup (map snd m).
  Proof. unfold m, the_mapping. rewrite map_map. exact ND2. Qed.

  (* st holds E and went on to st' holding E' by requests os, only adding *)
  Definition kept (st st' : prof) : Prop :=
    pf_tail st' = pf_tail st /\ pf_sent st' = pf_sent st.
  Definition went (st : prof) (E : list entry) (os : list sop) (st' : prof) : Prop :=
    exists E', sop_run E os = Some E' /\ holds PP m st' E' /\ pf_time st' <> [] /\ kept st st'.

  Lemma holds_ne st E : holds PP m st E -> pf_time st <> [] -> E <> [].
  Proof.
    intros (ch & cur & -> & _ & _ & Ht & _) Hne HE.
    apply app_eq_nil in HE as [_ ->]. cbn in Ht. contradiction.
  Qed.

  Lemma went_trans st E os1 st1 E1 os2 st2 :
    sop_run E os1 = Some E1 -> kept st st1 -> went st1 E1 os2 st2 -> went st E (os1 ++ os2) st2.
  Proof.
    intros H1 [K1 K2] (E2 & H4 & H5 & H6 & K3 & K4).
    exists E2. rewrite sop_run_app, H1. repeat split; auto; congruence.
  Qed.

  Lemma add_went st E t mode p step f :
    holds PP m st E -> pf_time st <> [] ->
    exists st', add axes trig st t mode p step (at_axes axes f) = Ok st' /\
      went st E [SAdd (mkEntry t mode (user_program trig p) (Z.of_nat step) f)] st' /\
      pf_since st' = pf_since st /\ pf_end st' = pf_end st.
  Proof.
    intros HH Hne. pose proof (holds_ne _ _ HH Hne) as HE.
    set (e := mkEntry t mode (user_program trig p) (Z.of_nat step) f).
    destruct (extend_total E e HE) as (E' & HX).
    pose proof (add_sim PP m NDm1 NDm2 st E e HH) as HS. rewrite HX in HS.
    destruct HS as (st' & HA & HH' & (S1 & S2 & S3 & S4) & Hne'); [intro; contradiction|].
    exists st'. unfold add. rewrite at_axes_points. split; [exact HA|]. split; [|auto].
    exists E'. cbn. fold e. rewrite HX. repeat split; auto.
  Qed.

  Lemma pair_went st E p i j :
    holds PP m st E -> pf_time st <> [] ->
    exists st', add_generator_point_pair axes trig st p i j = Ok st' /\
      went st E (ideal_pair p i j) st' /\ pf_end st' = pf_end st.
  Proof.
    intros HH Hne. unfold add_generator_point_pair.
    destruct (add_went st E (pt_dur p / 2)%Q AVERAGE_PREV_TO_NEXT MID_POINT i (pt_pos p) HH Hne)
      as (st1 & -> & W1 & _ & En1).
    pose proof W1 as (E1 & R1 & HH1 & Hne1 & K1).
    destruct (add_went st1 E1 (pt_dur p / 2)%Q
                (if j then AVERAGE_PREV_TO_NEXT else REAL_PREV_TO_CURRENT)
                (if j then POINT_JOIN else END_OF_ROW) (S i) (pt_up p) HH1 Hne1)
      as (st2 & -> & W2 & _ & En2).
    exists st2. split; [reflexivity|]. split; [|congruence].
    change (ideal_pair p i j) with
      ([SAdd (mkEntry (pt_dur p / 2) 0 4 (Z.of_nat i) (pt_pos p))] ++
       [SAdd (mkEntry (pt_dur p / 2) (if j then 0 else 1)%Z (if j then 1 else 2)%Z
                      (Z.of_nat (S i)) (pt_up p))]).
    eapply went_trans; [exact R1|exact K1|]. destruct j; exact W2.
  Qed.

  Lemma turn_went g : forall st E n,
    holds PP m st E -> pf_time st <> [] ->
    exists st', add_turnaround axes trig st g n = Ok st' /\
      went st E (map (fun tf => SAdd (mkEntry (fst tf) 1 8 (Z.of_nat n) (snd tf))) g) st' /\
      pf_end st' = pf_end st.
  Proof.
    induction g as [|[t f] g IH]; intros st E n HH Hne; cbn [add_turnaround map].
    - exists st. split; [reflexivity|]. split; [|reflexivity]. exists E. repeat split; auto.
    - destruct (add_went st E t REAL_PREV_TO_CURRENT TURNAROUND n f HH Hne)
        as (st1 & -> & W1 & _ & En1).
      pose proof W1 as (E1 & R1 & HH1 & Hne1 & K1).
      destruct (IH st1 E1 n HH1 Hne1) as (st2 & -> & W2 & En2).
      exists st2. split; [reflexivity|]. split; [|congruence].
      change (SAdd (mkEntry (fst (t, f)) 1 8 (Z.of_nat n) (snd (t, f))) :: ?l) with
        ([SAdd (mkEntry t 1 8 (Z.of_nat n) f)] ++ l).
      eapply went_trans; [exact R1|exact K1|]. exact W2.
  Qed.

  Lemma gap_went st E p q i :
    holds PP m st E -> pf_time st <> [] ->
    exists st', insert_gap axes gap trig st p q (S i) = Ok st' /\
      went st E (ideal_gap gap p q i) st' /\ pf_end st' = pf_end st.
  Proof.
    intros HH Hne. unfold insert_gap, ideal_gap.
    destruct (turn_went (gap p q) st E (S i) HH Hne) as (st1 & -> & W1 & En1).
    pose proof W1 as (E1 & R1 & HH1 & Hne1 & K1).
    destruct (fix_sim PP m NDm1 NDm2 st1 E1 REAL_PREV_TO_CURRENT
                (user_program trig START_OF_ROW) (pt_low q) HH1 Hne1)
      as (st2 & E2 & HA & HF & HH2 & (S1 & S2 & S3 & S4) & Hne2).
    rewrite at_axes_points. fold m. rewrite HF.
    exists st2. split; [reflexivity|]. split; [|congruence].
    eapply went_trans; [exact R1|exact K1|].
    assert (HA' : amend E1 1 1 (pt_low q) = Some E2) by exact HA.
    exists E2. cbn [sop_run sop_step]. rewrite HA'. repeat split; auto.
  Qed.

  Notation pt i := (ideal_point gen N joined gap i).
  Notation pts a b := (flat_map (ideal_point gen N joined gap) (seq a b)).

  Lemma holds_set_end st E n : holds PP m st E -> holds PP m (set_end st n) E.
  Proof. exact (fun H => H). Qed.
  Lemma holds_set_since st E q : holds PP m st E -> holds PP m (set_since st q) E.
  Proof. exact (fun H => H). Qed.
  Lemma holds_set_tail st E : holds PP m st E -> holds PP m (set_tail st) E.
  Proof. exact (fun H => H). Qed.

  Lemma went_set_end st E os st' n : went st E os st' -> went st E os (set_end st' n).
  Proof. exact (fun H => H). Qed.

  (* a slice of the generator *)
  Definition slice (points : list ppoint) (pi : nat) : Prop :=
    forall j p, nth_error points j = Some p -> nth_error gen (pi + j) = Some p.

  Lemma point_went st E p q pi :
    nth_error gen pi = Some p -> nth_error gen (S pi) = Some q -> S pi < N ->
    holds PP m st E -> pf_time st <> [] ->
    exists st', match add_generator_point_pair axes trig st p pi (joined p q) with
                | Err e => Err e
                | Ok st1 => if joined p q then Ok st1
                            else insert_gap axes gap trig st1 p q (S pi)
                end = Ok st' /\ went st E (pt pi) st' /\ pf_end st' = pf_end st.
  Proof.
    intros Hp Hq Hlt HH Hne.
    destruct (pair_went st E p pi (joined p q) HH Hne) as (st1 & -> & W1 & En1).
    assert (Hid : pt pi = ideal_pair p pi (joined p q) ++
                          (if joined p q then [] else ideal_gap gap p q pi)).
    { unfold ideal_point. rewrite Hp. apply Nat.ltb_lt in Hlt. rewrite Hlt, Hq. reflexivity. }
    rewrite Hid. pose proof W1 as (E1 & R1 & HH1 & Hne1 & K1).
    destruct (joined p q).
    - exists st1. rewrite app_nil_r. auto.
    - destruct (gap_went st1 E1 p q pi HH1 Hne1) as (st2 & HG & W2 & En2).
      exists st2. split; [exact HG|]. split; [|congruence].
      eapply went_trans; [exact R1|exact K1|]. exact W2.
  Qed.

  Lemma pts_S a b : pts a (S b) = pt a ++ pts (S a) b.
  Proof. reflexivity. Qed.
  Lemma pts_snoc a b : pts a (b + 1) = pts a b ++ pt (a + b).
  Proof. rewrite seq_app, flat_map_app. cbn. rewrite app_nil_r. reflexivity. Qed.
  Lemma pts_app a b c : pts a (b + c) = pts a b ++ pts (a + b) c.
  Proof. rewrite seq_app, flat_map_app. reflexivity. Qed.

  (* result of a loop over some points from pi on: the first k points were added; if it
     returned early the profile is longer than PP and end is the next point, and it was not
     longer before the last one *)
  Definition early_at (st : prof) (pi k : nat) (st' : prof) : Prop :=
    0 < k /\ pi + k <= N /\ pf_end st' = pi + k /\ PP < length (pf_time st').

  Lemma holds_length st E : holds PP m st E ->
    length E = length (pf_time st) +
      fold_right (fun b s => length (b_ticks b) + s) 0 (pf_sent st) /\
    length (pf_lookup st) = length E.
  Proof.
    intro HH.
    assert (HE : length (pf_lookup st) = length E).
    { destruct HH as (ch & cur & -> & _ & _ & _ & _ & _ & _ & Hl). rewrite Hl. apply map_length. }
    split; [|exact HE]. apply holds_aligned in HH as (_ & _ & L1). congruence.
  Qed.

  Lemma length_went st E os st' :
    holds PP m st E -> went st E os st' ->
    length (pf_time st') = length (pf_time st) + entries_of os.
  Proof.
    intros HH (E' & HR & HH' & _ & _ & Hs).
    apply holds_length in HH as [L1 _]. apply holds_length in HH' as [L2 _].
    rewrite Hs in L2. apply sop_run_length in HR. lia.
  Qed.

  (* the most entries any point takes *)
  Definition all_points_at_most (M : nat) : Prop := forall i, entries_of (pt i) <= M.

  Lemma every_loop_went M : all_points_at_most M -> forall points pi st E,
    slice points pi -> pi + length points <= N -> points <> [] ->
    holds PP m st E -> pf_time st <> [] ->
    exists st' pi' b, every_loop axes joined gap trig PP points pi st = Ok (st', pi', b) /\
      (if b then exists k, went st E (pts pi k) st' /\ early_at st pi k st' /\
                           pi + k < pi + length points /\
                           length (pf_time st') <= Nat.max PP (length (pf_time st)) + M
       else pi' = pi + length points - 1 /\ went st E (pts pi (length points - 1)) st' /\
            pf_end st' = pf_end st /\
            length (pf_time st') <= Nat.max PP (length (pf_time st))).
  Proof.
    intro HM. induction points as [|p rest IH]; intros pi st E Hsl Hlen Hnn HH Hne; [congruence|].
    destruct rest as [|q rest].
    - cbn. exists st, pi, false. split; [reflexivity|].
      replace (pi + 1 - 1) with pi by lia. split; [reflexivity|].
      split; [|split; [reflexivity|lia]]. exists E. cbn. repeat split; auto.
    - assert (Hp : nth_error gen pi = Some p).
      { replace pi with (pi + 0) by lia. apply (Hsl 0). reflexivity. }
      assert (Hq : nth_error gen (S pi) = Some q).
      { replace (S pi) with (pi + 1) by lia. apply (Hsl 1). reflexivity. }
      cbn [length] in Hlen.
      destruct (point_went st E p q pi Hp Hq ltac:(lia) HH Hne) as (st2 & HX & W & En).
      cbn [every_loop].
      assert (HL : length (pf_time st2) = length (pf_time st) + entries_of (pt pi)).
      { apply length_went with (E := E); auto. }
      pose proof (HM pi) as HMi.
      destruct (add_generator_point_pair axes trig st p pi (joined p q)) as [s1|]; [|discriminate].
      rewrite HX. unfold exceeds. destruct (Nat.ltb PP (length (pf_time st2))) eqn:EX.
      + apply Nat.ltb_lt in EX.
        exists (set_end st2 (S pi)), pi, true. split; [reflexivity|].
        exists 1. split; [cbn [seq flat_map]; rewrite app_nil_r; exact W|].
        split; [|split; [cbn; lia|cbn; lia]].
        unfold early_at. cbn. repeat split; lia.
      + apply Nat.ltb_ge in EX.
        pose proof W as (E2 & R2 & HH2 & Hne2 & K2).
        destruct (IH (S pi) st2 E2) as (st' & pi' & b & HR & HC); auto.
        { intros j x Hj. replace (S pi + j) with (pi + S j) by lia. apply Hsl. exact Hj. }
        { cbn [length]. lia. }
        { discriminate. }
        exists st', pi', b. split; [exact HR|]. destruct b.
        * destruct HC as (k & W' & (A1 & A2 & A3 & A4) & A5 & A6).
          exists (S k). cbn [length] in *. split.
          { rewrite pts_S. eapply went_trans; [exact R2|exact K2|]. exact W'. }
          split; [unfold early_at; repeat split; lia|]. split; [lia|]. lia.
        * destruct HC as (A1 & W' & A3 & A4). cbn [length] in *.
          split; [lia|]. split.
          { replace (S (S (length rest)) - 1) with (S (S (length rest) - 1)) by lia.
            rewrite pts_S. eapply went_trans; [exact R2|exact K2|]. exact W'. }
          split; [congruence|lia].
  Qed.

  Lemma firstn_nth {A} (l : list A) n i : i < n -> nth_error (firstn n l) i = nth_error l i.
  Proof.
    revert n i. induction l; intros n i H; [destruct n, i; reflexivity|].
    destruct n; [lia|]. destruct i; [reflexivity|]. cbn. apply IHl. lia.
  Qed.

  Lemma skipn_nth {A} (l : list A) n i : nth_error (skipn n l) i = nth_error l (n + i).
  Proof.
    revert l. induction n; intro l; [reflexivity|]. destruct l; [destruct i; reflexivity|].
    cbn. apply IHn.
  Qed.

  Lemma slice_of start n : slice (firstn n (skipn start gen)) start.
  Proof.
    intros j p H.
    destruct (Nat.lt_ge_cases j n) as [Hj|Hj].
    - rewrite firstn_nth, skipn_nth in H by exact Hj. exact H.
    - exfalso. assert (nth_error (firstn n (skipn start gen)) j = None).
      { apply nth_error_None. rewrite firstn_length. lia. }
      congruence.
  Qed.

  Lemma last_of_nth {A} (l : list A) : last_of l = nth_error l (length l - 1).
  Proof.
    destruct l as [|a l]; [reflexivity|].
    destruct (exists_last (l := a :: l)) as (r & x & E); [discriminate|].
    rewrite E, last_of_snoc, app_length, nth_error_app2; cbn; [|lia].
    replace (length r + 1 - 1 - length r) with 0 by lia. reflexivity.
  Qed.

  Lemma every_batches_went M : all_points_at_most M -> forall fuel pi st E,
    N - pi < fuel -> pi <= N ->
    holds PP m st E -> pf_time st <> [] ->
    exists st' b, every_batches axes gen N joined gap trig PP BATCH fuel pi pi st = Ok (st', b) /\
      (if b then went st E (pts pi (N - pi)) st' /\ pf_end st' = pf_end st /\
                 length (pf_time st') <= Nat.max PP (length (pf_time st))
       else exists k, went st E (pts pi k) st' /\ early_at st pi k st' /\
                      length (pf_time st') <= Nat.max PP (length (pf_time st)) + M).
  Proof.
    intro HM. induction fuel as [|fuel IH]; intros pi st E Hf Hle HH Hne; [lia|].
    cbn [every_batches]. unfold get_some_points.
    destruct (Nat.eqb_spec pi N) as [->|HpN].
    - exists st, true. split; [reflexivity|]. rewrite Nat.sub_diag. cbn.
      split; [|split; [reflexivity|lia]].
      exists E. repeat split; auto.
    - set (up_to := if Nat.ltb BATCH (N - pi) then BATCH + pi + 1 else N).
      assert (Hup : pi < up_to <= N).
      { unfold up_to. destruct (Nat.ltb_spec BATCH (N - pi)); lia. }
      set (points := firstn (up_to - pi) (skipn pi gen)).
      assert (Hlp : length points = up_to - pi).
      { unfold points. rewrite firstn_length, skipn_length. lia. }
      assert (Hpn : points <> []) by (intro C; rewrite C in Hlp; cbn in Hlp; lia).
      destruct (every_loop_went M HM points pi st E) as (st1 & pi1 & b & HL & HC); auto.
      { apply slice_of. }
      { lia. }
      rewrite HL. destruct b.
      + destruct HC as (k & W & A & _ & A6).
        exists st1, false. split; [reflexivity|]. exists k. auto.
      + destruct HC as (Hpi1 & W1 & En1 & L1).
        pose proof W1 as (E1 & R1 & HH1 & Hne1 & K1).
        destruct (Nat.eqb_spec (pi + length points) N) as [HlN|HlN].
        * rewrite last_of_nth.
          destruct (nth_error points (length points - 1)) as [p|] eqn:Ep.
          2:{ apply nth_error_None in Ep. lia. }
          assert (Hp : nth_error gen pi1 = Some p).
          { rewrite Hpi1. replace (pi + length points - 1) with (pi + (length points - 1)) by lia.
            apply (slice_of pi (up_to - pi)). exact Ep. }
          destruct (pair_went st1 E1 p pi1 false HH1 Hne1) as (st2 & -> & W2 & En2).
          assert (Hid : pt pi1 = ideal_pair p pi1 false).
          { unfold ideal_point. rewrite Hp. destruct (Nat.ltb_spec (S pi1) N); [lia|reflexivity]. }
          rewrite <- Hid in W2.
          assert (HL2 : length (pf_time st2) = length (pf_time st1) + entries_of (pt pi1)).
          { apply length_went with (E := E1); auto. }
          pose proof (HM pi1) as HMi.
          assert (W12 : went st E (pts pi (N - pi)) st2).
          { replace (N - pi) with (length points - 1 + 1) by lia.
            rewrite pts_snoc. eapply went_trans; [exact R1|exact K1|].
            replace (pi + (length points - 1)) with pi1 by lia. exact W2. }
          unfold exceeds. destruct (Nat.ltb PP (length (pf_time st2))) eqn:EX.
          -- apply Nat.ltb_lt in EX. exists (set_end st2 (S pi1)), false. split; [reflexivity|].
             exists (N - pi). split; [exact W12|]. split; [|cbn; lia].
             unfold early_at. cbn. repeat split; lia.
          -- apply Nat.ltb_ge in EX.
             destruct (Nat.eqb_spec (S pi1) N) as [_|Hx]; [|exfalso; lia].
             exists st2, true. split; [reflexivity|]. split; [exact W12|].
             split; [congruence|lia].
        * destruct (Nat.eqb_spec pi1 N) as [Hx|_]; [exfalso; lia|].
          assert (Hbig : BATCH < N - pi /\ length points = BATCH + 1).
          { unfold up_to in *. destruct (Nat.ltb_spec BATCH (N - pi)); lia. }
          destruct (IH pi1 st1 E1) as (st' & b & HR & HC'); auto; [lia|lia|].
          exists st', b. split; [exact HR|]. destruct b.
          -- destruct HC' as (W' & En' & L'). split; [|split; [congruence|lia]].
             replace (N - pi) with ((length points - 1) + (N - pi1)) by lia.
             rewrite pts_app. eapply went_trans; [exact R1|exact K1|].
             replace (pi + (length points - 1)) with pi1 by lia. exact W'.
          -- destruct HC' as (k & W' & (A1 & A2 & A3 & A4) & L').
             exists (length points - 1 + k). split; [|split; [unfold early_at; repeat split; lia|lia]].
             rewrite pts_app. eapply went_trans; [exact R1|exact K1|].
             replace (pi + (length points - 1)) with pi1 by lia. exact W'.
  Qed.

  (* ---------------- run up and tail off ---------------- *)
  Lemma qabs_Qabs x : (qabs x == Qabs x)%Q.
  Proof.
    unfold qabs. destruct (Qle_bool 0 x) eqn:E.
    - apply Qle_bool_iff in E. rewrite Qabs_pos by exact E. reflexivity.
    - assert (x < 0)%Q by (apply Qnot_le_lt; intro C; apply Qle_bool_iff in C; congruence).
      rewrite Qabs_neg by lra. reflexivity.
  Qed.

  Lemma Qle_bool_false x y : Qle_bool x y = false -> (y < x)%Q.
  Proof. intro H. apply Qnot_le_lt. intro C. apply Qle_bool_iff in C. congruence. Qed.

  Lemma qmax_spec x y : (x <= qmax x y /\ y <= qmax x y)%Q /\ (qmax x y = x \/ qmax x y = y).
  Proof.
    unfold qmax. destruct (Qle_bool x y) eqn:E.
    - apply Qle_bool_iff in E. split; [split; [exact E|apply Qle_refl]|auto].
    - apply Qle_bool_false in E. split; [split; [apply Qle_refl|lra]|auto].
  Qed.

  Lemma longest_max t0 x xs t : longest (qmax t0 x :: xs) t -> longest (t0 :: x :: xs) t.
  Proof.
    intros [H1 H2]. destruct (qmax_spec t0 x) as [[A B] C]. split.
    - inversion H1 as [? ? He|? ? He]; subst.
      + destruct C as [C|C]; rewrite C in He; auto.
      + auto.
    - inversion H2 as [|? ? Ha Hb]; subst.
      constructor; [eapply Qle_trans; eauto|]. constructor; [eapply Qle_trans; eauto|exact Hb].
  Qed.

  Lemma longest_one t : longest [t] t.
  Proof. split; [left; reflexivity|]. constructor; [apply Qle_refl|constructor]. Qed.

  Lemma longest_eq xs ys t : Forall2 Qeq xs ys -> longest xs t -> longest ys t.
  Proof.
    intros HF [H1 H2]. split.
    - induction HF; [inversion H1|]. inversion H1 as [? ? He|? ? He]; subst.
      + left. rewrite He. exact H.
      + right. inversion H2; subst. apply IHHF; auto.
    - clear H1. induction HF; constructor; inversion H2; subst; auto.
      rewrite <- H. assumption.
  Qed.

  Lemma run_up_time_longest l p : forall t0 t, run_up_time l p t0 = Ok t ->
    longest (t0 :: map (fun a => Qabs (entry_velocity (fst a) p) / mi_acc (snd (snd a)))%Q l) t.
  Proof.
    induction l as [|a l IH]; intros t0 t H; cbn [run_up_time] in H.
    - injection H as <-. apply longest_one.
    - destruct (point_velocity a p true) as [v|] eqn:Ev; [|discriminate].
      unfold point_velocity in Ev. destruct (Qle_bool _ _); [discriminate|].
      injection Ev as Ev. apply IH, longest_max in H.
      revert H. apply longest_eq. constructor; [reflexivity|]. constructor.
      + unfold accel_time. rewrite qabs_Qabs. subst v. reflexivity.
      + clear. induction l; constructor; auto. reflexivity.
  Qed.

  Lemma Qle_bool_too_fast mo v :
    Qle_bool (1 # 1000000) ((qabs v - mi_max mo) / mi_max mo) = true <-> too_fast mo v.
  Proof. rewrite Qle_bool_iff. unfold too_fast. rewrite qabs_Qabs. reflexivity. Qed.

  Lemma run_up_time_total l p : forall t0,
    (forall a, In a l -> ~ too_fast (snd (snd a)) (entry_velocity (fst a) p)) ->
    exists t, run_up_time l p t0 = Ok t.
  Proof.
    induction l as [|a l IH]; intros t0 H; cbn [run_up_time]; [eauto|].
    unfold point_velocity.
    match goal with |- context [if ?b then _ else _] => destruct b eqn:E end.
    - exfalso. apply Qle_bool_too_fast in E. apply (H a); [left; reflexivity|exact E].
    - apply IH. intros b Hb. apply H. right. exact Hb.
  Qed.

  Definition tail_pos (p : ppoint) (a : string * (string * motor)) : Q :=
    (pt_up p (fst a) + ramp_to_zero (snd (snd a)) (exit_velocity (fst a) p))%Q.

  Lemma tail_off_spec l p : forall t0 t pts, tail_off l p t0 = Ok (t, pts) ->
    pts = map (fun a => (fst a, tail_pos p a)) l /\
    (forall a, In a l -> within_limits (snd (snd a)) (tail_pos p a) = true) /\
    longest (t0 :: map (fun a => Qabs (exit_velocity (fst a) p) / mi_acc (snd (snd a)))%Q l) t.
  Proof.
    induction l as [|a l IH]; intros t0 t pts H; cbn [tail_off] in H.
    - injection H as <- <-. split; [reflexivity|]. split; [intros a []|apply longest_one].
    - destruct (point_velocity a p false) as [v|] eqn:Ev; [|discriminate].
      unfold point_velocity in Ev. destruct (Qle_bool _ _); [discriminate|].
      injection Ev as Ev. cbv zeta in H.
      destruct (within_limits _ _) eqn:Ew; [|discriminate].
      destruct (tail_off l p _) as [[t' pts']|] eqn:Et; [|discriminate].
      injection H as <- <-. apply IH in Et as (A & B & C). subst v.
      split; [cbn [map]; rewrite A; reflexivity|]. split.
      + intros b [<-|Hb]; [exact Ew|apply B; exact Hb].
      + apply longest_max in C. revert C. apply longest_eq.
        constructor; [reflexivity|]. constructor.
        * unfold accel_time. rewrite qabs_Qabs. reflexivity.
        * clear. induction l; constructor; auto. reflexivity.
  Qed.

  Lemma within_limits_iff mo x : within_limits mo x = true <-> in_soft_limits mo x.
  Proof.
    unfold within_limits, in_soft_limits. destruct (mi_soft mo).
    - rewrite andb_true_iff, !Qle_bool_iff. split; [intros [] _; split; assumption|].
      intro H. destruct (H eq_refl). auto.
    - split; [discriminate|reflexivity].
  Qed.

  Lemma tail_off_total l p : forall t0,
    (forall a, In a l -> ~ too_fast (snd (snd a)) (exit_velocity (fst a) p) /\
       in_soft_limits (snd (snd a)) (tail_pos p a)) ->
    exists t pts, tail_off l p t0 = Ok (t, pts).
  Proof.
    induction l as [|a l IH]; intros t0 H; cbn [tail_off]; [eauto|].
    unfold point_velocity. destruct (H a (or_introl eq_refl)) as [H1 H2].
    match goal with |- context [if ?b then Err _ else Ok _] => destruct b eqn:E end.
    - exfalso. apply Qle_bool_too_fast in E. contradiction.
    - cbv zeta. apply within_limits_iff in H2.
      assert (Hw : forall x, x = tail_pos p a -> within_limits (snd (snd a)) x = true)
        by (intros x ->; exact H2).
      rewrite Hw by reflexivity.
      edestruct IH as (t & pts & ->); [|eauto].
      intros b Hb. apply H. right. exact Hb.
  Qed.

  Definition tail_fun (p : ppoint) : string -> Q :=
    fun n => match dget n axes with
             | Some cm => tail_pos p (n, cm)
             | None => pt_up p n
             end.

  Lemma tail_points p :
    map (fun a => (fst a, tail_pos p a)) axes = at_axes axes (tail_fun p).
  Proof.
    unfold at_axes. apply map_ext_in. intros [n cm] Hin. cbn [fst]. f_equal.
    unfold tail_fun. rewrite (dget_In_nodup n cm axes); auto.
  Qed.

  Lemma add_tail_went st E : 0 < N ->
    holds PP m st E -> pf_time st <> [] ->
    exists p, nth_error gen (N - 1) = Some p /\
    match tail_off axes p interval with
    | Err e => add_tail_off axes gen N trig interval st = Err e
    | Ok _ => exists st' tl,
        add_tail_off axes gen N trig interval st = Ok st' /\
        tail_off_of axes interval p N tl /\
        (exists E', sop_run E [SAdd tl] = Some E' /\ holds PP m st' E' /\ pf_sent st' = pf_sent st) /\
        pf_tail st' = true /\ pf_end st' = N /\ pf_time st' <> [] /\
        length (pf_time st') = length (pf_time st) + entries_of [SAdd tl]
    end.
  Proof.
    intros HN0 HH Hne. unfold add_tail_off.
    destruct (nth_error gen (N - 1)) as [p|] eqn:Ep.
    2:{ apply nth_error_None in Ep. lia. }
    exists p. split; [reflexivity|].
    destruct (tail_off axes p interval) as [[t pts]|e] eqn:Et; [|reflexivity].
    apply tail_off_spec in Et as (A & B & C). rewrite tail_points in A. subst pts.
    destruct (add_went st E t ZERO_VELOCITY TURNAROUND N (tail_fun p) HH Hne)
      as (st1 & -> & W & _ & _).
    set (tl := mkEntry t ZERO_VELOCITY (user_program trig TURNAROUND) (Z.of_nat N) (tail_fun p)) in *.
    exists (set_tail (set_end st1 N)), tl. split; [reflexivity|].
    pose proof W as (E' & R & HH' & Hne' & K1 & K2).
    split; [|split; [exists E'; repeat split; auto|
      split; [reflexivity|split; [reflexivity|split; [exact Hne'|]]]]].
    - split; [reflexivity|]. split; [reflexivity|]. split; [reflexivity|]. split; [|exact C].
      + intros n c mo Hin. cbv zeta. cbn [tl e_pos]. unfold tail_fun.
        rewrite (dget_In_nodup n (c, mo) axes) by auto. split.
        * unfold tail_pos, ramp_to_zero, accel_time. cbn [fst snd]. rewrite qabs_Qabs. reflexivity.
        * apply within_limits_iff. apply (B (n, (c, mo))). exact Hin.
    - cbn [set_tail set_end pf_time]. apply length_went with (E := E); auto.
  Qed.

  (* ---------------- one call of calculate_generator_profile ---------------- *)
  Variable start : nat.
  Hypothesis Hstart : start < N.

  Notation upto ru k := (ideal_upto gen N start joined gap ru k).
  Notation full ru tl := (ideal gen N start joined gap ru tl).

  Lemma upto_add ru k j : start <= k -> upto ru (k + j) = upto ru k ++ pts k j.
  Proof.
    intro H. unfold ideal_upto. replace (k + j - start) with ((k - start) + j) by lia.
    rewrite pts_app. replace (start + (k - start)) with k by lia. reflexivity.
  Qed.

  Definition last_pt (p : ppoint) : Prop := nth_error gen (N - 1) = Some p.

  (* in progress up to point k / complete *)
  Definition doing (ru : entry) (k : nat) (st : prof) : Prop :=
    exists E, holds PP m st E /\ sop_run [] (upto ru k) = Some E /\ pf_tail st = false /\
              pf_time st <> [].
  Definition complete (ru : entry) (st : prof) (tl : entry) : Prop :=
    exists E p, holds PP m st E /\ last_pt p /\ tail_off_of axes interval p N tl /\
      sop_run [] (full ru tl) = Some E /\ pf_tail st = true /\ pf_end st = N.

  Notation calc st k := (calculate_generator_profile axes gen N joined same gap trig interval PP BATCH st k false).

  Lemma calc_doing M ru st k : all_points_at_most M -> start <= k <= N -> doing ru k st ->
    (exists st', calc st k = Ok st' /\
       ((doing ru (pf_end st') st' /\ k < pf_end st' <= N /\
         PP < length (pf_time st') <= Nat.max PP (length (pf_time st)) + M) \/
        (exists tl, complete ru st' tl /\
         length (pf_time st') <= Nat.max PP (length (pf_time st)) + entries_of [SAdd tl] /\
         (k = N -> length (pf_time st') = length (pf_time st) + entries_of [SAdd tl])))) \/
    (exists e p, last_pt p /\ tail_off axes p interval = Err e /\ calc st k = Err e).
  Proof.
    intros HM Hk (E & HH & HR & Htl & Hne).
    unfold calculate_generator_profile, calculate_more. cbn [is_every trig].
    destruct (every_batches_went M HM (S (N - k)) k (set_since st 0) E) as (st1 & b & HX & HC);
      [lia|lia|exact HH|exact Hne|].
    fold trig. rewrite HX. destruct b; cbn [andb].
    - destruct HC as (W & En & L). pose proof W as (E1 & R1 & HH1 & Hne1 & K1 & K2).
      cbn in K1, K2, L. rewrite K1, Htl. cbn [negb].
      destruct (add_tail_went st1 E1 ltac:(lia) HH1 Hne1) as (p & Hp & HT).
      destruct (tail_off axes p interval) as [tt|e] eqn:Et.
      + destruct HT as (st2 & tl & HA & HTo & (E2 & R2 & HH2 & K3) & T1 & T2 & T3 & T4).
        left. exists st2. split; [exact HA|]. right. exists tl. split.
        * exists E2, p. repeat (split; [assumption|]). split; [|auto].
          unfold ideal. rewrite sop_run_app. replace N with (k + (N - k)) at 2 by lia.
          rewrite upto_add, sop_run_app, HR, R1 by lia. exact R2.
        * split; [lia|]. intro Hkn.
          assert (length (pf_time st1) = length (pf_time (set_since st 0)) + entries_of (pts k (N - k)))
            as HLL by (apply length_went with (E := E); auto).
          replace (N - k) with 0 in HLL by lia. cbn in HLL. lia.
      + right. exists e, p. auto.
    - destruct HC as (j & W & (A1 & A2 & A3 & A4) & L).
      pose proof W as (E1 & R1 & HH1 & Hne1 & K1 & K2). cbn in K1, K2, L.
      left. exists st1. split; [reflexivity|]. left. split; [|lia].
      exists E1. rewrite A3. split; [exact HH1|]. split; [|split; [congruence|exact Hne1]].
      rewrite upto_add, sop_run_app, HR by lia. exact R1.
  Qed.

  Lemma calc_complete ru st tl : complete ru st tl -> exists st', calc st N = Ok st' /\
    complete ru st' tl /\ pf_time st' = pf_time st /\ pf_sent st' = pf_sent st.
  Proof.
    intros (E & p & HH & Hp & HT & HR & Ht & He).
    unfold calculate_generator_profile, calculate_more. cbn [is_every trig].
    rewrite Nat.sub_diag. cbn [every_batches]. unfold get_some_points. rewrite Nat.eqb_refl.
    cbn [andb set_since pf_tail]. rewrite Ht. cbn [negb].
    exists (set_since st 0). split; [reflexivity|]. split; [|auto].
    exists E, p. repeat (split; [assumption|]). auto.
  Qed.

  Lemma write_length st : length (pf_time (write_profile_points PP st)) = length (pf_time st) - PP.
  Proof. cbn. apply skipn_length. Qed.

  Lemma write_doing ru k st : doing ru k st -> PP < length (pf_time st) ->
    doing ru k (write_profile_points PP st).
  Proof.
    intros (E & HH & HR & Ht & Hne) HL. exists E.
    split; [apply write_sim; exact HH|]. split; [exact HR|]. split; [exact Ht|].
    intro C. pose proof (write_length st) as HW. rewrite C in HW. cbn in HW. lia.
  Qed.

  Lemma write_complete ru st tl : complete ru st tl -> complete ru (write_profile_points PP st) tl.
  Proof.
    intros (E & p & HH & Hp & HT & HR & Ht & He). exists E, p.
    split; [apply write_sim; exact HH|]. auto.
  Qed.

  (* ---------------- the state of a running scan ---------------- *)
  Definition inv (ru : entry) (st : prof) : Prop :=
    (doing ru (pf_end st) st /\ start <= pf_end st <= N) \/ (exists tl, complete ru st tl).

  Notation upd st s := (update_step axes gen N joined same gap trig interval PP BATCH st s).

  Lemma more_inv M ru st : all_points_at_most M -> inv ru st ->
    (exists st', match calc st (pf_end st) with
                 | Err e => Err e
                 | Ok s => Ok (write_profile_points PP s)
                 end = Ok st' /\ inv ru st' /\
       (pf_end st < N -> pf_end st < pf_end st') /\ pf_end st' <= N /\
       (pf_end st = N -> exists tl, complete ru st' tl) /\
       (M <= PP -> length (pf_time st) <= PP ->
          length (pf_time st') <= M \/
          exists tl, complete ru st' tl /\ length (pf_time st') <= entries_of [SAdd tl]) /\
       (pf_end st = N -> (forall tl, ~ complete ru st tl) -> exists tl, complete ru st' tl /\
          length (pf_time st') = length (pf_time st) + entries_of [SAdd tl] - PP) /\
       (forall tl, complete ru st tl -> length (pf_time st') = length (pf_time st) - PP)) \/
    (exists e p, last_pt p /\ tail_off axes p interval = Err e /\
       match calc st (pf_end st) with
                 | Err e => Err e
                 | Ok s => Ok (write_profile_points PP s)
                 end = Err e).
  Proof.
    intros HM [[HD Hk] | (tl & HC)].
    - destruct (calc_doing M ru st (pf_end st) HM Hk HD)
        as [(st1 & -> & HO) | (e & p & Hp & HT & ->)]; [left|right; exists e, p; auto].
      exists (write_profile_points PP st1). split; [reflexivity|].
      assert (HnC : forall tl, complete ru st tl -> False).
      { intros tl (E & p & _ & _ & _ & _ & Ht & _). destruct HD as (_ & _ & _ & Hf & _). congruence. }
      destruct HO as [(HD1 & Hk1 & HL1) | (tl & HC1 & HL1 & HL2)].
      + assert (HE : pf_end (write_profile_points PP st1) = pf_end st1) by reflexivity.
        split. { left. rewrite HE. split; [apply write_doing; [exact HD1|lia]|lia]. }
        rewrite HE. split; [lia|]. split; [lia|]. split; [intro; lia|].
        split. { intros HMP HLP. left. rewrite write_length. lia. }
        split; [intro; lia|]. intros tl HC. exfalso. eauto.
      + pose proof (write_complete _ _ _ HC1) as HW.
        assert (HE : pf_end (write_profile_points PP st1) = N).
        { destruct HW as (E & p & _ & _ & _ & _ & _ & HE). exact HE. }
        split; [right; eauto|]. rewrite HE. split; [auto|]. split; [lia|]. split; [eauto|].
        split. { intros HMP HLP. right. exists tl. split; [exact HW|]. rewrite write_length. lia. }
        split.
        * intros HeN _. exists tl. split; [exact HW|]. rewrite write_length, (HL2 HeN). reflexivity.
        * intros tl' HC. exfalso. eauto.
    - left. pose proof HC as (E & p & _ & _ & _ & _ & _ & HE). rewrite HE.
      destruct (calc_complete ru st tl HC) as (st1 & -> & HC1 & HT1 & HS1).
      exists (write_profile_points PP st1). split; [reflexivity|].
      pose proof (write_complete _ _ _ HC1) as HW.
      assert (HEW : pf_end (write_profile_points PP st1) = N).
      { destruct HW as (E' & p' & _ & _ & _ & _ & _ & HE'). exact HE'. }
      split; [right; eauto|]. rewrite HEW. split; [lia|]. split; [lia|]. split; [eauto|].
      split. { intros _ HLP. left. rewrite write_length, HT1. lia. }
      split; [intros _ HnC; exfalso; eapply HnC; eauto|].
      intros tl' _. rewrite write_length, HT1. reflexivity.
  Qed.

  Lemma doing_not_complete ru k st tl : doing ru k st -> ~ complete ru st tl.
  Proof.
    intros (_ & _ & _ & Hf & _) (E & p & _ & _ & _ & _ & Ht & _). congruence.
  Qed.

  Definition size_ok (M TC : nat) : Prop :=
    M + TC <= PP /\
    forall p tl, last_pt p -> tail_off_of axes interval p N tl -> entries_of [SAdd tl] <= TC.
  Definition small (M TC : nat) ru st : Prop :=
    length (pf_time st) <= M \/ exists tl, complete ru st tl /\ length (pf_time st) <= TC.
  Definition tail_fine : Prop :=
    forall p, last_pt p -> exists r, tail_off axes p interval = Ok r.

  Lemma complete_entries M TC ru st tl : size_ok M TC -> complete ru st tl ->
    entries_of [SAdd tl] <= TC.
  Proof. intros [_ H] (E & p & _ & Hp & HT & _). eauto. Qed.

  Lemma upd_ok M TC ru st s : all_points_at_most M -> inv ru st ->
    (forall st', upd st s = Ok st' ->
       inv ru st' /\ pf_end st <= pf_end st' <= N /\
       (length (pf_lookup st) - s < PP -> pf_end st < N -> pf_end st < pf_end st') /\
       (pf_end st = N -> (exists tl, complete ru st' tl) /\ pf_time st' = [])) /\
    (tail_fine -> size_ok M TC -> small M TC ru st ->
       exists st', upd st s = Ok st' /\ small M TC ru st').
  Proof.
    intros HM HI. unfold update_step. cbn [is_every trig]. fold trig.
    set (c1 := Nat.ltb (pf_end st) N && Nat.ltb (length (pf_lookup st) - s) PP).
    set (r1 := if c1 then _ else Ok st).
    assert (HeN : pf_end st <= N).
    { destruct HI as [[_ H]|(tl & E & p & _ & _ & _ & _ & _ & H)]; lia. }
    assert (H1 : (exists st1, r1 = Ok st1 /\ inv ru st1 /\ pf_end st <= pf_end st1 <= N /\
                   (c1 = true -> pf_end st < pf_end st1) /\
                   (c1 = false -> st1 = st) /\
                   (size_ok M TC -> small M TC ru st -> small M TC ru st1)) \/
                 (exists e p, last_pt p /\ tail_off axes p interval = Err e /\ r1 = Err e)).
    { unfold r1. destruct c1 eqn:Ec.
      - apply andb_true_iff in Ec as [Ec1 Ec2]. apply Nat.ltb_lt in Ec1.
        destruct (more_inv M ru st HM HI)
          as [(st1 & HX & I1 & P1 & P2 & P3 & P4 & P5 & P6) | HE]; [left|right; exact HE].
        exists st1. split; [exact HX|]. split; [exact I1|]. split; [lia|]. split; [auto|].
        split; [discriminate|]. intros HS Hsm. pose proof HS as [HS1 _].
        assert (length (pf_time st) <= PP) by (destruct Hsm as [|(tl & _ & Hl)]; lia).
        destruct (P4 ltac:(lia) H) as [Hl|(tl & HC & Hl)]; [left; exact Hl|].
        right. exists tl. split; [exact HC|].
        pose proof (complete_entries _ _ _ _ _ HS HC). lia.
      - left. exists st. split; [reflexivity|]. split; [exact HI|]. split; [lia|].
        split; [discriminate|]. split; auto. }
    destruct H1 as [(st1 & -> & I1 & P1 & P2 & P3 & P4) | (e & p & Hp & HT & ->)].
    2:{ split; [discriminate|]. intros HF. destruct (HF p Hp) as (r & Hr). congruence. }
    destruct (Nat.eqb (pf_end st1) N && negb (Nat.eqb (length (pf_time st1)) 0)) eqn:E2.
    - apply andb_true_iff in E2 as [E2 E3]. apply Nat.eqb_eq in E2.
      destruct (more_inv M ru st1 HM I1)
          as [(st2 & -> & I2 & Q1 & Q2 & Q3 & Q4 & Q5 & Q6) | (e & p & Hp & HT & ->)].
      2:{ split; [discriminate|]. intros HF. destruct (HF p Hp) as (r & Hr). congruence. }
      pose proof (Q3 E2) as [tl2 HC2].
      assert (HE2 : pf_end st2 = N) by (destruct HC2 as (E & p & _ & _ & _ & _ & _ & HE); exact HE).
      cbn [andb]. destruct (Nat.eqb (length (pf_time st2)) 0) eqn:E4; cbn [negb].
      + split.
        * intros st' H. injection H as <-. split; [exact I2|]. split; [lia|].
          split; [intros; lia|]. intros _. split; [eauto|].
          apply Nat.eqb_eq in E4. destruct (pf_time st2); [reflexivity|discriminate].
        * intros _ HS _. exists st2. split; [reflexivity|]. right. exists tl2.
          split; [exact HC2|]. apply Nat.eqb_eq in E4. lia.
      + split; [discriminate|]. intros _ HS Hsm. exfalso.
        apply Nat.eqb_neq in E4. pose proof HS as [HS1 _].
        destruct I1 as [[HD1 _]|(tl & HC)].
        * destruct (Q5 E2) as (tl & HC & Hl).
          { intros tl' HC'. exact (doing_not_complete _ _ _ _ HD1 HC'). }
          pose proof (complete_entries _ _ _ _ _ HS HC).
          destruct (P4 HS Hsm) as [Hl1 | (tl' & HC' & _)].
          -- lia.
          -- exact (doing_not_complete _ _ _ _ HD1 HC').
        * pose proof (Q6 tl HC).
          destruct (P4 HS Hsm) as [Hl1 | (tl' & HC' & Hl1)]; lia.
    - split.
      + intros st' H. injection H as <-. split; [exact I1|]. split; [lia|]. split.
        * intros H1 H2. apply P2. unfold c1. apply andb_true_iff.
          split; apply Nat.ltb_lt; assumption.
        * intro H. assert (Hn : pf_end st1 = N) by lia.
          rewrite Hn, Nat.eqb_refl in E2. cbn [andb] in E2.
          apply negb_false_iff, Nat.eqb_eq in E2.
          assert (Ht : pf_time st1 = []) by (destruct (pf_time st1); [reflexivity|discriminate]).
          split; [|exact Ht]. destruct I1 as [[(E & _ & _ & _ & Hne) _]|HC]; [contradiction|exact HC].
      + intros _ HS Hsm. exists st1. auto.
  Qed.

  (* ---------------- configure ---------------- *)
  Hypothesis HP : 0 < PP.
  Notation conf := (on_configure axes gen N joined same gap trig interval PP BATCH start).

  Definition first_pt (p : ppoint) : Prop := nth_error gen start = Some p.

  Lemma the_axes_init : prof_init (map (fun a : string * (string * motor) => fst (snd a)) axes)
    = prof_init (map snd m).
  Proof. unfold m, the_mapping. rewrite map_map. reflexivity. Qed.

  Lemma conf_ok M TC : all_points_at_most M ->
    exists p0, first_pt p0 /\
    (forall st, conf = Ok st -> exists ru, run_up_of axes interval p0 start ru /\
                (e_time ru <= 4)%Q /\ inv ru st /\ start < pf_end st) /\
    ((exists t, run_up_time axes p0 interval = Ok t /\ (t <= 4)%Q) -> 
      tail_fine -> size_ok M TC ->
      exists st ru, conf = Ok st /\ run_up_of axes interval p0 start ru /\ small M TC ru st /\
                    inv ru st).
  Proof.
    intro HM. destruct (nth_error gen start) as [p0|] eqn:Ep.
    2:{ apply nth_error_None in Ep. lia. }
    exists p0. split; [exact Ep|].
    unfold on_configure, calculate_generator_profile, run_up. rewrite Ep.
    destruct (run_up_time axes p0 interval) as [t|e] eqn:Er.
    2:{ split; [discriminate|]. intros (t & C & _). discriminate. }
    pose proof (run_up_time_longest _ _ _ _ Er) as HL.
    set (ru := mkEntry t REAL_PREV_TO_CURRENT (user_program trig START_OF_ROW)
                       (Z.of_nat start) (pt_low p0)).
    assert (Hru : run_up_of axes interval p0 start ru) by (repeat split; apply HL).
    rewrite the_axes_init. unfold add. rewrite at_axes_points. fold m.
    pose proof (add_sim PP m NDm1 NDm2 (prof_init (map snd m)) [] ru (holds_init PP m)) as HA.
    assert (Hx : extend [] ru = if Qle_bool t 4 then Some [ru] else None).
    { unfold extend. cbn [e_time ru]. destruct (Qle_bool t 4); reflexivity. }
    rewrite Hx in HA. destruct (Qle_bool t 4) eqn:E4.
    - destruct HA as (st1 & HA & HH1 & (S1 & S2 & S3 & S4) & Hne1); [intro; reflexivity|].
      cbn [e_time e_mode e_prog e_step e_pos ru] in HA. rewrite HA.
      assert (HD : doing ru start st1).
      { exists [ru]. split; [exact HH1|]. split; [|split; [exact S3|exact Hne1]].
        unfold ideal_upto. rewrite Nat.sub_diag. cbn [seq flat_map sop_run sop_step].
        rewrite Hx. reflexivity. }
      assert (HL1 : length (pf_time st1) = 1).
      { apply (holds_length) in HH1 as [HH1 _]. rewrite S4 in HH1. cbn in HH1. lia. }
      pose proof (calc_doing M ru st1 start HM ltac:(lia) HD) as HC.
      unfold calculate_generator_profile in HC.
      destruct HC as [(st2 & -> & HO) | (e & p & Hp & HT & ->)].
      2:{ split; [discriminate|]. intros _ HF. destruct (HF p Hp) as (r & Hr). congruence. }
      assert (HI : inv ru (write_profile_points PP st2) /\ start < pf_end (write_profile_points PP st2)
                   /\ (size_ok M TC -> small M TC ru (write_profile_points PP st2))).
      { destruct HO as [(HD2 & Hk2 & HL2)|(tl & HC2 & HL2 & _)].
        - split; [left; split; [apply write_doing; [exact HD2|lia]|cbn; lia]|].
          split; [cbn; lia|]. intros [HS _]. left. rewrite write_length.
          lia.
        - pose proof (write_complete _ _ _ HC2) as HW.
          split; [right; eauto|]. split.
          + destruct HW as (E & p & _ & _ & _ & _ & _ & HE). rewrite HE. exact Hstart.
          + intros HS. right. exists tl. split; [exact HW|].
            pose proof (complete_entries _ _ _ _ _ HS HC2).
            rewrite write_length. lia. }
      destruct HI as (HI & Hs & Hsm). split.
      + intros st H. injection H as <-. exists ru. repeat (split; [assumption|]). 
        split; [apply Qle_bool_iff; exact E4|]. auto.
      + intros _ _ HS. exists (write_profile_points PP st2), ru. auto.
    - cbn [e_time e_mode e_prog e_step e_pos ru] in HA. rewrite HA by (intro; reflexivity).
      split; [discriminate|]. intros (t' & Ht & H4). injection Ht as <-.
      apply Qle_bool_iff in H4. congruence.
  Qed.
End Scan.
