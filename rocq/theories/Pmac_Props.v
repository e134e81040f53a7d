(* C29, C30, C31, C42: PMAC motion profiles. *)
From Coq Require Import String Ascii Bool ZArith QArith Qabs Qround Lia Lqa List.
From Verif Require Import Base Pmac_Model Pmac_Spec Pmac_Proofs PmacScan_Proofs PmacScan2_Proofs.
Import ListNotations.
Local Open Scope list_scope.
Local Open Scope nat_scope.

(* ------------------------------------------------------------------ *)
(* C29.  However points are added, amended and written: the state holds exactly the trajectory
   that was asked for, in order, blocks first *)
Theorem C29_profile_is_what_was_asked : forall PP m os st,
  NoDup (map fst m) -> NoDup (map snd m) ->
  pop_run PP m (prof_init (map snd m)) (map (request m) os) = Ok st ->
  exists E, sop_run [] os = Some E /\ holds PP m st E.
Proof.
  intros PP m os st N1 N2 H.
  eapply (pop_run_sound PP m N1 N2 os _ [] st); [apply holds_init|exact H].
Qed.
Print Assumptions C29_profile_is_what_was_asked.

(* all arrays aligned, blocks no longer than PP, no interval longer than 4 s, total time kept,
   lookup as long as everything added and never going back if the steps asked for do not *)
Theorem C29_arrays_aligned : forall PP m os st,
  NoDup (map fst m) -> NoDup (map snd m) ->
  pop_run PP m (prof_init (map snd m)) (map (request m) os) = Ok st ->
  aligned m st /\ Forall (block_aligned PP m) (pf_sent st) /\
  length (pf_lookup st) =
    length (pf_time st) + fold_right (fun b s => length (b_ticks b) + s) 0 (pf_sent st) /\
  Forall (fun t => (t <= 4)%Q) (pf_time st) /\
  (nondecreasing (steps_asked os) -> nondecreasing (pf_lookup st)).
Proof.
  intros PP m os st N1 N2 H.
  destruct (C29_profile_is_what_was_asked PP m os st N1 N2 H) as (E & HR & HH).
  destruct (holds_aligned _ _ _ _ HH) as (A & B & C).
  split; [exact A|]. split; [exact B|]. split; [exact C|].
  pose proof (sop_run_short os [] E HR (Forall_nil _)) as HS.
  destruct HH as (ch & cur & HE & _ & _ & Ht & _ & _ & _ & Hl).
  split.
  - rewrite Ht. subst E. apply Forall_app in HS as [_ HS].
    apply Forall_forall. intros t Hin. apply in_map_iff in Hin as (e & <- & Hin).
    rewrite Forall_forall in HS. auto.
  - intro Hn. rewrite Hl. eapply sop_run_steps; [exact HR|exact I|exact Hn|].
    intros r s x rest Hr. destruct r; discriminate.
Qed.
Print Assumptions C29_arrays_aligned.

(* cutting a move keeps the total time *)
Theorem C29_total_time_kept : forall PP m os st,
  NoDup (map fst m) -> NoDup (map snd m) ->
  pop_run PP m (prof_init (map snd m)) (map (request m) os) = Ok st ->
  exists E, holds PP m st E /\ (qsum (map e_time E) == qsum (asked os))%Q.
Proof.
  intros PP m os st N1 N2 H.
  destruct (C29_profile_is_what_was_asked PP m os st N1 N2 H) as (E & HR & HH).
  exists E. split; [exact HH|]. rewrite (sop_run_time _ _ _ HR). cbn. ring.
Qed.
Print Assumptions C29_total_time_kept.

(* one long move, from any state: pieces of equal time on the straight line *)
Theorem C29_long_move_is_straight : forall (prev e : entry),
  (4 < e_time e)%Q ->
  let n := length (cut prev e) in
  2 <= n /\
  (forall i x, nth_error (cut prev e) i = Some x ->
     (e_time x * inject_Z (Z.of_nat n) == e_time e)%Q /\ (e_time x <= 4)%Q /\
     forall a, (e_pos x a == e_pos prev a +
                 inject_Z (Z.of_nat (S i)) / inject_Z (Z.of_nat n) * (e_pos e a - e_pos prev a))%Q).
Proof.
  intros prev e H4. cbv zeta.
  assert (HL : length (cut prev e) = pieces (e_time e)).
  { pose proof (cut_map_time prev e) as HC. apply (f_equal (@length Q)) in HC.
    rewrite map_length, repeat_length in HC. exact HC. }
  rewrite HL.
  assert (HP : 2 <= pieces (e_time e)).
  { unfold pieces. assert (1 <= Qfloor (e_time e / 4))%Z; [|lia].
    change 1%Z with (Qfloor 1). apply Qfloor_resp_le. apply Qle_shift_div_l; [reflexivity|]. lra. }
  split; [exact HP|]. intros i x Hx.
  assert (Hnz : ~ (inject_Z (Z.of_nat (pieces (e_time e))) == 0)%Q).
  { intro C. unfold Qeq in C. cbn in C. lia. }
  assert (Hi : i < pieces (e_time e)).
  { rewrite <- HL. apply nth_error_Some. congruence. }
  set (n := pieces (e_time e)) in *.
  assert (Htime : forall y, In y (cut prev e) -> e_time y = (e_time e / inject_Z (Z.of_nat n))%Q).
  { intros y Hy. apply (in_map e_time) in Hy. rewrite cut_map_time in Hy.
    apply repeat_spec in Hy. exact Hy. }
  rewrite (Htime x) by (eapply nth_error_In; eauto).
  split; [field; exact Hnz|]. split.
  { apply pieces_short. lra. }
  intro a. unfold cut in Hx. fold n in Hx.
  destruct (Nat.lt_ge_cases i (n - 1)) as [Hlt|Hge].
  - rewrite nth_error_app1 in Hx by (rewrite map_length, seq_length; exact Hlt).
    rewrite nth_error_map in Hx.
    assert (Hs : nth_error (seq 1 (n - 1)) i = Some (1 + i)).
    { rewrite (nth_error_nth' _ 0) by (rewrite seq_length; exact Hlt).
      rewrite seq_nth by exact Hlt. reflexivity. }
    rewrite Hs in Hx. injection Hx as <-. cbn [e_pos]. unfold between.
    change (1 + i) with (S i). field. exact Hnz.
  - rewrite nth_error_app2 in Hx by (rewrite map_length, seq_length; exact Hge).
    rewrite map_length, seq_length in Hx.
    replace (i - (n - 1)) with 0 in Hx by lia. injection Hx as <-. cbn [e_pos].
    replace (S i) with n by lia. field. exact Hnz.
Qed.
Print Assumptions C29_long_move_is_straight.

(* two axes, a block written in the middle, a 10 second move cut in three, an amended entry *)
Section C29_example.
  Let m : mapping := [("stagex", "a"); ("stagey", "b")]%string.
  Let at_ (x y : Q) : string -> Q := fun n => if String.eqb n "stagex" then x else y.
  Let os := [SAdd (mkEntry 1 1 1 0 (at_ 0 0)); SAdd (mkEntry 2 0 4 0 (at_ 1 0));
             SAdd (mkEntry 2 1 2 1 (at_ 2 0)); SWrite;
             SAdd (mkEntry 10 1 8 1 (at_ 2 6)); SFix 1 1 (at_ 2 7); SWrite].
  Example C29_ex :
    NoDup (map fst m) /\ NoDup (map snd m) /\
    match pop_run 2 m (prof_init (map snd m)) (map (request m) os) with
    | Ok st => pf_time st = [10 # 3; 10 # 3]%Q /\ pf_lookup st = [0; 0; 1; 1; 1; 1]%Z /\
               map b_ticks (pf_sent st) = [[1000000; 2000000]; [2000000; 3333333]]%Z /\
               map Qred (match dget "b"%string (pf_axes st) with Some l => l | None => [] end)
               = [4; 7]%Q
    | Err _ => False
    end /\ nondecreasing (steps_asked os).
  Proof.
    split; [repeat constructor; cbn; intuition discriminate|].
    split; [repeat constructor; cbn; intuition discriminate|].
    split; [vm_compute; repeat split|]. vm_compute. repeat split; discriminate.
  Qed.
End C29_example.

(* the first move of a profile can't be cut: configure fails *)
Example C29_first_ex :
  pop_run 2 [("x", "a")]%string (prof_init ["a"%string]) [Add 5 1 1 0 [("x"%string, 0%Q)]]
  = Err NoStretch.
Proof. reflexivity. Qed.

(* ------------------------------------------------------------------ *)
(* C30.  Ticks of a block: never more than half a tick off in total, at any point of the
   block, and each interval within one tick *)
Theorem C30_ticks_do_not_drift : forall (ts : list Q) (k : nat),
  (Qabs (inject_Z (zsum (firstn k (ticks_of 0 ts))) -
         qsum (map (fun t => t * 1000000) (firstn k ts))) <= 1 # 2)%Q.
Proof.
  intros ts k. rewrite ticks_firstn.
  pose proof (ticks_drift (firstn k ts) 0 ltac:(split; lra)) as H.
  change TICKS_PER_S with (1000000)%Q in H.
  apply Qabs_Qle_condition. lra.
Qed.
Print Assumptions C30_ticks_do_not_drift.

Theorem C30_each_tick_close : forall ts,
  Forall2 (fun t z => (Qabs (inject_Z z - t * 1000000) < 1)%Q) ts (ticks_of 0 ts).
Proof. intro ts. apply (ticks_each ts 0). split; lra. Qed.
Print Assumptions C30_each_tick_close.

(* every block sent by any use of the profile *)
Theorem C30_blocks : forall PP m os st b,
  NoDup (map fst m) -> NoDup (map snd m) ->
  pop_run PP m (prof_init (map snd m)) (map (request m) os) = Ok st ->
  In b (pf_sent st) ->
  exists C, block_of m b C /\ length C <= PP /\
    (Qabs (inject_Z (zsum (b_ticks b)) - qsum (map (fun e => e_time e * 1000000) C)) <= 1 # 2)%Q.
Proof.
  intros PP m os st b N1 N2 H Hb.
  destruct (C29_profile_is_what_was_asked PP m os st N1 N2 H) as (E & HR & HH).
  destruct HH as (ch & cur & _ & H1 & H2 & _).
  induction H1 as [|b' C bs ch HB _ IH]; [destruct Hb|].
  inversion H2; subst. destruct Hb as [<-|Hb]; [|apply IH; auto].
  exists C. split; [exact HB|]. split; [assumption|]. destruct HB as (-> & _).
  pose proof (C30_ticks_do_not_drift (map e_time C) (length C)) as HT.
  rewrite !firstn_all2 in HT; [|rewrite map_length; lia|rewrite ticks_of_length, map_length; lia].
  rewrite map_map in HT. exact HT.
Qed.
Print Assumptions C30_blocks.

(* thirds of a microsecond: 0.33 tick each, after five 2/3 .. *)
Example C30_ex : ticks_of 0 [1 # 3000000; 1 # 3000000; 1 # 3000000; 5 # 3000000]%Q
                 = [0; 1; 0; 2]%Z.
Proof. reflexivity. Qed.

(* ------------------------------------------------------------------ *)
(* C31 *)
Theorem C31_mapping_sound : forall rows axes m,
  cs_axis_mapping rows axes = Ok m ->
  exists port letter, one_cs rows axes port letter /\
    (forall a, In a (dkeys m) <-> In a axes) /\ NoDup (dkeys m) /\
    (forall a, In a axes -> dget a m = Some (port, letter a)).
Proof. exact mapping_sound. Qed.
Print Assumptions C31_mapping_sound.

Theorem C31_mapping_exactly_when_possible : forall rows axes,
  NoDup (map fst rows) ->
  ((exists m, cs_axis_mapping rows axes = Ok m) <->
   (exists port letter, one_cs rows axes port letter)).
Proof.
  intros rows axes Hn. split.
  - intros (m & H). apply mapping_sound in H as (port & letter & H & _). eauto.
  - intros (port & letter & H). eapply mapping_complete; eauto.
Qed.
Print Assumptions C31_mapping_exactly_when_possible.

Example C31_ex :
  cs_axis_mapping [("x", "CS1,A"); ("y", "CS1,B"); ("z", "CS2,A")]%string ["y"; "x"]%string
  = Ok [("x", ("CS1", "A")); ("y", ("CS1", "B"))]%string.
Proof. reflexivity. Qed.
Example C31_refused_ex :
  let rows := [("x", "CS1,A"); ("y", "CS1,B"); ("z", "CS2,A"); ("w", "CS1,A"); ("i", "CS1,I");
               ("n", "")]%string in
  cs_axis_mapping rows ["x"; "z"]%string = Err ManyPorts /\
  cs_axis_mapping rows ["x"; "w"]%string = Err Overlap /\
  cs_axis_mapping rows ["x"; "q"]%string = Err Missing /\
  cs_axis_mapping rows ["i"]%string = Err NotOneToOne /\
  cs_axis_mapping rows ["n"]%string = Err NotOneToOne.
Proof. repeat split. Qed.

(* ------------------------------------------------------------------ *)
(* C42.  A scan that triggers at every point *)
Section C42.
  Variable axes : list (string * (string * motor)).
  Variable gen : list ppoint.
  Variables N start : nat.
  Variables joined same : ppoint -> ppoint -> bool.
  Variable gap : ppoint -> ppoint -> list (Q * (string -> Q)).
  Variable interval : Q.
  Variables PP BATCH : nat.
  Hypothesis ND1 : NoDup (map fst axes).
  Hypothesis ND2 : NoDup (map (fun a => fst (snd a)) axes).
  Hypothesis HN : N <= length gen.
  Hypothesis HB : 0 < BATCH.
  Hypothesis HP : 0 < PP.
  Hypothesis Hstart : start < N.

  Notation conf := (on_configure axes gen N joined same gap EVERY_POINT interval PP BATCH start).
  Notation upds st scans :=
    (updates axes gen N joined same gap EVERY_POINT interval PP BATCH st scans).

  Lemma updates_inv scans : forall M ru st st',
    all_points_at_most gen N joined gap M ->
    inv axes gen N joined gap interval PP start ru st ->
    upds st scans = Ok st' ->
    inv axes gen N joined gap interval PP start ru st' /\ pf_end st <= pf_end st'.
  Proof.
    induction scans as [|s scans IH]; intros M ru st st' HM HI H; cbn in H.
    - injection H as <-. split; [exact HI|lia].
    - destruct (update_step axes gen N joined same gap EVERY_POINT interval PP BATCH st s)
        as [st1|] eqn:E1; [|discriminate].
      destruct (upd_ok axes gen N joined same gap interval PP BATCH ND1 ND2 HN HB start Hstart
                  M 0 ru st s HM HI) as [HU _].
      destruct (HU st1 E1) as (I1 & L1 & _).
      destruct (IH M ru st1 st' HM I1 H) as [I2 L2]. split; [exact I2|lia].
  Qed.

  (* whatever numbers of scanned points are reported, what was sent and what is kept is the
     run up, then every point of the scan once and in order, then the tail off; and when
     nothing is kept that was all of it *)
  Theorem C42_every_point_in_order : forall st0 scans st,
    conf = Ok st0 -> upds st0 scans = Ok st ->
    exists p0 ru E, nth_error gen start = Some p0 /\ run_up_of axes interval p0 start ru /\
      holds PP (the_mapping axes) st E /\
      ((pf_tail st = false /\ pf_time st <> [] /\ start < pf_end st <= N /\
        sop_run [] (ideal_upto gen N start joined gap ru (pf_end st)) = Some E) \/
       (exists pN tl, nth_error gen (N - 1) = Some pN /\ tail_off_of axes interval pN N tl /\
        pf_tail st = true /\ pf_end st = N /\
        sop_run [] (ideal gen N start joined gap ru tl) = Some E)).
  Proof.
    intros st0 scans st HC HU.
    destruct (points_bounded gen N joined gap) as [M HM].
    destruct (conf_ok axes gen N joined same gap interval PP BATCH ND1 ND2 HN HB start Hstart HP
                M 0 HM) as (p0 & Hp0 & HC1 & _).
    destruct (HC1 st0 HC) as (ru & Hru & _ & HI & Hs).
    destruct (updates_inv scans M ru st0 st HM HI HU) as [HI' HL].
    destruct HI' as [[(E & HH & HR & Ht & Hne) Hk] | (tl & E & p & HH & Hp & HT & HR & Ht & He)].
    - exists p0, ru, E. repeat (split; [assumption|]). left. repeat (split; [auto; try lia|]). exact HR.
    - exists p0, ru, E. repeat (split; [assumption|]). right. exists p, tl. auto.
  Qed.

  (* the detector gets live and mid exactly once for every point, and dead at every row end *)
  Theorem C42_signals : forall st0 scans st E,
    (forall p q, joined p q = false -> gap p q <> []) ->
    conf = Ok st0 -> upds st0 scans = Ok st -> pf_time st = [] ->
    holds PP (the_mapping axes) st E ->
    signals E = wanted_signals gen N start joined /\
    exists chunks, E = concat chunks /\
      Forall2 (block_of (the_mapping axes)) (pf_sent st) chunks.
  Proof.
    intros st0 scans st E Hg HC HU Ht HH.
    destruct (C42_every_point_in_order st0 scans st HC HU) as (p0 & ru & E' & _ & Hru & HH' & HO).
    assert (HE : map e_prog E = map e_prog E').
    { destruct HH as (ch & cur & -> & F1 & _ & T1 & _). destruct HH' as (ch' & cur' & -> & F1' & _ & T1' & _).
      rewrite Ht in T1, T1'. destruct cur; [|discriminate]. destruct cur'; [|discriminate].
      rewrite !app_nil_r. clear - F1 F1'. revert ch' F1'.
      induction F1 as [|b C bs ch HB _ IH]; intros ch' F1'; inversion F1'; subst; [reflexivity|].
      cbn. rewrite !map_app. destruct HB as (_ & _ & B & _). destruct H1 as (_ & _ & B' & _).
      f_equal; [congruence|]. apply IH. assumption. }
    split.
    - assert (signals E = signals E') as -> by (unfold signals; rewrite HE; reflexivity).
      destruct HO as [(_ & Hne & _) | (pN & tl & _ & HT & _ & _ & HR)]; [contradiction|].
      destruct Hru as (_ & Hr & _). destruct HT as (_ & HT & _).
      eapply sig_ideal; eauto.
    - destruct HH as (ch & cur & -> & F1 & _ & T1 & _). rewrite Ht in T1.
      destruct cur; [|discriminate]. exists ch. rewrite app_nil_r. auto.
  Qed.

  (* the steps reported never go back and stay between the first and last step of the run *)
  Theorem C42_steps_reported : forall st0 scans st,
    conf = Ok st0 -> upds st0 scans = Ok st ->
    nondecreasing (pf_lookup st) /\
    (forall scanned z, reported_step st scanned = Some z ->
       (Z.of_nat start <= z <= Z.of_nat N)%Z).
  Proof.
    intros st0 scans st HC HU.
    destruct (C42_every_point_in_order st0 scans st HC HU) as (p0 & ru & E & _ & Hru & HH & HO).
    destruct Hru as (_ & _ & Hr & _).
    assert (HW : exists os, sop_run [] os = Some E /\
                   within (Z.of_nat start) (Z.of_nat N) (steps_asked os)).
    { destruct HO as [(_ & _ & Hk & HR) | (pN & tl & _ & HT & _ & _ & HR)].
      - exists (ideal_upto gen N start joined gap ru (pf_end st)). split; [exact HR|].
        destruct (steps_upto gen N start joined gap HN ru (pf_end st) ltac:(lia) Hr) as [A B].
        split; [exact A|]. eapply Forall_impl; [|exact B]. cbn. lia.
      - exists (ideal gen N start joined gap ru tl). split; [exact HR|].
        apply steps_ideal; auto; [lia|]. apply HT. }
    destruct HW as (os & HR & HW1 & HW2).
    assert (Hl : pf_lookup st = map e_step E)
      by (destruct HH as (ch & cur & -> & _ & _ & _ & _ & _ & _ & Hl); exact Hl).
    split.
    - rewrite Hl. eapply sop_run_steps; [exact HR|exact I|exact HW1|].
      intros r s x rest Hx. destruct r; discriminate.
    - intros scanned z Hz. unfold reported_step in Hz. rewrite Hl in Hz.
      apply nth_error_In in Hz. apply (sop_run_steps_in _ _ _ HR) in Hz as [[]|Hz].
      rewrite Forall_forall in HW2. auto.
  Qed.

  (* reports from the controller move the scan on: the next points are loaded, or, once all
     points are loaded, everything has been sent *)
  Theorem C42_reports_finish_it : forall st0 scans st scanned st',
    conf = Ok st0 -> upds st0 scans = Ok st -> upds st [scanned] = Ok st' ->
    (length (pf_lookup st) - scanned < PP -> pf_end st < N -> pf_end st < pf_end st') /\
    (pf_end st = N -> pf_end st' = N /\ pf_tail st' = true /\ pf_time st' = []).
  Proof.
    intros st0 scans st scanned st' HC HU H1.
    destruct (points_bounded gen N joined gap) as [M HM].
    destruct (conf_ok axes gen N joined same gap interval PP BATCH ND1 ND2 HN HB start Hstart HP
                M 0 HM) as (p0 & Hp0 & HC1 & _).
    destruct (HC1 st0 HC) as (ru & _ & _ & HI & _).
    destruct (updates_inv scans M ru st0 st HM HI HU) as [HI' _].
    destruct (upd_ok axes gen N joined same gap interval PP BATCH ND1 ND2 HN HB start Hstart
                  M 0 ru st scanned HM HI') as [HX _].
    cbn in H1.
    destruct (update_step axes gen N joined same gap EVERY_POINT interval PP BATCH st scanned)
      as [st1|] eqn:E1; [|discriminate]. injection H1 as <-.
    destruct (HX st1 eq_refl) as (_ & _ & A & B). split; [exact A|].
    intro He. destruct (B He) as [(tl & E & p & _ & _ & _ & _ & Ht & Hend) Hz]. auto.
  Qed.

  (* no error if the motors can do it and no single point with the tail off needs a whole block *)
  Theorem C42_no_error : forall M TC p0 pN,
    nth_error gen start = Some p0 -> nth_error gen (N - 1) = Some pN ->
    (forall a, In a axes ->
       ~ too_fast (snd (snd a)) (entry_velocity (fst a) p0) /\
       (Qabs (entry_velocity (fst a) p0) / mi_acc (snd (snd a)) <= 4)%Q) ->
    (interval <= 4)%Q ->
    (forall a, In a axes ->
       let v := exit_velocity (fst a) pN in
       ~ too_fast (snd (snd a)) v /\
       in_soft_limits (snd (snd a)) (pt_up pN (fst a) + v * (Qabs v / mi_acc (snd (snd a))) / 2)) ->
    (forall i, entries_of (ideal_point gen N joined gap i) <= M) ->
    (forall tl, tail_off_of axes interval pN N tl -> entries_of [SAdd tl] <= TC) ->
    M + TC <= PP ->
    exists st0, conf = Ok st0 /\ forall scans, exists st, upds st0 scans = Ok st.
  Proof.
    intros M TC p0 pN Hp0 HpN HV Hi HT HM HTC HPP.
    assert (HTF : tail_fine axes gen N interval).
    { intros p Hp. unfold last_pt in Hp. rewrite HpN in Hp. injection Hp as <-.
      destruct (tail_off_total axes pN interval) as (t & pts & ->); [|eauto].
      intros a Ha. destruct (HT a Ha) as [A B]. split; [exact A|].
      intro Hs. specialize (B Hs). unfold tail_pos, ramp_to_zero, accel_time.
      rewrite qabs_Qabs. exact B. }
    assert (HSZ : size_ok axes gen N interval PP M TC).
    { split; [exact HPP|]. intros p tl Hp. unfold last_pt in Hp. rewrite HpN in Hp.
      injection Hp as <-. apply HTC. }
    destruct (conf_ok axes gen N joined same gap interval PP BATCH ND1 ND2 HN HB start Hstart HP
                M TC HM) as (p0' & Hp0' & _ & HC2).
    unfold first_pt in Hp0'. rewrite Hp0 in Hp0'. injection Hp0' as <-.
    destruct HC2 as (st0 & ru & HC & _ & Hsm & HI); auto.
    { destruct (run_up_time_total axes p0 interval) as (t & Ht).
      - intros a Ha. apply HV. exact Ha.
      - exists t. split; [exact Ht|]. apply run_up_time_longest in Ht as [HX _].
        apply Exists_exists in HX as (x & Hx & He). rewrite He.
        destruct Hx as [<-|Hx]; [exact Hi|]. apply in_map_iff in Hx as (a & <- & Ha). apply HV, Ha. }
    exists st0. split; [exact HC|]. intro scans. clear HC. revert st0 Hsm HI.
    induction scans as [|s scans IH]; intros st0 Hsm HI; cbn; [eauto|].
    destruct (upd_ok axes gen N joined same gap interval PP BATCH ND1 ND2 HN HB start Hstart
                M TC ru st0 s HM HI) as [HU1 HU2].
    destruct (HU2 HTF HSZ Hsm) as (st1 & H1 & Hsm1). rewrite H1.
    destruct (HU1 st1 H1) as (HI1 & _). apply IH; auto.
  Qed.
End C42.
Print Assumptions C42_every_point_in_order.
Print Assumptions C42_signals.
Print Assumptions C42_steps_reported.
Print Assumptions C42_reports_finish_it.
Print Assumptions C42_no_error.

(* two rows of three points on one axis, 4 entries per block: several loads *)
Section C42_example.
  Let axes := [("x", ("a", mkMotor 10 5 100 (-100) true))]%string.
  Let pnt (c : Q) : ppoint := mkPt 2 (fun _ => c) (fun _ => c - (1 # 2))%Q (fun _ => c + (1 # 2))%Q.
  Let gen := [pnt 1; pnt 2; pnt 3; pnt 1; pnt 2; pnt 3].
  Let joined (p q : ppoint) := Qeq_bool (pt_up p "x"%string) (pt_low q "x"%string).
  Let gap (p q : ppoint) := [(1, fun _ : string => 2); (1, fun _ : string => 1 # 2)]%Q.
  Let conf := on_configure axes gen 6 joined (fun _ _ => true) gap EVERY_POINT (1 # 100) 8 2 0.
  Example C42_ex :
    match conf with
    | Ok st0 =>
      length (pf_time st0) = 1 /\ pf_end st0 = 3 /\
      match updates axes gen 6 joined (fun _ _ => true) gap EVERY_POINT (1 # 100) 8 2 st0 [2; 9] with
      | Ok st => pf_time st = [] /\ pf_end st = 6 /\ pf_tail st = true /\
                 map b_prog (pf_sent st) = [[1; 4; 1; 4; 1; 4; 2; 8]; [1; 4; 1; 4; 1; 4; 2; 8]]%Z /\
                 pf_lookup st = [0; 0; 1; 1; 2; 2; 3; 3; 3; 3; 4; 4; 5; 5; 6; 6]%Z
      | Err _ => False
      end
    | Err _ => False
    end.
  Proof. vm_compute. repeat split. Qed.
End C42_example.
