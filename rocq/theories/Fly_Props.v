(* C107: the PMAC of a scan passes every point of a run before the run is over, and its progress is not ahead of it. *)
From Coq Require Import String Bool ZArith QArith Lia List.
From Verif Require Import Base Scan_Model Scan_Spec Pmac_Model Pmac_Spec Fly_Model Fly_Proofs.
From Verif Require Scan_Proofs Whole_Model Whole_Props Trio_Props Pmac_Props.
Import ListNotations.
Local Open Scope string_scope.
Local Open Scope list_scope.
Local Open Scope nat_scope.

Notation scan_inv := Scan_Proofs.inv.

(* ---- what is read from what was seen at the PMAC ---- *)
(* The steps that the last trajectory was built for. *)
Definition last_build (l : list event) : option (Z * Z) :=
  fold_left (fun b e => match e with EBuild c n => Some (c, n) | _ => b end) l None.
(* The programs of the points passed since the last run was started, and of all points. *)
Definition this_run (l : list event) : list Z :=
  fold_left (fun r e => match e with ERun => [] | EPoint z => r ++ [z] | EBuild _ _ => r end) l [].
Definition all_points (l : list event) : list Z := flat_map (fun e => match e with EPoint z => [z] | _ => [] end) l.
(* Live (1), mid (4) and dead (2) signals: not the points without a program (0) and those of a turnaround (8). *)
Definition sigs (l : list Z) : list Z := filter (fun z => negb (Z.eqb z 0) && negb (Z.eqb z 8)) l.

Lemma build_app l c n : last_build (l ++ [EBuild c n]) = Some (c, n).
Proof. unfold last_build. now rewrite fold_left_app. Qed.
Lemma build_run l : last_build (l ++ [ERun]) = last_build l.
Proof. unfold last_build. now rewrite fold_left_app. Qed.
Lemma build_points p : forall l, last_build (l ++ map EPoint p) = last_build l.
Proof. unfold last_build. intros l. rewrite fold_left_app. induction p as [|z p IH]; [reflexivity|exact IH]. Qed.
Lemma run_points p l : this_run (l ++ map EPoint p) = this_run l ++ p.
Proof.
  unfold this_run. rewrite fold_left_app. set (r := fold_left _ l []). clearbody r. revert r.
  induction p as [|z p IH]; intros r; cbn; [now rewrite app_nil_r|]. rewrite IH, <- app_assoc. reflexivity.
Qed.
Lemma run_new l : this_run (l ++ [ERun]) = [].
Proof. unfold this_run. now rewrite fold_left_app. Qed.
Lemma all_app a b : all_points (a ++ b) = all_points a ++ all_points b.
Proof. apply flat_map_app. Qed.
Lemma all_map p : all_points (map EPoint p) = p.
Proof. induction p as [|z p IH]; [reflexivity|]. unfold all_points in *. cbn. now rewrite IH. Qed.
Lemma sigs_app a b : sigs (a ++ b) = sigs a ++ sigs b.
Proof. apply filter_app. Qed.
Lemma mids_firstn l : forall j k, j <= k -> (mids (firstn j l) <= mids (firstn k l))%Z.
Proof.
  intros j k L. replace (firstn k l) with (firstn j l ++ firstn (k - j) (skipn j l)).
  - rewrite mids_app. pose proof (mids_nonneg (firstn (k - j) (skipn j l))). lia.
  - rewrite <- (firstn_skipn j l) at 3. rewrite firstn_app, firstn_firstn, Nat.min_r by lia.
    destruct (Nat.le_gt_cases (length l) j).
    + rewrite (skipn_all2 l) by lia. now rewrite !firstn_nil.
    + rewrite firstn_length, Nat.min_l by lia. reflexivity.
Qed.
Lemma firstn_split (l : list Z) j k : j <= k -> firstn k l = firstn j l ++ firstn (k - j) (skipn j l).
Proof.
  intros L. rewrite <- (firstn_skipn j l) at 1. rewrite firstn_app, firstn_firstn, Nat.min_r by lia.
  destruct (Nat.le_gt_cases (length l) j).
  - rewrite (skipn_all2 l) by lia. now rewrite !firstn_nil.
  - rewrite firstn_length, Nat.min_l by lia. reflexivity.
Qed.
Lemma mids_sigs l : mids (sigs l) = mids l.
Proof.
  unfold mids, sigs. f_equal. f_equal. induction l as [|z l IH]; [reflexivity|].
  cbn [filter]. destruct (Z.eqb_spec 4 z) as [<-|E].
  - cbn. now rewrite IH.
  - destruct (negb (Z.eqb z 0) && negb (Z.eqb z 8)); [|exact IH]. cbn [filter]. destruct (Z.eqb_spec 4 z); [contradiction|exact IH].
Qed.

(* ---- entries ---- *)
Lemma head_kept os : forall e E E', sop_run (e :: E) os = Some E' -> exists e' F, E' = e' :: F /\ e_step e' = e_step e.
Proof.
  induction os as [|o os IH]; intros e E E' H; [injection H as <-; eauto|]. cbn [sop_run] in H.
  destruct o as [x|mode p g|]; cbn [sop_step] in H.
  - destruct (extend (e :: E) x) as [E1|] eqn:X; [|discriminate]. unfold extend in X.
    destruct (Qle_bool (e_time x) 4); [injection X as <-; now apply IH in H|].
    destruct (last_entry (e :: E)); [|discriminate]. injection X as <-. now apply IH in H.
  - destruct (amend (e :: E) mode p g) as [E1|] eqn:X; [|discriminate]. unfold amend in X.
    destruct (rev (e :: E)) as [|l r] eqn:R; [discriminate|]. injection X as <-.
    assert (HE : e :: E = rev r ++ [l]) by (rewrite <- (rev_involutive (e :: E)), R; reflexivity).
    destruct (rev r) as [|e0 r0]; cbn in HE; injection HE as -> ->.
    + apply IH in H as (e' & F & -> & S). exists e', F. auto.
    + apply IH in H. exact H.
  - now apply IH in H.
Qed.
Lemma run_head ru os E : sop_run [] (SAdd ru :: os) = Some E -> exists e F, E = e :: F /\ e_step e = e_step ru.
Proof.
  cbn [sop_run sop_step]. unfold extend. destruct (Qle_bool (e_time ru) 4); cbn; [|discriminate]. apply head_kept.
Qed.
Lemma run_last os tl : forall E0 E, sop_run E0 (os ++ [SAdd tl]) = Some E -> exists r x, E = r ++ [x] /\ e_step x = e_step tl.
Proof.
  induction os as [|o os IH]; intros E0 E H; cbn [app sop_run] in H.
  - cbn [sop_step] in H. destruct (extend E0 tl) as [E1|] eqn:X; [|discriminate]. injection H as <-. unfold extend in X.
    destruct (Qle_bool (e_time tl) 4); [injection X as <-; eauto|]. destruct (last_entry E0) as [p|]; [|discriminate].
    injection X as <-. unfold cut. rewrite app_assoc. eexists _, _. split; [reflexivity|reflexivity].
  - destruct (sop_step E0 o) as [E1|]; [|discriminate]. eapply IH. exact H.
Qed.
Lemma blocks_programs m (bs : list block) ch : Forall2 (block_of m) bs ch -> concat (map b_prog bs) = map e_prog (concat ch).
Proof.
  induction 1 as [|b C bs ch B _ IH]; [reflexivity|]. cbn. rewrite map_app, IH. destruct B as (_ & _ & -> & _). reflexivity.
Qed.

Section C107.
  Variable axes : list (string * (string * motor)).
  Variable gen : list ppoint.
  Variables joined same : ppoint -> ppoint -> bool.
  Variable gap : ppoint -> ppoint -> list (Q * (string -> Q)).
  Variable interval : Q.
  Variables PP BATCH : nat.
  Hypothesis ND1 : NoDup (map fst axes).
  Hypothesis ND2 : NoDup (map (fun a => fst (snd a)) axes).
  Hypothesis HB : 0 < BATCH.
  Hypothesis HP : 0 < PP.
  Hypothesis Hgap : forall p q, joined p q = false -> gap p q <> [].

  Notation T := EVERY_POINT.
  Notation conf N c := (on_configure axes gen N joined same gap T interval PP BATCH c).
  Notation upds N st scans := (updates axes gen N joined same gap T interval PP BATCH st scans).
  Notation upd N st k := (update_step axes gen N joined same gap T interval PP BATCH st k).
  Notation Step := (fstep axes gen joined same gap T interval PP BATCH).
  Notation Run := (frun axes gen joined same gap T interval PP BATCH).
  Notation Hear := (hear axes gen joined same gap T interval PP BATCH).
  Notation Build := (build axes gen joined same gap T interval PP BATCH).
  Notation Begin := (begin_fly axes gen joined same gap T interval PP BATCH).

  (* ---- histories ---- *)
  (* Scans as in C13 to C16; the name of the PMAC part is its own. *)
  Definition fpolite (f : fly) (o : fop) : Prop :=
    match o with
    | FScan o => polite (f_scan f) o /\ match o with Report p _ => p <> "PMAC" | _ => True end
    | _ => True
    end.
  (* The PMAC does not stop before it was sent the trajectory to its end. *)
  Definition fed (f : fly) (o : fop) : Prop :=
    match o with FStop => pf_tail (f_prof f) = true /\ pf_time (f_prof f) = [] | _ => True end.
  Fixpoint along (P : fly -> fop -> Prop) (f : fly) (h : list fop) : Prop :=
    match h with [] => True | o :: r => P f o /\ along P (Step f o) r end.

  (* ---- a profile on its way ---- *)
  Definition of_prof (c N : nat) (p : prof) : Prop := exists st0 scans, conf N c = Ok st0 /\ upds N st0 scans = Ok p.

  Lemma upds_snoc N scans k : forall st st1 st2, upds N st scans = Ok st1 -> upd N st1 k = Ok st2 -> upds N st (scans ++ [k]) = Ok st2.
  Proof.
    induction scans as [|s scans IH]; intros st st1 st2 A B; cbn [app updates] in *.
    - injection A as ->. rewrite B. reflexivity.
    - destruct (upd N st s) as [st'|]; [|discriminate]. eapply IH; eauto.
  Qed.
  Lemma of_prof_upd c N p k p' : of_prof c N p -> upd N p k = Ok p' -> of_prof c N p'.
  Proof. intros (st0 & scans & A & B) U. exists st0, (scans ++ [k]). split; [exact A|]. eapply upds_snoc; eauto. Qed.

  (* The entries of a profile: those sent come first. *)
  Lemma prof_facts c N p : of_prof c N p -> c < N <= length gen -> exists E cur,
    pf_lookup p = map e_step E /\ progs E = programs p ++ map e_prog cur /\ pf_time p = map e_time cur /\ behind (Z.of_nat c) E /\
    (exists e F, E = e :: F /\ e_step e = Z.of_nat c) /\
    (pf_tail p = true -> pf_end p = N /\ exists r x, E = r ++ [x] /\ e_step x = Z.of_nat N) /\
    (pf_tail p = true -> pf_time p = [] -> sigs (programs p) = wanted_signals gen N c joined).
  Proof.
    intros (st0 & scans & A & B) [L HN].
    destruct (Pmac_Props.C42_every_point_in_order axes gen N c joined same gap interval PP BATCH ND1 ND2 HN HB HP L st0 scans p A B)
      as (p0 & ru & E & _ & RU & H & O).
    destruct RU as (_ & RP & RS & _). pose proof H as H0. destruct H as (ch & cur & HE & F2 & _ & HT & _ & _ & _ & HL).
    exists E, cur. assert (PG : progs E = programs p ++ map e_prog cur).
    { unfold progs, programs. rewrite HE, map_app, (blocks_programs _ _ _ F2). reflexivity. }
    assert (X : behind (Z.of_nat c) E /\ (exists e F, E = e :: F /\ e_step e = Z.of_nat c) /\
                (pf_tail p = true -> pf_end p = N /\ exists r x, E = r ++ [x] /\ e_step x = Z.of_nat N)).
    { destruct O as [(TF & _ & K & R)|(pN & tl & _ & TL & TT & EN & R)].
      - split; [eapply upto_behind; [exact HN| |exact RP|exact RS|exact R]; lia|]. split; [|rewrite TF; discriminate].
        unfold ideal_upto in R. apply run_head in R as (e & F & -> & S). exists e, F. split; [reflexivity|]. now rewrite S.
      - destruct TL as (_ & TP & TS & _). split; [eapply ideal_behind; [exact HN| |exact RP|exact RS|exact TP|exact TS|exact R]; lia|].
        split.
        + unfold ideal, ideal_upto in R. cbn [app] in R. apply run_head in R as (e & F & -> & S). exists e, F. split; [reflexivity|]. now rewrite S.
        + intros _. split; [exact EN|]. unfold ideal in R. apply run_last in R as (r & x & -> & S). exists r, x. split; [reflexivity|]. now rewrite S. }
    destruct X as (X1 & X2 & X3). repeat (split; [assumption|]). intros TT TE.
    destruct (Pmac_Props.C42_signals axes gen N c joined same gap interval PP BATCH ND1 ND2 HN HB HP L st0 scans p E Hgap A B TE H0) as [S _].
    rewrite <- S. unfold sigs, signals. fold (progs E). rewrite PG. rewrite TE in HT. destruct cur; [|discriminate]. cbn [map]. now rewrite app_nil_r.
  Qed.

  (* The step reported for a number of points. *)
  Lemma reported c N p k z : of_prof c N p -> c < N <= length gen -> reported_step p k = Some z ->
    (Z.of_nat c <= z <= Z.of_nat N)%Z /\ (k = 1 -> z = Z.of_nat c) /\
    (1 <= k <= length (programs p) -> (z <= Z.of_nat c + mids (firstn k (programs p)))%Z).
  Proof.
    intros O L R. pose proof O as (st0 & scans & A & B). destruct L as [L HN].
    destruct (Pmac_Props.C42_steps_reported axes gen N c joined same gap interval PP BATCH ND1 ND2 HN HB HP L st0 scans p A B) as [_ S].
    split; [apply (S k z R)|]. destruct (prof_facts c N p O (conj L HN)) as (E & cur & HL & PG & _ & BH & (e & F & HE & HS) & _).
    unfold reported_step in R. rewrite HL in R. split.
    - intros ->. rewrite HE in R. cbn in R. injection R as <-. exact HS.
    - intros K. rewrite nth_error_map in R. destruct (nth_error E (k - 1)) as [x|] eqn:X; [|discriminate]. injection R as <-.
      apply nth_error_split in X as (pre & post & HX & LX). specialize (BH pre x post HX).
      replace (firstn k (programs p)) with (progs (pre ++ [x])); [exact BH|].
      assert (Y : progs (pre ++ [x]) = firstn k (progs E)).
      { rewrite HX. unfold progs. rewrite !map_app. cbn [map].
        replace (map e_prog pre ++ e_prog x :: map e_prog post) with ((map e_prog pre ++ [e_prog x]) ++ map e_prog post) by now rewrite <- app_assoc.
        rewrite firstn_app, firstn_all2.
        - rewrite app_length, map_length. cbn. replace (k - (length pre + 1)) with 0 by lia. now rewrite app_nil_r.
        - rewrite app_length, map_length. cbn. lia. }
      rewrite Y, PG, firstn_app. replace (k - length (programs p)) with 0 by lia. now rewrite app_nil_r.
  Qed.
  (* The last point of the trajectory is the end of the run. *)
  Lemma reported_end c N p : of_prof c N p -> c < N <= length gen -> pf_tail p = true -> pf_time p = [] ->
    reported_step p (length (programs p)) = Some (Z.of_nat N) /\ 0 < length (programs p).
  Proof.
    intros O L TT TE. destruct (prof_facts c N p O L) as (E & cur & HL & PG & HC & _ & _ & X & _).
    destruct (X TT) as (_ & r & x & HE & HS). rewrite TE in HC. destruct cur; [|discriminate]. cbn in PG. rewrite app_nil_r in PG.
    rewrite <- PG. unfold reported_step, progs. rewrite HL, HE, map_length, !map_app, app_length. cbn [length map].
    replace (length r + 1 - 1) with (length (map e_step r)) by (rewrite map_length; lia).
    rewrite nth_error_app2 by lia. rewrite Nat.sub_diag. cbn. split; [now rewrite HS|lia].
  Qed.
  Lemma upd_still c N p k : of_prof c N p -> c < N <= length gen -> pf_tail p = true -> pf_time p = [] -> upd N p k = Ok p.
  Proof.
    intros O L TT TE. destruct (prof_facts c N p O L) as (E & cur & _ & _ & _ & _ & _ & X & _). destruct (X TT) as [EN _].
    unfold update_step. cbv zeta. rewrite EN, Nat.ltb_irrefl. cbn [andb]. rewrite EN, Nat.eqb_refl, TE. reflexivity.
  Qed.
  Lemma programs_more p p' more : pf_sent p' = pf_sent p ++ more -> exists l, programs p' = programs p ++ l.
  Proof. intros E. unfold programs. rewrite E, map_app, concat_app. eauto. Qed.

  (* ---- invariant; [st]: the PMAC is always fed ---- *)
  Section Inv.
  Variable st : Prop.
  Definition base (f : fly) (c : Z) : Prop :=
    (exists zs, scan_inv zs (f_scan f)) /\ s_total (f_scan f) = Z.of_nat (length gen) /\
    (0 <= c < s_configured (f_scan f))%Z /\ (s_configured (f_scan f) <= s_total (f_scan f))%Z /\
    f_upto f = Z.to_nat (s_configured (f_scan f)) /\ last_build (f_log f) = Some (c, s_configured (f_scan f) - c)%Z /\
    of_prof (Z.to_nat c) (f_upto f) (f_prof f).
  Definition moving (f : fly) (c : Z) : Prop :=
    f_scanned f <= length (programs (f_prof f)) /\ this_run (f_log f) = firstn (f_scanned f) (programs (f_prof f)) /\
    (s_completed (f_scan f) <= c + mids (this_run (f_log f)))%Z /\
    (st -> f_stopped f = true -> pf_tail (f_prof f) = true /\ pf_time (f_prof f) = [] /\ f_scanned f = length (programs (f_prof f))).
  Definition known (f : fly) (c : Z) : Prop :=
    exists z, dget "PMAC" (s_progress (f_scan f)) = Some z /\ (z <= c + mids (this_run (f_log f)))%Z.
  Definition shape (f : fly) : Prop :=
    match s_state (f_scan f) with
    | Finished => (exists zs, scan_inv zs (f_scan f)) /\ s_total (f_scan f) = Z.of_nat (length gen)
    | Armed | Paused => exists c, base f c /\ s_completed (f_scan f) = c /\ f_scanned f = 0 /\ f_stopped f = false
    | Running => exists c, base f c /\ moving f c /\ known f c
    end.
  Definition inv (f : fly) : Prop := f_fault f = true \/ shape f.

  Lemma upto_bound f c : base f c -> Z.to_nat c < f_upto f <= length gen.
  Proof. intros (_ & A & B & C & -> & _). lia. Qed.

  Lemma hear_inv f c k : base f c -> moving f c -> s_state (f_scan f) = Running -> (k = f_scanned f \/ k = 1) -> k <> 0 ->
    f_fault (Hear f k) = true \/
    (base (Hear f k) c /\ moving (Hear f k) c /\ known (Hear f k) c /\ s_state (f_scan (Hear f k)) = Running /\
     f_log (Hear f k) = f_log f /\ f_stopped (Hear f k) = f_stopped f /\ f_fault (Hear f k) = f_fault f /\
     f_scanned (Hear f k) = f_scanned f /\ s_configured (f_scan (Hear f k)) = s_configured (f_scan f) /\
     (st -> f_stopped f = true -> f_prof (Hear f k) = f_prof f)).
  Proof.
    intros BA MO S K K0. pose proof (upto_bound f c BA) as UB. unfold hear. destruct (Nat.eqb_spec k 0); [contradiction|]. cbn [is_every].
    destruct (reported_step (f_prof f) k) as [z|] eqn:R; [|left; reflexivity]. cbn [option_map].
    destruct (upd (f_upto f) (f_prof f) k) as [p'|] eqn:U; [|left; reflexivity]. right.
    destruct BA as ((zs & SI) & B1 & B2 & B3 & B4 & B5 & B6). destruct MO as (M1 & M2 & M3 & M4).
    destruct (reported _ _ _ _ _ B6 UB R) as (R1 & R2 & R3).
    assert (ZC : Z.of_nat (Z.to_nat c) = c) by lia. rewrite ZC in *.
    assert (ZN : Z.of_nat (f_upto f) = s_configured (f_scan f)) by (rewrite B4; lia). rewrite ZN in *.
    assert (RZ : (z <= c + mids (this_run (f_log f)))%Z).
    { destruct K as [K|K]; [|pose proof (mids_nonneg (this_run (f_log f))); rewrite (R2 K); lia]. subst k. rewrite M2. apply R3. lia. }
    assert (PO : polite (f_scan f) (Report "PMAC" z)) by (cbn [polite]; rewrite S; lia).
    pose proof (Scan_Proofs.scan_step_inv zs (f_scan f) (Report "PMAC" z) SI PO) as SI'.
    pose proof U as U0. apply upd_sent in U0 as [more U0]. apply programs_more in U0 as [l PL].
    assert (CM : (s_completed (scan_step (f_scan f) (Report "PMAC" z)) <= c + mids (this_run (f_log f)))%Z).
    { unfold scan_step. cbn [scan_try report_progress s_completed].
      pose proof (Trio_Props.min_le (dset "PMAC" z (s_progress (f_scan f))) z).
      destruct (Z.ltb_spec (s_completed (f_scan f)) (min_progress (dset "PMAC" z (s_progress (f_scan f))) z)); lia. }
    assert (PS : st -> f_stopped f = true -> p' = f_prof f).
    { intros ST SP. destruct (M4 ST SP) as (TT & TE & _). rewrite (upd_still _ _ _ k B6 UB TT TE) in U. now injection U as <-. }
    split; [|split; [|split]].
    - unfold base. cbn [f_scan f_upto f_log f_prof]. split; [exists zs; exact SI'|]. unfold scan_step. cbn [scan_try report_progress s_total s_configured].
      repeat (split; [assumption|]). eapply of_prof_upd; eauto.
    - unfold moving. cbn [f_scan f_log f_prof f_scanned f_stopped]. rewrite PL, app_length. split; [lia|]. split.
      + rewrite M2, firstn_app. replace (f_scanned f - length (programs (f_prof f))) with 0 by lia. now rewrite app_nil_r.
      + split; [exact CM|]. intros ST SP. destruct (M4 ST SP) as (TT & TE & SC). rewrite (PS ST SP) in *. split; [exact TT|]. split; [exact TE|].
        assert (length l = 0). { pose proof (f_equal (@length Z) PL) as Q. rewrite app_length in Q. lia. } lia.
    - unfold known. cbn [f_scan f_log]. exists z. unfold scan_step. cbn [scan_try report_progress s_progress]. rewrite dget_dset_same. auto.
    - cbn [f_scan f_log f_stopped f_fault f_scanned f_prof]. unfold scan_step. cbn [scan_try report_progress s_state s_configured].
      repeat (split; [first [assumption|reflexivity]|]). exact PS.
  Qed.

  Lemma build_inv f c n : (exists zs, scan_inv zs (f_scan f)) -> s_total (f_scan f) = Z.of_nat (length gen) ->
    (0 <= c)%Z -> (1 <= n)%Z -> (c + n = s_configured (f_scan f))%Z -> (s_configured (f_scan f) <= s_total (f_scan f))%Z ->
    (s_state (f_scan f) = Armed \/ s_state (f_scan f) = Paused) -> s_completed (f_scan f) = c -> inv (Build f c n).
  Proof.
    intros SI TO C0 N0 CN LE SS CO. unfold build. destruct (conf (Z.to_nat (c + n)) (Z.to_nat c)) as [p|] eqn:CF; [|left; reflexivity].
    right. unfold shape. cbn [f_scan f_scanned f_stopped].
    assert (X : exists c0, base (mkFly (f_scan f) (Z.to_nat (c + n)) p 0 false (f_fault f) (f_log f ++ [EPoint ZERO_PROGRAM; EBuild c n])) c0 /\
                s_completed (f_scan f) = c0 /\ 0 = 0 /\ false = false).
    { exists c. split; [|auto]. unfold base. cbn [f_scan f_upto f_log f_prof]. split; [exact SI|]. split; [exact TO|]. split; [lia|]. split; [exact LE|].
      split; [now rewrite CN|]. split.
      - change [EPoint ZERO_PROGRAM; EBuild c n] with ([EPoint ZERO_PROGRAM] ++ [EBuild c n]). rewrite app_assoc, build_app. f_equal. f_equal. lia.
      - exists p, []. auto. }
    destruct SS as [-> | ->]; exact X.
  Qed.
  Lemma build_facts f c n : f_scan (Build f c n) = f_scan f /\
    (f_fault (Build f c n) = true \/ f_log (Build f c n) = f_log f ++ [EPoint ZERO_PROGRAM; EBuild c n]).
  Proof. unfold build. destruct (conf _ _); cbn; auto. Qed.

  (* The state of the block. *)
  Lemma scan_of f : shape f -> (exists zs, scan_inv zs (f_scan f)) /\ s_total (f_scan f) = Z.of_nat (length gen).
  Proof.
    unfold shape. destruct (s_state (f_scan f)); [intros (c & B & _)|intros (c & B & _)|intros (c & B & _)|auto]; split; apply B.
  Qed.

  Notation Change := (change axes gen joined same gap T interval PP BATCH).
  Lemma change_pause f n : shape f -> polite (f_scan f) (Pause n) -> inv (Change f (Pause n)).
  Proof.
    intros SH P. destruct (scan_of f SH) as [(zs & SI) TO]. pose proof (Scan_Proofs.scan_step_inv zs (f_scan f) (Pause n) SI P) as SI'.
    unfold scan_step in SI'. unfold change. destruct (scan_try (f_scan f) (Pause n)) as [s'|] eqn:TR; [|right; exact SH]. cbn [scan_try] in TR.
    destruct f as [s up p sc sp fa lg]. cbn [f_scan f_upto f_prof f_scanned f_stopped f_fault f_log] in *.
    destruct (Z.ltb_spec n 0) as [NN|NN]; [destruct (s_state s) eqn:S|].
    4:{ unfold pause in TR. replace (n <? 0)%Z with true in TR by (symmetry; now apply Z.ltb_lt). rewrite S in TR. injection TR as <-.
        rewrite Whole_Props.fresh_none by reflexivity. right. exact SH. }
    all: rewrite Scan_Proofs.pause_eq in TR by (intros; try (rewrite S; discriminate); lia).
    all: destruct (Scan_Proofs.pause_target_ok zs s n SI P) as [T1 _]; [intros; try (rewrite S; discriminate); lia|].
    all: match type of TR with do_pause ?cc ?nx _ = _ =>
           destruct (Scan_Proofs.do_pause_spec zs s cc nx SI T1) as (q & j & _ & _ & Q & _ & D); rewrite D in TR; injection TR as <-;
           set (c := cc) in *; clearbody c end.
    all: erewrite Whole_Props.fresh_new by reflexivity; cbn [fold_left asked_of].
    all: destruct (Whole_Props.first_ask _ _ _ _ c (q - c)%Z SI' eq_refl (or_introl eq_refl)) as (G1 & G2 & G3); [lia|]; cbn in G3.
    all: apply build_inv; cbn [f_scan s_total s_configured s_state s_completed]; eauto; try lia.
    all: destruct (s_state s); auto.
  Qed.

  Lemma change_end f c : base f c -> s_state (f_scan f) = Running -> f_fault f = false ->
    let f' := Change f EndRun in
    inv f' /\ (f_fault f' = true \/
      (s_state (f_scan f') = Finished /\ s_configured (f_scan f) = s_total (f_scan f') /\ f_log f' = f_log f) \/
      (s_state (f_scan f') = Armed /\ s_completed (f_scan f') = s_configured (f_scan f) /\
       exists n, f_log f' = f_log f ++ [EPoint ZERO_PROGRAM; EBuild (s_configured (f_scan f)) n])).
  Proof.
    intros ((zs & SI) & TO & B2 & B3 & B4 & B5 & B6) S FA. cbv zeta.
    pose proof (Scan_Proofs.scan_step_inv zs (f_scan f) EndRun SI I) as SI'. unfold scan_step in SI'. unfold change.
    destruct (scan_try (f_scan f) EndRun) as [s'|] eqn:TR; cbn [scan_try] in TR.
    2:{ exfalso. unfold end_run in TR. rewrite S in TR.
        destruct (Z.ltb_spec (s_configured (f_scan f)) (s_total (f_scan f))) as [L|L]; [|discriminate].
        destruct (Scan_Proofs.end_run_ok zs (f_scan f) SI S) as [G|[n E]]; [lia|]. rewrite E in TR. discriminate. }
    unfold end_run in TR. rewrite S in TR. pose proof (Scan_Proofs.v_state _ _ SI) as V. rewrite S in V.
    destruct f as [s up p sc sp fa lg]. cbn [f_scan f_upto f_prof f_scanned f_stopped f_fault f_log] in *. subst fa.
    destruct (s_configured s <? s_total s)%Z eqn:L.
    - destruct (nth_error (p_steps (s_plan s)) (if p_use (s_plan s) then Datatypes.S (s_idx s) else s_idx s)) as [n|]; [|discriminate].
      injection TR as <-. rewrite V in *. erewrite Whole_Props.fresh_new by reflexivity. cbn [fold_left asked_of].
      destruct (Whole_Props.first_ask _ _ _ _ (s_configured s) n SI' eq_refl (or_introl eq_refl)) as (G1 & G2 & G3); [lia|]. cbn in G3.
      split.
      + apply build_inv; cbn [f_scan s_total s_configured s_state s_completed]; eauto; lia.
      + set (f1 := mkFly _ _ _ _ _ _ _). destruct (build_facts f1 (s_configured s) n) as [F1 [F2|F2]]; [left; exact F2|].
        right. right. rewrite F1, F2. cbn. eauto.
    - injection TR as <-. rewrite V in *. erewrite Whole_Props.fresh_new by reflexivity. cbn [fold_left asked_of f_scan f_log f_fault].
      apply Z.ltb_ge in L. split; [right; unfold shape; cbn; split; [exists zs; exact SI'|exact TO]|]. right. left. cbn. repeat split; lia.
  Qed.

  Lemma start_inv f o : f_fault f = false -> (o = StartRun \/ o = Resume) -> shape f ->
    let f' := start axes gen joined same gap T interval PP BATCH f o in
    inv f' /\ (f_fault f' = true \/ f' = f \/
      (s_state (f_scan f') = Running /\ f_log f' = f_log f ++ [ERun] /\ (s_state (f_scan f) = Armed \/ s_state (f_scan f) = Paused) /\
       s_configured (f_scan f') = s_configured (f_scan f))).
  Proof.
    intros FA O SH. cbv zeta. destruct (scan_of f SH) as [(zs & SI) TO].
    assert (P : polite (f_scan f) o) by (destruct O as [-> | ->]; exact I).
    pose proof (Scan_Proofs.scan_step_inv zs (f_scan f) o SI P) as SI'. unfold scan_step in SI'.
    unfold start. destruct (scan_try (f_scan f) o) as [s'|] eqn:TR; [|split; [right; exact SH|auto]].
    assert (X : (s_state (f_scan f) = Armed \/ s_state (f_scan f) = Paused) /\ s_state s' = Running /\ s_total s' = s_total (f_scan f) /\
                s_configured s' = s_configured (f_scan f) /\ s_completed s' = s_completed (f_scan f)).
    { destruct O as [-> | ->]; cbn [scan_try] in TR; [unfold start_run in TR|unfold resume in TR];
        destruct (s_state (f_scan f)); try discriminate; injection TR as <-; cbn; auto. }
    destruct X as (X1 & X2 & X3 & X4 & X5).
    assert (Y : exists c, base f c /\ s_completed (f_scan f) = c /\ f_scanned f = 0 /\ f_stopped f = false)
      by (unfold shape in SH; destruct X1 as [X1|X1]; rewrite X1 in SH; exact SH).
    destruct Y as (c & (_ & B1 & B2 & B3 & B4 & B5 & B6) & Y1 & Y2 & Y3).
    set (g := mkFly s' (f_upto f) (f_prof f) (f_scanned f) (f_stopped f) (f_fault f) (f_log f ++ [ERun])).
    assert (BG : base g c).
    { unfold base, g. cbn [f_scan f_upto f_log f_prof]. rewrite X3, X4, build_run. split; [eauto|]. repeat (split; [assumption|]). exact B6. }
    assert (MG : moving g c).
    { unfold moving, g. cbn [f_scan f_log f_prof f_scanned f_stopped]. rewrite run_new, Y2, Y3, X5, Y1. cbn. split; [lia|]. split; [reflexivity|].
      split; [lia|discriminate]. }
    destruct (hear_inv g c 1 BG MG X2 (or_intror eq_refl)) as [H|(H1 & H2 & H3 & H4 & H5 & H6 & H7 & H8 & H9 & _)]; [discriminate| |].
    - split; [left; exact H|left; exact H].
    - split; [right; unfold shape; rewrite H4; eauto|]. right. right. rewrite H4, H5, H9. cbn. auto.
  Qed.

  Lemma finish_inv f : f_fault f = false -> shape f -> s_state (f_scan f) = Running ->
    let f' := finish axes gen joined same gap T interval PP BATCH f in
    inv f' /\ (f_fault f' = true \/ f' = f \/
      (f_stopped f = true /\ exists c, base f c /\ moving f c /\
       ((s_state (f_scan f') = Finished /\ s_configured (f_scan f) = s_total (f_scan f') /\ f_log f' = f_log f) \/
        (s_state (f_scan f') = Armed /\ s_completed (f_scan f') = s_configured (f_scan f) /\
         exists n, f_log f' = f_log f ++ [EPoint ZERO_PROGRAM; EBuild (s_configured (f_scan f)) n])))).
  Proof.
    intros FA SH S. cbv zeta. unfold finish. destruct (f_stopped f) eqn:SP; cbn [negb]; [|split; [right; exact SH|auto]].
    destruct (Nat.eqb_spec (f_scanned f) (length (programs (f_prof f)))) as [E|E]; [|split; left; reflexivity].
    pose proof SH as SH0. unfold shape in SH. rewrite S in SH. destruct SH as (c & BA & MO & KN).
    destruct (Nat.eq_dec (f_scanned f) 0) as [Z0|Z0].
    - rewrite Z0. change (Hear f 0) with f. rewrite FA.
      destruct (change_end f c BA S FA) as [C1 C2]. split; [exact C1|]. destruct C2 as [C2|C2]; [auto|]. right. right. split; [reflexivity|]. eauto.
    - destruct (hear_inv f c _ BA MO S (or_introl eq_refl) Z0) as [H|(H1 & H2 & H3 & H4 & H5 & H6 & H7 & H8 & H9 & _)].
      + rewrite H. split; left; exact H.
      + rewrite H7, FA. destruct (change_end _ c H1 H4) as [C1 C2]; [congruence|]. split; [exact C1|]. destruct C2 as [C2|C2]; [auto|]. right. right.
        split; [reflexivity|]. exists c. rewrite H5, H9 in C2. auto.
  Qed.

  Lemma in_run_state f : in_run f = true <-> s_state (f_scan f) = Running.
  Proof. unfold in_run. destruct (s_state (f_scan f)); split; congruence. Qed.

  Lemma step_inv f o : inv f -> fpolite f o -> (st -> fed f o) -> inv (Step f o).
  Proof.
    intros IV P FD. unfold fstep. destruct (f_fault f) eqn:FA; [left; exact FA|]. destruct IV as [IV|SH]; [congruence|].
    destruct o as [o|k| |].
    - destruct P as [P NM]. destruct o as [| |part n|n|].
      + apply start_inv; auto.
      + destruct (in_run f) eqn:IR; [|right; exact SH]. apply finish_inv; auto. now apply in_run_state.
      + destruct (scan_of f SH) as [(zs & SI) TO]. pose proof (Scan_Proofs.scan_step_inv zs (f_scan f) _ SI P) as SI'. right.
        assert (SB : forall c, base f c -> base (mkFly (scan_step (f_scan f) (Report part n)) (f_upto f) (f_prof f) (f_scanned f) (f_stopped f) (f_fault f) (f_log f)) c).
        { intros c (_ & B1 & B2 & B3 & B4 & B5 & B6). unfold base. cbn [f_scan f_upto f_log f_prof]. split; [exists zs; exact SI'|].
          exact (conj B1 (conj B2 (conj B3 (conj B4 (conj B5 B6))))). }
        unfold shape in *. cbn [f_scan f_scanned f_stopped]. change (s_state (scan_step (f_scan f) (Report part n))) with (s_state (f_scan f)).
        destruct (s_state (f_scan f)) eqn:S.
        * destruct SH as (c & BA & C1 & C2 & C3). exists c. split; [apply SB; exact BA|]. split; [|auto]. rewrite <- C1.
          cbn [polite] in P. rewrite S in P. apply (Trio_Props.report_idle (f_scan f) part n P).
        * destruct SH as (c & BA & (M1 & M2 & M3 & M4) & z & K1 & K2). exists c. split; [apply SB; exact BA|].
          assert (DG : dget "PMAC" (dset part n (s_progress (f_scan f))) = Some z).
          { rewrite dget_dset_other; [exact K1|]. intros Q. apply NM. now symmetry. }
          split; [|exists z; split; [exact DG|exact K2]]. unfold moving. cbn [f_scan f_log f_prof f_scanned f_stopped]. split; [exact M1|]. split; [exact M2|].
          split; [|exact M4]. unfold scan_step. cbn [scan_try report_progress s_completed].
          pose proof (Trio_Props.min_entry _ n _ _ DG) as ME.
          destruct (Z.ltb_spec (s_completed (f_scan f)) (min_progress (dset part n (s_progress (f_scan f))) n)); lia.
        * destruct SH as (c & BA & C1 & C2 & C3). exists c. split; [apply SB; exact BA|]. split; [|auto]. rewrite <- C1.
          cbn [polite] in P. rewrite S in P. apply (Trio_Props.report_idle (f_scan f) part n P).
        * split; [exists zs; exact SI'|exact TO].
      + apply change_pause; auto.
      + apply start_inv; auto.
    - destruct (in_run f) eqn:IR; cbn [andb]; [|right; exact SH]. apply in_run_state in IR.
      destruct (f_stopped f) eqn:SP; cbn [andb negb]; [right; exact SH|].
      destruct (Nat.ltb_spec (f_scanned f) k) as [L1|L1]; cbn [andb]; [|right; exact SH].
      destruct (Nat.leb_spec k (length (programs (f_prof f)))) as [L2|L2]; [|right; exact SH]. right.
      unfold shape in *. cbn [f_scan]. rewrite IR in *. destruct SH as (c & BA & (M1 & M2 & M3 & M4) & z & K1 & K2).
      exists c. unfold base, moving, known in *. cbn [f_scan f_upto f_log f_prof f_scanned f_stopped]. rewrite build_points, run_points.
      split; [exact BA|].
      assert (ML : (mids (this_run (f_log f)) <= mids (this_run (f_log f) ++ firstn (k - f_scanned f) (skipn (f_scanned f) (programs (f_prof f)))))%Z).
      { rewrite mids_app. pose proof (mids_nonneg (firstn (k - f_scanned f) (skipn (f_scanned f) (programs (f_prof f))))). lia. }
      split; [|exists z; split; [exact K1|lia]].
      split; [exact L2|]. split; [rewrite M2; symmetry; apply firstn_split; lia|]. split; [lia|]. intros _ Q. discriminate.
    - destruct (in_run f) eqn:IR; [|right; exact SH]. apply in_run_state in IR.
      destruct (Nat.eq_dec (f_scanned f) 0) as [Z0|Z0]; [rewrite Z0; right; exact SH|].
      pose proof SH as SH0. unfold shape in SH0. rewrite IR in SH0. destruct SH0 as (c & BA & MO & KN).
      destruct (hear_inv f c _ BA MO IR (or_introl eq_refl) Z0) as [H|(H1 & H2 & H3 & H4 & _)]; [left; exact H|].
      right. unfold shape. rewrite H4. eauto.
    - destruct (in_run f) eqn:IR; cbn [andb]; [|right; exact SH]. apply in_run_state in IR.
      destruct (Nat.eqb_spec (f_scanned f) (length (programs (f_prof f)))) as [E|E]; [|right; exact SH]. right.
      unfold shape in *. cbn [f_scan]. rewrite IR in *. destruct SH as (c & BA & (M1 & M2 & M3 & M4) & KN).
      exists c. split; [exact BA|]. split; [|exact KN]. unfold moving. cbn [f_scan f_log f_prof f_scanned f_stopped].
      split; [exact M1|]. split; [exact M2|]. split; [exact M3|]. intros ST _. destruct (FD ST) as [A B]. auto.
  Qed.
  Lemma run_inv h : forall f, inv f -> along fpolite f h -> (st -> along fed f h) -> inv (Run f h).
  Proof.
    induction h as [|o h IH]; intros f IV P F; [exact IV|]. destruct P as [P1 P2]. cbn [frun fold_left].
    apply IH; [apply step_inv; auto; intros ST; exact (proj1 (F ST))|exact P2|intros ST; exact (proj2 (F ST))].
  Qed.
  Lemma begin_inv dims ax bps f : well_formed dims -> Forall (fun n => (0 < n)%Z) bps -> Z.of_nat (length gen) = gen_size dims ->
    Begin dims ax bps = Some f -> inv f.
  Proof.
    intros W B G H. unfold begin_fly in H. destruct (configure dims ax bps) as [s|] eqn:C; [|discriminate]. injection H as <-.
    destruct (Scan_Proofs.configure_inv _ _ _ _ W B C) as (zs & SI & Hc & Hs & _ & Ht & _).
    destruct (Scan_Proofs.inv_bounds _ _ SI) as (_ & B2 & _).
    apply build_inv; cbn [f_scan]; eauto; try lia.
  Qed.
  End Inv.

  (* ---- theorems ---- *)
  (* In any history the steps that the block shows as completed are not more than those whose middle the motors passed
     in this run, after those done before it; so it is with the steps that the PMAC part reported. *)
  Theorem C107_not_ahead : forall dims ax bps f0 h,
    well_formed dims -> Forall (fun n => (0 < n)%Z) bps -> Z.of_nat (length gen) = gen_size dims -> Begin dims ax bps = Some f0 ->
    along fpolite f0 h -> let f := Run f0 h in f_fault f = false -> s_state (f_scan f) = Running ->
    exists c n, last_build (f_log f) = Some (c, n) /\ (c + n = s_configured (f_scan f))%Z /\
      (s_completed (f_scan f) <= c + mids (this_run (f_log f)))%Z /\
      exists z, dget "PMAC" (s_progress (f_scan f)) = Some z /\ (z <= c + mids (this_run (f_log f)))%Z.
  Proof.
    intros dims ax bps f0 h W B G BE P f FA S.
    pose proof (run_inv False h f0 (begin_inv False dims ax bps f0 W B G BE) P (fun x => match x with end)) as IV. fold f in IV.
    destruct IV as [IV|SH]; [congruence|]. unfold shape in SH. rewrite S in SH.
    destruct SH as (c & (_ & _ & B2 & _ & _ & B5 & _) & (_ & _ & M3 & _) & KN).
    exists c, (s_configured (f_scan f) - c)%Z. split; [exact B5|]. split; [lia|]. split; [exact M3|exact KN].
  Qed.

  (* If the PMAC is fed in time: when it has stopped in a run, the points passed in the run gave a live and a mid signal
     for each step of the run, once and in order, and a dead one at the end of each row; and the step reported is the
     last of the run. *)
  Theorem C107_run : forall dims ax bps f0 h,
    well_formed dims -> Forall (fun n => (0 < n)%Z) bps -> Z.of_nat (length gen) = gen_size dims -> Begin dims ax bps = Some f0 ->
    along fpolite f0 h -> along fed f0 h ->
    let f := Run f0 h in f_fault f = false -> s_state (f_scan f) = Running -> f_stopped f = true ->
    exists c n, last_build (f_log f) = Some (c, n) /\ (c + n = s_configured (f_scan f))%Z /\
      sigs (this_run (f_log f)) = wanted_signals gen (Z.to_nat (c + n)) (Z.to_nat c) joined /\
      reported_step (f_prof f) (f_scanned f) = Some (s_configured (f_scan f)).
  Proof.
    intros dims ax bps f0 h W B G BE P FD f FA S SP.
    pose proof (run_inv True h f0 (begin_inv True dims ax bps f0 W B G BE) P (fun _ => FD)) as IV. fold f in IV.
    destruct IV as [IV|SH]; [congruence|]. unfold shape in SH. rewrite S in SH. destruct SH as (c & BA & (M1 & M2 & M3 & M4) & KN).
    pose proof (upto_bound f c BA) as UB. destruct BA as (_ & B1 & B2 & B3 & B4 & B5 & B6). destruct (M4 I SP) as (TT & TE & SC).
    exists c, (s_configured (f_scan f) - c)%Z. split; [exact B5|]. split; [lia|].
    replace (c + (s_configured (f_scan f) - c))%Z with (s_configured (f_scan f)) by lia. rewrite <- B4.
    destruct (prof_facts _ _ _ B6 UB) as (E & cur & _ & _ & _ & _ & _ & _ & SG). split.
    - rewrite M2, SC, firstn_all. apply SG; assumption.
    - rewrite SC. destruct (reported_end _ _ _ B6 UB TT TE) as [R _]. rewrite R, B4. f_equal. lia.
  Qed.

  (* The signals of runs that follow each other from step 0 up to step b. *)
  Inductive covered : nat -> list Z -> Prop :=
  | cov_none : covered 0 []
  | cov_run a b l : covered a l -> a < b -> covered b (l ++ wanted_signals gen b a joined).
  Lemma wanted_mids b a : a <= b -> mids (wanted_signals gen b a joined) = Z.of_nat (b - a).
  Proof.
    intros L. unfold wanted_signals. generalize (b - a) as k. intros k. generalize a as i. induction k as [|k IH]; intros i; [reflexivity|].
    cbn [seq flat_map]. rewrite mids_app, IH.
    assert (X : mids (match nth_error gen i, nth_error gen (S i) with
                      | Some p, Some q => if Nat.ltb (S i) b && joined p q then [1; 4]%Z else [1; 4; 2]%Z
                      | _, _ => [1; 4; 2]%Z end) = 1%Z).
    { destruct (nth_error gen i); [|reflexivity]. destruct (nth_error gen (S i)); [|reflexivity]. destruct (_ && _); reflexivity. }
    rewrite X. lia.
  Qed.
  Lemma covered_mids b l : covered b l -> mids l = Z.of_nat b.
  Proof. induction 1 as [|a b l C IH L]; [reflexivity|]. rewrite mids_app, IH, wanted_mids by lia. lia. Qed.

  Definition onward (o : fop) : Prop := match o with FScan (Pause _) => False | _ => True end.
  Definition counted (f : fly) : Prop :=
    match s_state (f_scan f) with
    | Armed => covered (Z.to_nat (s_completed (f_scan f))) (sigs (all_points (f_log f)))
    | Running => exists c n l, last_build (f_log f) = Some (c, n) /\ covered (Z.to_nat c) l /\
                   sigs (all_points (f_log f)) = l ++ sigs (this_run (f_log f))
    | Finished => covered (Z.to_nat (s_total (f_scan f))) (sigs (all_points (f_log f)))
    | Paused => False
    end.
  Lemma counted_step f o : inv True f -> fpolite f o -> fed f o -> onward o -> (f_fault f = true \/ counted f) ->
    f_fault (Step f o) = true \/ counted (Step f o).
  Proof.
    intros IV P FD ON [C|C]; [left; unfold fstep; rewrite C; exact C|]. destruct (f_fault f) eqn:FA; [left; unfold fstep; rewrite FA; exact FA|].
    destruct IV as [IV|SH]; [congruence|]. unfold fstep. rewrite FA. destruct o as [o|k| |].
    - destruct P as [P NM].
      assert (ST : forall o, (o = StartRun \/ o = Resume) -> f_fault (start axes gen joined same gap T interval PP BATCH f o) = true \/
                     counted (start axes gen joined same gap T interval PP BATCH f o)).
      { intros q Q. destruct (start_inv True f q FA Q SH) as [_ [X|[X|(X1 & X2 & X3 & X4)]]]; [auto|rewrite X; auto|].
        right. unfold counted in *. rewrite X1, X2, run_new, build_run, all_app, app_nil_r. destruct X3 as [X3|X3]; rewrite X3 in C; [|contradiction].
        unfold shape in SH. rewrite X3 in SH. destruct SH as (c & (_ & _ & _ & _ & _ & B5 & _) & Y1 & _).
        exists c, (s_configured (f_scan f) - c)%Z. eexists. split; [exact B5|]. rewrite Y1 in C. split; [exact C|]. now rewrite app_nil_r. }
      destruct o as [| |part n|n|]; [apply ST; auto| | |contradiction|apply ST; auto].
      + destruct (in_run f) eqn:IR; [|auto]. apply in_run_state in IR.
        destruct (finish_inv True f FA SH IR) as [_ [X|[X|(X1 & c & BA & MO & X2)]]]; [auto|rewrite X; auto|]. right.
        unfold counted in C. rewrite IR in C. destruct C as (c' & n & l & LB & CV & AL).
        pose proof (upto_bound f c BA) as UB. destruct BA as (_ & B1 & B2 & B3 & B4 & B5 & B6). destruct MO as (M1 & M2 & M3 & M4).
        rewrite B5 in LB. injection LB as <- <-. destruct (M4 I X1) as (TT & TE & SC).
        destruct (prof_facts _ _ _ B6 UB) as (E & cur & _ & _ & _ & _ & _ & _ & SG).
        assert (SR : sigs (this_run (f_log f)) = wanted_signals gen (f_upto f) (Z.to_nat c) joined)
          by (rewrite M2, SC, firstn_all; apply SG; assumption).
        assert (CN : covered (Z.to_nat (s_configured (f_scan f))) (sigs (all_points (f_log f))))
          by (rewrite AL, SR, <- B4; constructor; [exact CV|lia]).
        destruct X2 as [(S2 & T2 & L2)|(S2 & T2 & n2 & L2)]; unfold counted; rewrite S2, L2.
        * rewrite <- T2. exact CN.
        * rewrite T2, all_app, sigs_app. cbn. now rewrite app_nil_r.
      + right. unfold counted in *. cbn [f_scan f_log]. change (s_state (scan_step (f_scan f) (Report part n))) with (s_state (f_scan f)).
        destruct (s_state (f_scan f)) eqn:S; try exact C.
        replace (s_completed (scan_step (f_scan f) (Report part n))) with (s_completed (f_scan f)); [exact C|].
        cbn [polite] in P. rewrite S in P. symmetry. apply (Trio_Props.report_idle (f_scan f) part n P).
    - destruct (in_run f && negb (f_stopped f) && Nat.ltb (f_scanned f) k && Nat.leb k (length (programs (f_prof f)))) eqn:G; [|auto].
      right. apply andb_prop in G as [G _]. apply andb_prop in G as [G _]. apply andb_prop in G as [G _]. apply in_run_state in G.
      unfold counted in *. cbn [f_scan f_log]. rewrite G in *. destruct C as (c & n & l & LB & CV & AL). exists c, n, l.
      rewrite build_points, run_points, all_app, all_map, !sigs_app, AL, <- app_assoc. auto.
    - destruct (in_run f) eqn:IR; [|auto]. apply in_run_state in IR. destruct (Nat.eq_dec (f_scanned f) 0) as [Z0|Z0]; [rewrite Z0; auto|].
      unfold shape in SH. rewrite IR in SH. destruct SH as (c & BA & MO & KN).
      destruct (hear_inv True f c _ BA MO IR (or_introl eq_refl) Z0) as [H|(H1 & H2 & H3 & H4 & H5 & _)]; [auto|].
      right. unfold counted in *. rewrite H4, H5. rewrite IR in C. exact C.
    - destruct (in_run f && _); [|auto]. right. exact C.
  Qed.

  (* If the PMAC is fed in time, a scan that goes on to its end without a pause, in however many runs, passes all its
     points: the signals of all runs are those for the steps from 0 to the end, each once and in order. *)
  Theorem C107_all_points : forall dims ax bps f0 h,
    well_formed dims -> Forall (fun n => (0 < n)%Z) bps -> Z.of_nat (length gen) = gen_size dims -> Begin dims ax bps = Some f0 ->
    along fpolite f0 h -> along fed f0 h -> Forall onward h ->
    let f := Run f0 h in f_fault f = false -> s_state (f_scan f) = Finished ->
    covered (length gen) (sigs (all_points (f_log f))) /\ mids (all_points (f_log f)) = gen_size dims.
  Proof.
    intros dims ax bps f0 h W B G BE P FD ON f FA S.
    pose proof (begin_inv True dims ax bps f0 W B G BE) as IV0.
    assert (C0 : f_fault f0 = true \/ counted f0).
    { unfold begin_fly in BE. destruct (configure dims ax bps) as [s|] eqn:C; [|discriminate]. injection BE as <-.
      destruct (Scan_Proofs.configure_inv _ _ _ _ W B C) as (zs & SI & Hc & Hs & _ & Ht & _).
      set (g := mkFly _ _ _ _ _ _ _). destruct (build_facts g 0 (s_configured s)) as [F1 [F2|F2]]; [auto|]. right.
      unfold counted. rewrite F1, F2. cbn [f_scan f_log g app]. rewrite Hs, Hc. cbn. constructor. }
    assert (X : forall l x, inv True x -> along fpolite x l -> along fed x l -> Forall onward l -> (f_fault x = true \/ counted x) ->
              inv True (Run x l) /\ (f_fault (Run x l) = true \/ counted (Run x l))).
    { induction l as [|o l IH]; intros x IV PP0 FF OO CC; [auto|]. destruct PP0 as [P1 P2]. destruct FF as [F1 F2]. inversion OO; subst.
      cbn [frun fold_left]. apply IH; auto; [apply step_inv; auto|apply counted_step; auto]. }
    destruct (X h f0 IV0 P FD ON C0) as [IV [C|C]]; fold f in IV, C; [congruence|]. destruct IV as [IV|SH]; [congruence|].
    destruct (scan_of True f SH) as [_ TO]. unfold counted in C. rewrite S, TO in C. rewrite Nat2Z.id in C. split; [exact C|].
    rewrite <- mids_sigs, (covered_mids _ _ C). exact G.
  Qed.
End C107.
Print Assumptions C107_not_ahead.
Print Assumptions C107_run.
Print Assumptions C107_all_points.

(* Rows of three points on one axis, 8 entries in a block. *)
Definition ex_axes : list (string * (string * motor)) := [("x", ("a", mkMotor 10 5 100 (-100) true))].
Definition ex_pnt (c : Q) : ppoint := mkPt 2 (fun _ => c) (fun _ => c - (1 # 2))%Q (fun _ => c + (1 # 2))%Q.
Definition ex_row : list ppoint := [ex_pnt 1; ex_pnt 2; ex_pnt 3].
Definition ex_gen : list ppoint := ex_row ++ ex_row ++ ex_row ++ ex_row.
Definition ex_joined (p q : ppoint) : bool := Qeq_bool (pt_up p "x") (pt_low q "x").
Definition ex_gap (p q : ppoint) : list (Q * (string -> Q)) := [(1, fun _ : string => 2); (1, fun _ : string => 1 # 2)]%Q.
Definition ex_dims : list dim := [mk_dim ["y"] 4; mk_dim ["x"] 3].
Definition ex_begin (bps : list Z) : option fly :=
  begin_fly ex_axes ex_gen ex_joined (fun _ _ => true) ex_gap EVERY_POINT (1 # 100) 8 2 ex_dims ["x"; "y"] bps.
Definition ex_run (f : fly) (h : list fop) : fly :=
  frun ex_axes ex_gen ex_joined (fun _ _ => true) ex_gap EVERY_POINT (1 # 100) 8 2 f h.
Definition ex_one : list fop := [FScan StartRun; FMove 3; FHear; FScan (Report "DET" 1); FMove 9; FHear; FMove 16; FStop].
Definition ex_two : list fop := ex_one ++ [FScan EndRun] ++ ex_one ++ [FScan EndRun].
(* Two runs of six steps; and one that is paused in the first row, then resumed. *)
Example C107_ex :
  match ex_begin [6; 6]%Z with
  | Some f0 =>
      along ex_axes ex_gen ex_joined (fun _ _ => true) ex_gap (1 # 100) 8 2 fpolite f0 ex_two /\
      along ex_axes ex_gen ex_joined (fun _ _ => true) ex_gap (1 # 100) 8 2 fed f0 ex_two /\ Forall onward ex_two /\
      f_fault (ex_run f0 ex_two) = false /\ s_state (f_scan (ex_run f0 ex_two)) = Finished /\
      sigs (all_points (f_log (ex_run f0 ex_two))) =
        [1; 4; 1; 4; 1; 4; 2; 1; 4; 1; 4; 1; 4; 2; 1; 4; 1; 4; 1; 4; 2; 1; 4; 1; 4; 1; 4; 2]%Z /\
      gen_size ex_dims = 12%Z /\
      let f := ex_run f0 ex_one in
      f_stopped f = true /\ s_state (f_scan f) = Running /\ s_completed (f_scan f) = 1%Z /\
      reported_step (f_prof f) (f_scanned f) = Some 6%Z
  | None => False
  end.
Proof. vm_compute. repeat split; try discriminate. all: repeat constructor. Qed.
Example C107_ex_pause :
  match ex_begin [] with
  | Some f0 =>
      let h := [FScan StartRun; FMove 5; FHear; FScan (Pause (-1)); FScan Resume; FMove 7; FHear] in
      along ex_axes ex_gen ex_joined (fun _ _ => true) ex_gap (1 # 100) 8 2 fpolite f0 h /\
      let f := ex_run f0 h in
      f_fault f = false /\ s_state (f_scan f) = Running /\ s_completed (f_scan f) = 4%Z /\ last_build (f_log f) = Some (2, 10)%Z /\
      mids (this_run (f_log f)) = 2%Z
  | None => False
  end.
Proof. vm_compute. repeat split; try discriminate. all: try (intros [? ?]; discriminate). all: auto. Qed.
Example C107_ex_shape : well_formed ex_dims /\ Z.of_nat (length ex_gen) = gen_size ex_dims /\ NoDup (map fst ex_axes) /\
  NoDup (map (fun a => fst (snd a)) ex_axes) /\ forall p q, ex_joined p q = false -> ex_gap p q <> [].
Proof.
  split; [split; [repeat constructor; try discriminate|]|].
  - cbn. constructor; [intros [J|[]]; discriminate J|]. constructor; [intros []|constructor].
  - split; [reflexivity|]. split; [constructor; [intros []|constructor]|]. split; [constructor; [intros []|constructor]|]. discriminate.
Qed.

(* That it is fed in time is needed: where the PMAC comes to the end of the first block before the part has sent the
   next one, it stops there; on_run returns, and the block is Finished with 12 completed steps although the motors passed
   only three points, while the part has just sent the next block, that nobody executes. *)
Theorem C107_dry_refuted : exists f0 h, ex_begin [] = Some f0 /\
  along ex_axes ex_gen ex_joined (fun _ _ => true) ex_gap (1 # 100) 8 2 fpolite f0 h /\ Forall onward h /\
  let f := ex_run f0 h in f_fault f = false /\ s_state (f_scan f) = Finished /\ s_completed (f_scan f) = 12%Z /\
    mids (all_points (f_log f)) = 3%Z /\ dget "PMAC" (s_progress (f_scan f)) = Some 3%Z /\ length (programs (f_prof f)) = 16.
Proof.
  destruct (ex_begin []) as [f0|] eqn:E; [|vm_compute in E; discriminate].
  exists f0, [FScan StartRun; FMove 8; FStop; FScan EndRun]. split; [reflexivity|]. vm_compute in E. injection E as <-.
  vm_compute. repeat split; try discriminate. repeat constructor.
Qed.
Print Assumptions C107_dry_refuted.
