(** C48: a detector child keeps in step with its parent. *)
From Coq Require Import String Bool ZArith Lia List.
From Verif Require Import Base Scan_Model Scan_Spec Scan_Proofs Det_Model Det_Props Twin_Model.
Import ListNotations.
Local Open Scope Z_scope.
Local Open Scope list_scope.

(** ** Specification *)

(** The reports are of steps that exist, and pauses stay inside the run (as for C13-C17). *)
Definition polite_op (t : twin) (o : twin_op) : Prop :=
  match o with
  | TReport q n => polite (t_parent t) (Report q n)
  | TPause n => polite (t_parent t) (Pause n)
  | TChildReport q n => polite (t_child t) (Report q n)
  | _ => True
  end.
Fixpoint polite_twins (f : Z) (name : string) (t : twin) (h : list twin_op) : Prop :=
  match h with
  | [] => True
  | o :: r => polite_op t o /\
              match twin_step f name t o with Some t' => polite_twins f name t' r | None => True end
  end.

(** The child is ready for the frames of exactly the steps that the parent is ready for. *)
Definition in_step (f : Z) (p c : scan) : Prop :=
  s_configured c = f * s_configured p /\
  last_range (s_asks c) = (f * fst (last_range (s_asks p)), f * snd (last_range (s_asks p))).

(** The child is in step, or it has taken all the frames of the run that the parent is in and
    is waiting for the parent.  It runs only when the parent does. *)
Definition keeps_step (f : Z) (t : twin) : Prop :=
  let p := t_parent t in let c := t_child t in
  s_total c = f * s_total p /\ (s_state c = Running -> s_state p = Running /\ in_step f p c) /\
  (s_state p <> Running -> in_step f p c) /\
  (s_state p = Running -> in_step f p c /\ s_state c = Running \/
     s_completed c = f * s_configured p /\ s_state c <> Running).

(** No seek. *)
Definition is_pause (o : twin_op) : bool := match o with TPause _ => true | _ => false end.

(** ** Proof *)

Definition stat (f : Z) (p c : scan) : Prop :=
  s_total c = f * s_total p /\ p_use (s_plan c) = p_use (s_plan p) /\
  p_steps (s_plan c) = map (Z.mul f) (p_steps (s_plan p)) /\
  p_stops (s_plan c) = map (Z.mul f) (p_stops (s_plan p)).
Definition dyn (f : Z) (p c : scan) : Prop := s_idx c = s_idx p /\ in_step f p c.

Definition both (p c : sstate) : Prop :=
  match p, c with
  | Armed, Armed | Running, Running | Paused, Paused | Paused, Armed | Finished, Finished => True
  | _, _ => False
  end.

(** The child has ended the run that the parent is in. *)
Definition ahead (f : Z) (p c : scan) : Prop :=
  s_state p = Running /\ s_completed c = f * s_configured p /\
  exists p2, end_run p = Ok p2 /\ dyn f p2 c /\ s_state c = s_state p2.

Definition W (f : Z) (t : twin) : Prop :=
  (exists zs, inv zs (t_parent t)) /\ (exists zc, inv zc (t_child t)) /\
  stat f (t_parent t) (t_child t) /\
  ((dyn f (t_parent t) (t_child t) /\ both (s_state (t_parent t)) (s_state (t_child t))) \/
   ahead f (t_parent t) (t_child t)).

Lemma step_total : forall s o, (s_total (scan_step s o) = s_total s) /\ s_plan (scan_step s o) = s_plan s.
Proof.
  intros s o. unfold scan_step, scan_try. destruct o.
  - unfold start_run. destruct (s_state s); cbn; auto.
  - unfold end_run. destruct (s_state s); auto. destruct (_ <? _); [|cbn; auto].
    destruct (nth_error _ _); cbn; auto.
  - cbn. auto.
  - assert (D : forall t nx, let s' := match do_pause t nx s with Ok s' => s' | Err _ => s end in
      s_total s' = s_total s /\ s_plan s' = s_plan s).
    { intros t nx. cbv zeta. unfold do_pause. cbv zeta.
      set (f := if p_use (s_plan s) then _ else _). clearbody f. destruct f as [[i k]|]; cbn; auto. }
    unfold pause. destruct (n <? 0); destruct (s_state s); auto; apply D.
  - unfold resume. destruct (s_state s); cbn; auto.
Qed.

Lemma try_step : forall s o s', scan_try s o = Ok s' -> scan_step s o = s'.
Proof. intros s o s' H. unfold scan_step. now rewrite H. Qed.

Lemma stat_step_p : forall f p c o, stat f p c -> stat f (scan_step p o) c.
Proof. intros f p c o. unfold stat. destruct (step_total p o) as [-> ->]. auto. Qed.
Lemma stat_step_c : forall f p c o, stat f p c -> stat f p (scan_step c o).
Proof. intros f p c o. unfold stat. destruct (step_total c o) as [-> ->]. auto. Qed.

Lemma dyn_told : forall f n v p c, dyn f (report_progress n v p) c <-> dyn f p c.
Proof. intros. reflexivity. Qed.
Lemma ahead_report : forall f n v p c, ahead f p c -> ahead f (report_progress n v p) c.
Proof.
  intros f n v p c (S & C & p2 & E & D & T). split; [exact S|]. split; [exact C|].
  unfold end_run in *. cbn [s_state report_progress s_configured s_total s_plan s_idx s_next s_progress s_asks].
  rewrite S in *. destruct (s_configured p <? s_total p).
  - destruct (nth_error _ _) as [k|]; [|discriminate]. injection E as <-.
    eexists. split; [reflexivity|]. exact (conj D T).
  - injection E as <-. eexists. split; [reflexivity|]. exact (conj D T).
Qed.

Lemma inv_report : forall q n s, (exists zs, inv zs s) -> polite s (Report q n) ->
  exists zs, inv zs (report_progress q n s).
Proof.
  intros q n s (zs & I) P. exists zs. exact (scan_step_inv zs s (Report q n) I P).
Qed.

(** What the child tells its parent is polite. *)
Lemma inv_told : forall f name p c, 0 < f -> (exists zs, inv zs p) -> s_state p = Running ->
  s_completed c <= f * s_configured p -> exists zs, inv zs (told f name c p).
Proof.
  intros f name p c F I S C. apply inv_report; auto. cbn. rewrite S.
  apply Z.div_le_upper_bound; lia.
Qed.

Lemma completed_le : forall s, (exists zs, inv zs s) -> s_completed s <= s_configured s.
Proof. intros s (zs & I). destruct (inv_bounds _ _ I). lia. Qed.

(** Starting the child. *)
Lemma on_run_W : forall f name p c, 0 < f -> (exists zs, inv zs p) -> (exists zc, inv zc c) ->
  stat f p c -> dyn f p c -> s_state p = Running -> s_state c = Armed \/ s_state c = Paused ->
  exists t, on_run f name p c = Some t /\ W f t.
Proof.
  intros f name p c F Ip (zc & Ic) S D Hp Hc. unfold on_run.
  assert (X : exists o c', (match s_state c with Armed => start_run c | _ => resume c end) = Ok c' /\
    scan_try c o = Ok c' /\ (o = StartRun \/ o = Resume) /\ s_state c' = Running /\
    s_idx c' = s_idx c /\ s_configured c' = s_configured c /\ s_asks c' = s_asks c /\
    s_completed c' = s_completed c).
  { unfold scan_try, start_run, resume. destruct Hc as [Hc|Hc]; rewrite Hc.
    - exists StartRun. eexists. split; [reflexivity|]. cbn. auto 10.
    - exists Resume. eexists. split; [reflexivity|]. cbn. auto 10. }
  destruct X as (o & c' & -> & T & O & St & X1 & X2 & X3 & X4).
  eexists. split; [reflexivity|]. unfold W. cbn [t_parent t_child].
  assert (Ic' : inv zc c').
  { rewrite <- (try_step _ _ _ T). apply scan_step_inv; auto. destruct O as [-> | ->]; exact I. }
  destruct D as (D1 & D2 & D3). split; [|split; [|split]].
  - apply inv_told; auto. rewrite X4. pose proof (completed_le c (ex_intro _ zc Ic)). lia.
  - eauto.
  - rewrite <- (try_step _ _ _ T).
    change (stat f (scan_step p (Report name (s_completed (scan_step c o) / f))) (scan_step c o)).
    apply stat_step_p, stat_step_c; auto.
  - left. cbn [told report_progress s_state]. rewrite Hp, St. split; [|exact I].
    unfold dyn, in_step. cbn. rewrite X1, X2, X3. auto.
Qed.

Lemma end_run_scaled : forall f p c, 0 < f -> stat f p c -> dyn f p c -> s_state p = Running ->
  s_state c = Running -> (exists zs, inv zs p) -> (exists zs, inv zs c) ->
  exists p2 c2, end_run p = Ok p2 /\ end_run c = Ok c2 /\ dyn f p2 c2 /\ s_state c2 = s_state p2 /\
    s_completed c2 = f * s_configured p.
Proof.
  intros f p c F (S1 & S2 & S3 & S4) (D1 & D2 & D3) Hp Hc (zs & Ip) (zc & Ic).
  pose proof (v_state _ _ Ip) as Np. rewrite Hp in Np.
  pose proof (v_state _ _ Ic) as Nc. rewrite Hc in Nc.
  unfold end_run. rewrite Hp, Hc, S1, S2, S3, D2, D1.
  assert (L : (f * s_configured p <? f * s_total p) = (s_configured p <? s_total p)).
  { destruct (Z.ltb_spec (s_configured p) (s_total p)); [apply Z.ltb_lt | apply Z.ltb_ge]; nia. }
  rewrite S1, D2, L in Nc. rewrite <- Np in Nc. rewrite L.
  destruct (Z.ltb_spec (s_configured p) (s_total p)) as [B|B].
  - destruct (end_run_ok zs p Ip Hp) as [E|(n & E)]; [lia|].
    rewrite nth_error_map. rewrite E. cbn [option_map].
    eexists _, _. split; [reflexivity|]. split; [reflexivity|].
    unfold dyn, in_step. cbn. rewrite Nc. repeat split; auto. lia.
  - eexists _, _. split; [reflexivity|]. split; [reflexivity|].
    unfold dyn, in_step. cbn. rewrite Nc. repeat split; auto.
Qed.

Lemma scale1 : forall l, map (Z.mul 1) l = l.
Proof. induction l as [|a l IH]; cbn [map]; auto. rewrite IH. f_equal. lia. Qed.

Lemma plan_eq : forall p c, stat 1 p c -> s_plan c = s_plan p /\ s_total c = s_total p.
Proof.
  intros p c (S1 & S2 & S3 & S4). rewrite scale1 in S3, S4. split; [|lia].
  destruct (s_plan p), (s_plan c). cbn in *. congruence.
Qed.

Lemma stops_eq : forall zs zc p c, stat 1 p c -> inv zs p -> inv zc c -> totals 0 zs = totals 0 zc.
Proof.
  intros zs zc p c S Ip Ic. destruct (plan_eq _ _ S) as [E1 E2].
  rewrite <- (inv_stops _ _ Ip), <- (inv_stops _ _ Ic). unfold stops, run_sizes. now rewrite E1, E2.
Qed.

(** The same seek on both. *)
Lemma seek_both : forall zs zc p c t n1 n2 p', stat 1 p c -> inv zs p -> inv zc c ->
  do_pause t n1 p = Ok p' -> exists c', do_pause t n2 c = Ok c' /\ dyn 1 p' c' /\
    s_state p' = n1 /\ s_state c' = n2 /\ s_completed p' = t.
Proof.
  intros zs zc p c t n1 n2 p' S Ip Ic H. destruct (plan_eq _ _ S) as [E1 E2].
  unfold do_pause in *. rewrite E1, E2. cbv zeta in *.
  assert (Ix : p_use (s_plan p) = false -> s_idx c = s_idx p).
  { intros U. destruct (v_idx _ _ Ip) as (i & _ & A). destruct (v_idx _ _ Ic) as (j & _ & B).
    rewrite E1 in B. rewrite U in A, B. congruence. }
  destruct (p_use (s_plan p)) eqn:U.
  - destruct (get_breakpoint_index t (p_stops (s_plan p))) as [i|]; [|discriminate].
    destruct (nth_error (p_stops (s_plan p)) i) as [b|]; [|discriminate].
    destruct (steps_left t b) as [k|]; [|discriminate]. injection H as <-.
    eexists. split; [reflexivity|]. unfold dyn, in_step. cbn [s_idx s_configured s_asks s_state s_completed last_range fst snd].
    repeat split; try lia; f_equal; lia.
  - rewrite (Ix eq_refl). destruct (nth_error (p_steps (s_plan p)) (s_idx p)) as [b|]; [|discriminate].
    destruct (steps_left t b) as [k|]; [|discriminate]. injection H as <-.
    eexists. split; [reflexivity|]. unfold dyn, in_step. cbn [s_idx s_configured s_asks s_state s_completed last_range fst snd].
    repeat split; try lia; f_equal; lia.
Qed.

Lemma is_state_spec : forall a b, is_state a b = true <-> a = b.
Proof. destruct a, b; cbn; split; congruence. Qed.

Lemma pause_W : forall name t n, W 1 t -> polite (t_parent t) (Pause n) ->
  exists t', twin_step 1 name t (TPause n) = Some t' /\ W 1 t'.
Proof.
  intros name [p c] n ((zs & Ip) & (zc & Ic) & S & R) P. cbn [t_parent t_child] in *.
  cbn [twin_step t_parent t_child].
  destruct (is_state (s_state p) Finished && (n <? 0)) eqn:Q.
  { apply andb_true_iff in Q. destruct Q as [Q1 Q2]. apply is_state_spec in Q1.
    unfold pause. rewrite Q2, Q1. eexists. split; [reflexivity|]. unfold W. eauto 10. }
  assert (Nf : n < 0 -> s_state p <> Finished).
  { intros L E. apply andb_false_iff in Q. destruct Q as [Q|Q].
    - rewrite E in Q. discriminate.
    - apply Z.ltb_ge in Q. lia. }
  destruct (pause_target_ok zs p n Ip P Nf) as (T1 & T2).
  assert (Ep := pause_eq n p Nf). set (nx := match s_state p with Armed | Finished => Armed | _ => Paused end) in *.
  destruct (do_pause_spec zs p (pause_target n p) nx Ip T1) as (st & i & N1 & N2 & N3 & _ & Dp).
  set (p' := mk_scan _ _ _ _ _ _ _ _ _) in Dp. clearbody p'.
  assert (Et := Ep). rewrite Dp in Et. rewrite Et.
  assert (Ip' : inv zs p').
  { assert (X : scan_try p (Pause n) = Ok p') by (cbn; exact Et).
    rewrite <- (try_step _ _ _ X). apply scan_step_inv; auto. }
  set (nc := match s_state c with Armed | Finished => Armed | _ => Paused end).
  destruct (seek_both zs zc p c (pause_target n p) nx nc p' S Ip Ic Dp) as (c' & Dc & Dy & St1 & St2 & Cm).
  destruct (plan_eq _ _ S) as [E1 E2].
  assert (Hcf : s_state c = Running \/ s_state c = Paused ->
                s_configured c = s_configured p /\ (s_state p = Running \/ s_state p = Paused)).
  { intros Hc. destruct R as [((_ & D2 & _) & Bo)|(A1 & A2 & p2 & A3 & A4 & A5)].
    - split; [lia|]. destruct (s_state p), Hc as [Hc|Hc]; rewrite Hc in Bo; cbn in Bo; tauto.
    - assert (s_next p <> Running /\ s_next p <> Paused).
      { pose proof (v_state _ _ Ip) as V. rewrite A1 in V. rewrite V. destruct (s_configured p <? s_total p); split; intros Z0; discriminate Z0. }
      unfold end_run in A3. rewrite A1 in A3.
      assert (s_state p2 = s_next p).
      { destruct (_ <? _); [destruct (nth_error _ _); [|discriminate]|]; injection A3 as <-; reflexivity. }
      destruct Hc; intuition congruence. }
  assert (Npt : s_state c = Running \/ s_state c = Paused -> pause_target n p <> s_configured c).
  { intros Hc. destruct (Hcf Hc) as (C1 & C2). specialize (T2 C2). apply next_stop_In in T2. lia. }
  assert (Tc : pause_target (pause_target n p) c = pause_target n p).
  { unfold pause_target at 1. destruct (Z.ltb_spec (pause_target n p) 0); [lia|].
    destruct (Z.leb_spec (s_total c) (pause_target n p)); [lia|].
    destruct (s_state c) eqn:Sc; auto.
    - destruct (Z.eqb_spec (pause_target n p) (s_configured c)); auto. exfalso; apply Npt; auto.
    - destruct (Z.eqb_spec (pause_target n p) (s_configured c)); auto. exfalso; apply Npt; auto. }
  assert (Ec : pause (s_completed p') c = Ok c').
  { rewrite Cm. rewrite pause_eq by lia. rewrite Tc. exact Dc. }
  unfold on_seek. rewrite Ec. eexists. split; [reflexivity|].
  assert (Pc : polite c (Pause (s_completed p'))).
  { cbn. destruct (s_state c) eqn:Sc; auto.
    - destruct (Hcf (or_introl eq_refl)) as (C1 & C2). right. right. left. rewrite Cm, C1.
      rewrite (inv_stops _ _ Ic), <- (stops_eq zs zc p c S Ip Ic). auto.
    - destruct (Hcf (or_intror eq_refl)) as (C1 & C2). right. right. left. rewrite Cm, C1.
      rewrite (inv_stops _ _ Ic), <- (stops_eq zs zc p c S Ip Ic). auto. }
  assert (Xc : scan_try c (Pause (s_completed p')) = Ok c') by (cbn; exact Ec).
  assert (Xp : scan_try p (Pause n) = Ok p') by (cbn; exact Et).
  unfold W. cbn [t_parent t_child]. split; [eauto|]. split; [|split].
  - exists zc. rewrite <- (try_step _ _ _ Xc). apply scan_step_inv; auto.
  - rewrite <- (try_step _ _ _ Xc), <- (try_step _ _ _ Xp). apply stat_step_p, stat_step_c; auto.
  - left. split; auto. rewrite St1, St2. unfold nx, nc.
    destruct R as [(_ & Bo)|(A1 & _)].
    + destruct (s_state p), (s_state c); cbn in *; auto.
    + rewrite A1. destruct (s_state c); cbn; auto.
Qed.

Lemma twin_step_W : forall f name t o, 0 < f -> f = 1 \/ is_pause o = false -> W f t -> polite_op t o ->
  exists t', twin_step f name t o = Some t' /\ W f t'.
Proof.
  intros f name [p c] o F Fp Wt P. pose proof Wt as ((zs & Ip) & (zc & Ic) & S & R).
  cbn [t_parent t_child] in *.
  destruct o as [| | |q n|n|q n|]; cbn [twin_step t_parent t_child polite_op] in *.
  - (* TStart *)
    unfold start_run. destruct (s_state p) eqn:Sp; eauto.
    destruct R as [(D & Bo)|(A & _)]; [|congruence]. try rewrite Sp in Bo.
    set (p' := mk_scan _ _ _ _ _ _ _ _ _).
    assert (X : scan_try p StartRun = Ok p') by (cbn; unfold start_run; rewrite Sp; reflexivity).
    assert (Ip' : inv zs p') by (rewrite <- (try_step _ _ _ X); apply scan_step_inv; auto; exact I).
    apply on_run_W; eauto. destruct (s_state c); cbn in Bo; try contradiction; auto.
  - (* TResume *)
    unfold resume. destruct (s_state p) eqn:Sp; eauto.
    destruct R as [(D & Bo)|(A & _)]; [|congruence]. try rewrite Sp in Bo.
    set (p' := mk_scan _ _ _ _ _ _ _ _ _).
    assert (X : scan_try p Resume = Ok p') by (cbn; unfold resume; rewrite Sp; reflexivity).
    assert (Ip' : inv zs p') by (rewrite <- (try_step _ _ _ X); apply scan_step_inv; auto; exact I).
    apply on_run_W; eauto. destruct (s_state c); cbn in Bo; try contradiction; auto.
  - (* TEnd *)
    destruct (is_state (s_state c) Running) eqn:Q; eauto.
    destruct (end_run p) as [p2|] eqn:E; eauto.
    destruct R as [(D & Bo)|(A1 & A2 & p3 & A3 & A4 & A5)].
    + exfalso. unfold end_run in E. destruct (s_state p); try discriminate.
      destruct (s_state c); cbn in *; try contradiction; discriminate.
    + assert (p3 = p2) by congruence. subst p3.
      assert (X : scan_try p EndRun = Ok p2) by exact E.
      eexists. split; [reflexivity|]. unfold W. cbn [t_parent t_child].
      assert (Ip2 : inv zs p2) by (rewrite <- (try_step _ _ _ X); apply scan_step_inv; auto; exact I).
      split; [eauto|]. split; [eauto|]. split; [rewrite <- (try_step _ _ _ X); now apply stat_step_p|].
      left. split; auto. rewrite A5.
      assert (N : s_state p2 = Armed \/ s_state p2 = Finished).
      { pose proof (v_state _ _ Ip) as V. rewrite A1 in V. unfold end_run in E. rewrite A1 in E.
        destruct (s_configured p <? s_total p) eqn:L.
        - destruct (nth_error _ _); [|discriminate]. injection E as <-. cbn. auto.
        - injection E as <-. cbn. auto. }
      destruct N as [-> | ->]; exact I.
  - (* TReport *)
    eexists. split; [reflexivity|]. unfold W. cbn [t_parent t_child].
    split; [apply inv_report; eauto|]. split; [eauto|]. split; [exact (stat_step_p f p c (Report q n) S)|].
    destruct R as [R|R]; [left; exact R | right; now apply ahead_report].
  - (* TPause *)
    destruct Fp as [-> | Fp]; [|discriminate]. exact (pause_W name (mkTwin p c) n Wt P).
  - (* TChildReport *)
    eexists. split; [reflexivity|]. unfold W. cbn [t_parent t_child].
    assert (Ic' := inv_report q n c (ex_intro _ zc Ic) P).
    assert (S' : stat f p (report_progress q n c)) by exact (stat_step_c f p c (Report q n) S).
    assert (R' : (dyn f p (report_progress q n c) /\ both (s_state p) (s_state (report_progress q n c))) \/
                 ahead f p (report_progress q n c)).
    { destruct R as [R|(A1 & A2 & A3)]; [left; exact R|right]. split; [exact A1|]. split; [|exact A3].
      assert (Nr : s_state c <> Running).
      { destruct A3 as (p2 & A3 & _ & A5). unfold end_run in A3. rewrite A1 in A3.
        pose proof (v_state _ _ Ip) as V. rewrite A1 in V.
        destruct (s_configured p <? s_total p).
        - destruct (nth_error _ _); [|discriminate]. injection A3 as <-. cbn in A5. congruence.
        - injection A3 as <-. cbn in A5. congruence. }
      cbn in P |- *. pose proof (min_progress_le (dset q n (s_progress c)) n) as ML.
      destruct (Z.ltb_spec (s_completed c) (min_progress (dset q n (s_progress c)) n)); [|exact A2].
      destruct (s_state c); try congruence; lia. }
    destruct (is_state (s_state p) Running) eqn:Q.
    + apply is_state_spec in Q.
      assert (Le : s_completed (report_progress q n c) <= f * s_configured p).
      { destruct R' as [((_ & D & _) & _)|(_ & A & _)]; [|lia].
        rewrite <- D. now apply completed_le. }
      split; [apply inv_told; eauto|]. split; [exact Ic'|].
      split; [exact (stat_step_p f p _ (Report name _) S')|].
      destruct R' as [R'|R']; [left; exact R' | right; now apply ahead_report].
    + split; [eauto|]. split; [exact Ic'|]. split; [exact S'|exact R'].
  - (* TChildEnd *)
    destruct (end_run c) as [c2|] eqn:E; eauto.
    assert (Sc : s_state c = Running) by (unfold end_run in E; destruct (s_state c); congruence).
    destruct R as [(D & Bo)|(A1 & _ & p2 & A3 & _ & A5)].
    2:{ exfalso. unfold end_run in A3. rewrite A1 in A3.
        pose proof (v_state _ _ Ip) as V. rewrite A1 in V.
        destruct (s_configured p <? s_total p).
        - destruct (nth_error _ _); [|discriminate]. injection A3 as <-. cbn in A5. congruence.
        - injection A3 as <-. cbn in A5. congruence. }
    assert (Sp : s_state p = Running).
    { rewrite Sc in Bo. destruct (s_state p); cbn in Bo; tauto. }
    destruct (end_run_scaled f p c F S D Sp Sc (ex_intro _ zs Ip) (ex_intro _ zc Ic))
      as (p2 & c3 & E1 & E2 & D2 & St & Cm).
    assert (c3 = c2) by congruence. subst c3.
    rewrite Sp. cbn [is_state]. eexists. split; [reflexivity|]. unfold W. cbn [t_parent t_child].
    assert (X : scan_try c EndRun = Ok c2) by exact E.
    assert (S' : stat f p c2) by (rewrite <- (try_step _ _ _ X); now apply stat_step_c).
    split; [apply inv_told; eauto; lia|].
    split; [exists zc; rewrite <- (try_step _ _ _ X); apply scan_step_inv; auto; exact I|].
    split; [exact (stat_step_p f p _ (Report name _) S')|].
    right. apply ahead_report. split; [exact Sp|]. split; [exact Cm|]. eauto.
Qed.

Lemma twin_run_W : forall f name h t, 0 < f -> f = 1 \/ forallb (fun o => negb (is_pause o)) h = true ->
  W f t -> polite_twins f name t h -> exists t', twin_run f name t h = Some t' /\ W f t'.
Proof.
  intros f name; induction h as [|o r IH]; intros t F Fp Wt P; cbn [twin_run]; eauto.
  destruct P as [P1 P2]. destruct (twin_step_W f name t o F) as (t' & E & W'); auto.
  - destruct Fp as [Fp|Fp]; auto. right. cbn in Fp. apply andb_true_iff in Fp.
    destruct Fp as [Fp _]. now destruct (is_pause o).
  - rewrite E in P2 |- *. apply IH; auto. destruct Fp as [Fp|Fp]; auto. right.
    cbn in Fp. apply andb_true_iff in Fp. tauto.
Qed.

(** What W says to a user. *)
Lemma W_says : forall f t, W f t -> keeps_step f t.
Proof.
  intros f t ((zs & Ip) & (zc & Ic) & (S & _) & R). unfold keeps_step. cbv zeta.
  split; [exact S|].
  destruct R as [((_ & D) & Bo)|(A1 & A2 & p2 & A3 & _ & A5)].
  - destruct (s_state (t_parent t)), (s_state (t_child t)); cbn in Bo; try contradiction;
      repeat split; try tauto; try discriminate; auto; try (exact (proj1 D)); try (exact (proj2 D)).
  - assert (N : s_state (t_child t) <> Running).
    { unfold end_run in A3. rewrite A1 in A3. pose proof (v_state _ _ Ip) as V. rewrite A1 in V.
      destruct (s_configured (t_parent t) <? s_total (t_parent t)).
      + destruct (nth_error _ _); [|discriminate]. injection A3 as <-. cbn in A5. congruence.
      + injection A3 as <-. cbn in A5. congruence. }
    repeat split; try tauto.
Qed.

(** ** One frame per step *)

Lemma start_W1 : forall dims axes bps s, well_formed dims -> Forall (fun n => 0 < n) bps ->
  configure dims axes bps = Ok s -> W 1 (mkTwin s s).
Proof.
  intros dims axes bps s Wf B C.
  destruct (configure_inv _ _ _ _ Wf B C) as (zs & Iv & _ & St & _).
  unfold W. cbn [t_parent t_child]. split; [eauto|]. split; [eauto|]. split.
  - unfold stat. rewrite !scale1. repeat split; lia.
  - left. rewrite St. split; [|exact I]. unfold dyn, in_step. repeat split; try lia.
    rewrite !Z.mul_1_l. now destruct (last_range (s_asks s)).
Qed.

(** With one frame per step the child never fails and keeps in step, over every history of runs,
    pauses, seeks and breakpoints. *)
Theorem C48_one_frame : forall axis name dims axes bps s h, well_formed dims ->
  Forall (fun n => 0 < n) bps -> configure dims axes bps = Ok s ->
  exists c, child_configure axis 1 dims axes bps = Ok c /\
  (polite_twins 1 name (mkTwin s c) h ->
   exists t, twin_run 1 name (mkTwin s c) h = Some t /\ keeps_step 1 t).
Proof.
  intros axis name dims axes bps s h Wf B C. exists s. split; [exact C|]. intros P.
  destruct (twin_run_W 1 name h (mkTwin s s)) as (t & E & Wt); auto; try lia.
  - eapply start_W1; eauto.
  - exists t. split; auto. now apply W_says.
Qed.
Print Assumptions C48_one_frame.

(** ** Several frames per step *)

Lemma smem_app : forall a l1 l2, smem a (l1 ++ l2) = smem a l1 || smem a l2.
Proof. intros. unfold smem. now rewrite existsb_app. Qed.

Lemma smem_In : forall a l, smem a l = true <-> In a l.
Proof.
  intros a l. unfold smem. rewrite existsb_exists. split.
  - intros (b & H & E). apply String.eqb_eq in E. congruence.
  - intros H. exists a. split; auto. apply String.eqb_refl.
Qed.

Lemma sremove_none : forall a l, ~ In a l -> sremove a l = l.
Proof.
  intros a l; induction l as [|b r IH]; cbn; intros H; auto.
  destruct (String.eqb_spec b a) as [e|N]; cbn; [exfalso; auto|]. f_equal. apply IH. tauto.
Qed.
Lemma sremove_app : forall a l1 l2, sremove a (l1 ++ l2) = sremove a l1 ++ sremove a l2.
Proof. intros. unfold sremove. apply filter_app. Qed.

(** Taking the axes of the last dimension away also takes away the axis of the frames. *)
Lemma consume_frames : forall fr ax axes rest, ~ In fr ax -> ~ In fr axes ->
  consume ax axes = Ok rest -> consume (ax ++ [fr]) (axes ++ [fr]) = Ok rest.
Proof.
  intros fr ax; induction ax as [|a r IH]; intros axes rest N1 N2 H; cbn [consume app] in *.
  - injection H as <-. rewrite smem_app.
    assert (smem fr [fr] = true) as -> by (apply smem_In; cbn; auto).
    rewrite orb_true_r. rewrite sremove_app, sremove_none by auto.
    unfold sremove. cbn. rewrite String.eqb_refl. cbn. now rewrite app_nil_r.
  - destruct (smem a axes) eqn:E; [|discriminate]. rewrite smem_app, E. cbn [orb].
    rewrite sremove_app. rewrite (sremove_none a [fr]).
    + apply IH; auto.
      * intros X. apply N1. now right.
      * intros X. unfold sremove in X. apply filter_In in X. tauto.
    + cbn. intros [->|[]]. apply N1. now left.
Qed.

Lemma inner_mul : forall ds axes k f v, inner_steps ds axes k = Ok v ->
  inner_steps ds axes (k * f) = Ok (v * f).
Proof.
  induction ds as [|d r IH]; intros axes k f v H; cbn [inner_steps] in *.
  - injection H as <-. reflexivity.
  - destruct (d_axes d) as [|a ax] eqn:Ea, axes as [|b bx]; try (injection H as <-; reflexivity);
      (destruct (consume _ _) as [rest|]; [|discriminate]);
      replace (k * f * d_size d) with (k * d_size d * f) by lia; now apply IH.
Qed.

Lemma gen_size_app : forall a b, gen_size (a ++ b) = gen_size a * gen_size b.
Proof.
  induction a as [|d r IH]; intros b; [change (gen_size []) with 1; cbn [app]; lia|].
  cbn [app]. unfold gen_size in *. cbn [fold_right]. rewrite IH. lia.
Qed.

Lemma child_dims_last : forall axis f ds d,
  child_dims axis f (ds ++ [d]) = ds ++ [mk_dim (d_axes d ++ [axis]) (d_size d * f)].
Proof. intros. unfold child_dims. rewrite rev_app_distr. cbn. now rewrite rev_involutive. Qed.

Lemma configure_scaled : forall axis f ds d axes s, 1 < f -> axes <> [] -> d_axes d <> [] ->
  ~ In axis axes -> ~ In axis (d_axes d) ->
  configure (ds ++ [d]) axes [] = Ok s ->
  exists k, s = mk_scan (gen_size (ds ++ [d])) (mk_plan [k] false []) 0 k 0 Armed Armed [] [AConfigure 0 k] /\
  child_configure axis f (ds ++ [d]) axes [] =
    Ok (mk_scan (f * gen_size (ds ++ [d])) (mk_plan [f * k] false []) 0 (f * k) 0 Armed Armed [] [AConfigure 0 (f * k)]).
Proof.
  intros axis f ds d axes s F Na Nd N1 N2 H. unfold child_configure.
  destruct (Z.ltb_spec 1 f); [|lia]. rewrite child_dims_last. unfold configure, get_steps_per_run in *.
  rewrite rev_app_distr in H |- *. cbn [rev app inner_steps] in *.
  destruct (d_axes d) as [|a ax] eqn:Ea; [contradiction|].
  destruct axes as [|b bx]; [contradiction|].
  destruct (consume (a :: ax) (b :: bx)) as [rest|] eqn:Ec; [|discriminate].
  destruct (inner_steps (rev ds) rest (1 * d_size d)) as [k|] eqn:Ei; [|discriminate].
  cbn [nth_error p_steps] in H. injection H as <-. exists k. split; [reflexivity|].
  cbn [d_axes d_size].
  pose proof (consume_frames axis _ _ _ N2 N1 Ec) as Hc.
  cbn [app] in Hc |- *. rewrite Hc.
  replace (1 * (d_size d * f)) with (1 * d_size d * f) by lia.
  rewrite (inner_mul _ _ _ f _ Ei). cbn [nth_error p_steps].
  rewrite !gen_size_app. unfold gen_size at 2. cbn [fold_right d_size].
  f_equal. unfold gen_size at 3. cbn [fold_right].
  replace (k * f) with (f * k) by lia. f_equal. lia.
Qed.

Lemma well_formed_child : forall axis f ds d, 1 < f -> well_formed (ds ++ [d]) ->
  (forall x, In x (ds ++ [d]) -> ~ In axis (d_axes x)) ->
  well_formed (ds ++ [mk_dim (d_axes d ++ [axis]) (d_size d * f)]).
Proof.
  intros axis f ds d F (W1 & W2) N. rewrite Forall_app in W1. destruct W1 as [W1 W3].
  inversion W3 as [|x y (X1 & X2) Y]; subst. split.
  - rewrite Forall_app. split; auto. constructor; auto. cbn. split; [nia|]. destruct (d_axes d); discriminate.
  - rewrite map_app, concat_app in W2 |- *. cbn in *. rewrite app_nil_r in *. rewrite app_assoc.
    apply (NoDup_Add (Add_app axis (concat (map d_axes ds) ++ d_axes d) [])).
    rewrite app_nil_r. split; auto. intros Hz. apply in_app_or in Hz. destruct Hz as [Hz|Hz].
    + apply in_concat in Hz. destruct Hz as (l & Hl & Hz). apply in_map_iff in Hl.
      destruct Hl as (x & <- & Hx). apply (N x); auto. apply in_or_app. auto.
    + apply (N d); auto. apply in_or_app. cbn. auto.
Qed.

(** With several frames per step the child also keeps in step, if there are no breakpoints and
    no seeks, and the scan moves an axis of its fastest dimension (or it would not move at all:
    axes <> []). *)
Theorem C48_frames_without_seek : forall axis name f dims axes s h, 1 < f -> well_formed dims ->
  dims <> [] -> axes <> [] -> ~ In axis axes -> (forall d, In d dims -> ~ In axis (d_axes d)) ->
  configure dims axes [] = Ok s -> forallb (fun o => negb (is_pause o)) h = true ->
  exists c, child_configure axis f dims axes [] = Ok c /\
  (polite_twins f name (mkTwin s c) h ->
   exists t, twin_run f name (mkTwin s c) h = Some t /\ keeps_step f t).
Proof.
  intros axis name f dims axes s h F Wf Nd Na N1 N2 C Hp.
  destruct (exists_last Nd) as (ds & d & ->).
  assert (Nx : d_axes d <> []).
  { destruct Wf as (W1 & _). rewrite Forall_forall in W1.
    apply (W1 d). apply in_or_app. cbn. auto. }
  destruct (configure_scaled axis f ds d axes s F Na Nx N1) as (k & Es & Ec); auto.
  { apply N2. apply in_or_app. cbn. auto. }
  eexists. split; [exact Ec|]. intros P.
  destruct (configure_inv _ _ _ _ Wf (Forall_nil _) C) as (zs & Iv & _).
  assert (Cc := Ec). unfold child_configure in Cc. destruct (Z.ltb_spec 1 f); [|lia].
  rewrite child_dims_last in Cc.
  destruct (configure_inv _ _ _ _ (well_formed_child axis f ds d F Wf N2) (Forall_nil _) Cc) as (zc & Ic & _).
  edestruct (twin_run_W f name h) as (t & E & Wt); [lia|right; exact Hp| |exact P|].
  - unfold W. cbn [t_parent t_child]. split; [eauto|]. split; [eauto|]. rewrite Es. split.
    + unfold stat. cbn. auto.
    + left. split; [|exact I]. unfold dyn, in_step. cbn [s_idx s_configured s_asks last_range fst snd].
      repeat split. f_equal. lia.
  - exists t. split; auto. now apply W_says.
Qed.
Print Assumptions C48_frames_without_seek.

(** Two rows of 10 steps, five frames per step, a software run of each row. *)
Definition ex_dims : list dim := [mk_dim ["y"%string] 2; mk_dim ["x"%string] 10].
Definition get_scan (r : result scan_err scan) : scan :=
  match r with Ok s => s | Err _ => mk_scan 0 (mk_plan [] false []) 0 0 0 Finished Finished [] [] end.
Definition ex_twin (f : Z) (bps : list Z) : twin :=
  mkTwin (get_scan (configure ex_dims ["x"%string] bps))
         (get_scan (child_configure "det" f ex_dims ["x"%string] bps)).
Example C48_ex_frames :
  let h := [TStart; TChildReport "drv" 23; TReport "pmac" 6; TChildReport "drv" 50; TChildEnd;
            TReport "pmac" 10; TEnd; TStart] in
  forallb (fun o => negb (is_pause o)) h = true /\ polite_twins 5 "DET" (ex_twin 5 []) h /\
  match twin_run 5 "DET" (ex_twin 5 []) (firstn 3 h) with
  | Some t => s_completed (t_parent t) = 4 /\ s_completed (t_child t) = 23
  | None => False end /\
  match twin_run 5 "DET" (ex_twin 5 []) h with
  | Some t => last_range (s_asks (t_parent t)) = (10, 10) /\ last_range (s_asks (t_child t)) = (50, 50)
  | None => False end.
Proof. cbv zeta. split; [reflexivity|]. vm_compute. repeat split; discriminate. Qed.

(** With one frame: paused at step 4 while the child had taken all its frames already. *)
Example C48_ex_one :
  let h := [TStart; TReport "pmac" 4; TChildReport "drv" 5; TChildEnd; TPause 3; TResume] in
  polite_twins 1 "DET" (ex_twin 1 [5; 5]) h /\
  match twin_run 1 "DET" (ex_twin 1 [5; 5]) [TStart; TChildReport "drv" 5; TChildEnd; TPause 3] with
  | Some t => last_range (s_asks (t_parent t)) = (3, 2) /\ last_range (s_asks (t_child t)) = (3, 2) /\
              s_state (t_parent t) = Paused /\ s_state (t_child t) = Armed
  | None => False end.
Proof. cbv zeta. split; vm_compute; repeat split; try discriminate; auto. Qed.

(** A pause with five frames per step: the parent goes back to step 4, the child to frame 4
    instead of frame 20, and it asks for 46 frames where 30 come. *)
Theorem C48_seek_refuted : exists f name t h t', 1 < f /\ polite_twins f name t h /\
  twin_run f name t h = Some t' /\ W f t /\ s_state (t_parent t') = Paused /\
  last_range (s_asks (t_parent t')) = (4, 6) /\ last_range (s_asks (t_child t')) = (4, 46) /\
  ~ keeps_step f t'.
Proof.
  exists 5, "DET"%string, (ex_twin 5 []), [TStart; TChildReport "drv" 22; TPause (-1)].
  assert (Wf : well_formed ex_dims).
  { split; [repeat constructor; discriminate|]. cbn. repeat constructor; cbn; intuition discriminate. }
  eexists. split; [lia|]. split; [vm_compute; repeat split; try discriminate; auto|].
  split; [vm_compute; reflexivity|]. split.
  - unfold ex_twin.
    destruct (configure_inv ex_dims ["x"%string] [] (get_scan (configure ex_dims ["x"%string] [])) Wf
                (Forall_nil _) eq_refl) as (zs & Iv & _).
    destruct (configure_inv (child_dims "det" 5 ex_dims) ["x"%string; "det"%string] []
                (get_scan (child_configure "det" 5 ex_dims ["x"%string] []))) as (zc & Ic & _).
    + split; [repeat constructor; discriminate|]. cbn. repeat constructor; cbn; intuition discriminate.
    + constructor.
    + reflexivity.
    + split; [eauto|]. split; [eauto|]. split; [vm_compute; auto|]. left. vm_compute. auto.
  - split; [reflexivity|]. split; [reflexivity|]. split; [reflexivity|].
    intros (_ & _ & K & _). assert (K1 := K ltac:(let X := fresh in intros X; vm_compute in X; discriminate X)).
    destruct K1 as [_ K1]. vm_compute in K1. discriminate.
Qed.
Print Assumptions C48_seek_refuted.

(** Breakpoints are given to the child as they are: with breakpoints 5, 5 a run of the parent is
    5 steps, and the child with five frames per step takes 5 frames in it. *)
Theorem C48_breakpoints_refuted : exists f dims axes bps s c, 1 < f /\ well_formed dims /\
  configure dims axes bps = Ok s /\ child_configure "det" f dims axes bps = Ok c /\
  last_range (s_asks s) = (0, 5) /\ last_range (s_asks c) = (0, 5) /\
  p_steps (s_plan s) = [5; 5; 5; 5] /\ p_steps (s_plan c) = [5; 5; 40; 5; 5; 40].
Proof.
  exists 5, ex_dims, ["x"%string], [5; 5], (get_scan (configure ex_dims ["x"%string] [5; 5])),
    (get_scan (child_configure "det" 5 ex_dims ["x"%string] [5; 5])).
  split; [lia|]. split.
  - split; [repeat constructor; discriminate|]. cbn. repeat constructor; cbn; intuition discriminate.
  - vm_compute. repeat split; reflexivity.
Qed.
Print Assumptions C48_breakpoints_refuted.

(** A scan that moves no axis (the axes are moved from outside, one step in a run) cannot be
    configured with several frames per step: the child is given the axis of the frames to move,
    but not the axis it is squashed with, and refuses. *)
Theorem C48_no_axes_refuted : exists f dims s, 1 < f /\ well_formed dims /\
  configure dims [] [] = Ok s /\ last_range (s_asks s) = (0, 1) /\
  child_configure "det" f dims [] [] = Err SAssert.
Proof.
  exists 5, ex_dims, (get_scan (configure ex_dims [] [])). split; [lia|]. split.
  - split; [repeat constructor; discriminate|]. cbn. repeat constructor; cbn; intuition discriminate.
  - vm_compute. repeat split; reflexivity.
Qed.
Print Assumptions C48_no_axes_refuted.
