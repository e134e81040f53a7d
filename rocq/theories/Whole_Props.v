(* C105: whatever is done with a scan, its detector takes a frame for every trigger and the run ends with the last. *)
From Coq Require Import String Bool ZArith Lia List.
From Verif Require Import Base Scan_Model Scan_Spec Det_Model Arm_Model Whole_Model.
From Verif Require Scan_Proofs Arm_Props.
Import ListNotations.
Local Open Scope string_scope.
Local Open Scope Z_scope.
Local Open Scope list_scope.

Notation next := Arm_Props.next.
Notation course := Arm_Props.course.
Notation armed_inv := Arm_Props.inv.
Notation scan_inv := Scan_Proofs.inv.
Notation ids := Arm_Props.ids.
Notation fine := Arm_Props.fine.

(* Well-behaved histories: scans as in C13 to C16, other parts report steps of the run. *)
Definition wpolite (w : whole) (o : wop) : Prop :=
  match o with
  | WConfigure dims _ bps _ => well_formed dims /\ Forall (fun n => 0 < n) bps
  | WScan o => match w_block w with Scanning s => polite s o | _ => True end
  | _ => True
  end.
Fixpoint wpolite_history (soft : list string) (w : whole) (h : list wop) : Prop :=
  match h with [] => True | o :: r => wpolite w o /\ wpolite_history soft (wstep soft w o) r end.

(* ---- invariant ---- *)
Definition agrees (w : whole) (p : Arm_Props.phase) : Prop :=
  match w_block w with
  | Ready | Aborted => match p with Arm_Props.New | Arm_Props.Halted _ => True | _ => False end
  | Scanning s =>
      exists zs, scan_inv zs s /\
      match s_state s with
      | Armed | Paused => p = Arm_Props.Armed (s_total s) (w_from w) (w_count w) /\ w_from w + w_count w = s_configured s /\ w_shot w = 0
      | Running => p = Arm_Props.Running (s_total s) (w_from w) (w_count w) (w_shot w) /\ w_from w + w_count w = s_configured s
      | Finished => p = Arm_Props.Finished (s_total s)
      end
  end.
Definition good (w : whole) : Prop :=
  exists p, armed_inv (w_unit w) p /\ Forall fine (m_log (w_unit w)) /\ agrees w p.

Lemma fine_more (new log : list event) : Forall fine new -> Forall fine log -> Forall fine (new ++ log).
Proof. intros A B. apply Forall_app. auto. Qed.
(* One thing told. *)
Lemma told soft u p o p' : armed_inv u p -> Forall fine (m_log u) -> next p o = Some p' ->
  armed_inv (ustep soft u o) p' /\ Forall fine (m_log (ustep soft u o)).
Proof.
  intros I F N. destruct (Arm_Props.step_inv soft u p o p' I N) as (I' & new & L & FN & _).
  split; [exact I'|]. rewrite L. apply fine_more; assumption.
Qed.
Lemma tell_block soft w o : w_block (tell soft w o) = w_block w.
Proof. destruct o; reflexivity. Qed.
Lemma tell_unit soft w o : w_unit (tell soft w o) = ustep soft (w_unit w) o.
Proof. destruct o; reflexivity. Qed.
Lemma armed_ok size c n : 0 <= c -> 1 <= n -> c + n <= size -> ((0 <=? c) && (1 <=? n) && (c + n <=? size)) = true.
Proof. intros. rewrite !andb_true_iff, !Z.leb_le. lia. Qed.
Lemma first_ask zs s a r c n : scan_inv zs s -> s_asks s = a :: r -> In (c, n) (range_of a) -> 0 <= c ->
  0 <= c /\ 1 <= n /\ c + n <= s_total s.
Proof.
  intros I E R C. pose proof (Scan_Proofs.v_asks _ _ I) as A. rewrite E in A. inversion A; subst.
  assert (S : next_stop (totals 0 zs) c = Some (c + n)).
  { destruct a; cbn in R; try contradiction; destruct R as [[= -> ->]|[]]; exact H1. }
  destruct (Scan_Proofs.next_stop_In _ _ _ S) as [J K].
  destruct (Scan_Proofs.v_plan _ _ I) as (P & _ & T & _).
  pose proof (Scan_Proofs.totals_bounds _ _ _ P J). lia.
Qed.

Lemma stop_phase p : match p with Arm_Props.New => next p UStop = Some Arm_Props.New | _ => exists n, next p UStop = Some (Arm_Props.Halted n) end.
Proof. destruct p; cbn; eauto. Qed.
Lemma good_stop soft w b : (b = Ready \/ b = Aborted) -> good w ->
  good (tell soft (mkWhole b (w_unit w) (w_from w) (w_count w) (w_shot w)) UStop).
Proof.
  intros B (p & I & F & _). pose proof (stop_phase p) as S.
  assert (X : exists p', next p UStop = Some p' /\ match p' with Arm_Props.New | Arm_Props.Halted _ => True | _ => False end).
  { destruct p; [eexists; split; [exact S|exact Logic.I]|..]; destruct S as (n' & S); eexists; (split; [exact S|exact Logic.I]). }
  destruct X as (p' & N & M). destruct (told soft _ _ _ _ I F N) as [I' F'].
  exists p'. rewrite tell_unit. cbn [w_unit]. split; [exact I'|]. split; [exact F'|].
  unfold agrees. rewrite tell_block. cbn. destruct B as [-> | ->]; exact M.
Qed.
Lemma good_configure soft w dims axes bps mode s : good w -> well_formed dims -> Forall (fun n => 0 < n) bps ->
  configure dims axes bps = Ok s ->
  match w_block w with Ready => True | Scanning s0 => s_state s0 = Finished | Aborted => False end ->
  good (tell soft (mkWhole (Scanning s) (w_unit w) (w_from w) (w_count w) (w_shot w))
             (UConfigure mode (match bps with [] => false | _ => true end) (s_total s) 0 (s_configured s))).
Proof.
  intros (p & I & F & A) W B C S.
  destruct (Scan_Proofs.configure_inv _ _ _ _ W B C) as (zs & SI & Hc & Hs & _ & _ & _).
  destruct (Scan_Proofs.inv_bounds _ _ SI) as (_ & B2 & _).
  assert (N : next p (UConfigure mode (match bps with [] => false | _ => true end) (s_total s) 0 (s_configured s)) =
              Some (Arm_Props.Armed (s_total s) 0 (s_configured s))).
  { unfold agrees in A. destruct (w_block w) as [| |s0].
    - destruct p; try contradiction; cbn [next]; now rewrite armed_ok by lia.
    - contradiction.
    - destruct A as (z0 & _ & A). rewrite S in A. subst p. cbn [next]. now rewrite armed_ok by lia. }
  destruct (told soft _ _ _ _ I F N) as [I' F'].
  eexists. rewrite tell_unit. cbn [w_unit]. split; [exact I'|]. split; [exact F'|].
  unfold agrees. cbn. exists zs. split; [exact SI|]. rewrite Hs. split; [reflexivity|]. split; lia.
Qed.

Lemma fresh_new s a s' : s_asks s' = a :: s_asks s -> fresh s s' = [a].
Proof. intros E. unfold fresh. rewrite E, Nat.eqb_refl. reflexivity. Qed.
Lemma fresh_none s s' : s_asks s' = s_asks s -> fresh s s' = [].
Proof.
  intros E. unfold fresh. rewrite E. destruct (s_asks s) as [|a r]; [reflexivity|].
  replace (Nat.eqb (length r) (length (a :: r))) with false; [reflexivity|]. symmetry. apply Nat.eqb_neq. cbn. lia.
Qed.
Lemma over_all u size c n k : armed_inv u (Arm_Props.Running size c n k) -> (run_over u = true <-> k = n) /\
  det_completed (m_det u) (m_counter u) = c + k /\ 0 <= k <= n.
Proof.
  intros [(R1 & R2 & R3 & R4 & R5 & R6 & R7) _]. unfold run_over, det_completed. rewrite Z.eqb_eq. lia.
Qed.
Lemma good_call soft w s o : good w -> w_block w = Scanning s -> polite s o ->
  (o = EndRun -> run_over (w_unit w) = true) -> good (call soft w s o).
Proof.
  intros (p & I & F & A) B P O. unfold agrees in A. rewrite B in A. destruct A as (zs & SI & A).
  pose proof (Scan_Proofs.scan_step_inv zs s o SI P) as SI'. unfold scan_step in SI'.
  unfold call. destruct (scan_try s o) as [s'|e] eqn:T; [|exists p; split; [exact I|split; [exact F|]]; unfold agrees; rewrite B; eauto].
  destruct o as [| |part n|n|]; cbn [scan_try] in T.
  - (* start *) unfold start_run in T. destruct (s_state s) eqn:S; try discriminate. injection T as <-.
    destruct A as (-> & E & K). cbn [hooks_of tell_all fold_left].
    destruct (told soft _ _ URun _ I F eq_refl) as [I' F'].
    eexists. split; [exact I'|]. split; [exact F'|]. unfold agrees. cbn. exists zs. split; [exact SI'|]. auto.
  - (* end *) specialize (O eq_refl). unfold end_run in T. destruct (s_state s) eqn:S; try discriminate.
    destruct A as (-> & E). destruct (over_all _ _ _ _ _ I) as (OV & _ & KN). apply OV in O.
    pose proof (Scan_Proofs.v_state _ _ SI) as V. rewrite S in V.
    destruct (Scan_Proofs.inv_bounds _ _ SI) as (_ & B2 & _).
    destruct (s_configured s <? s_total s) eqn:L.
    + destruct (nth_error (p_steps (s_plan s)) (if p_use (s_plan s) then Datatypes.S (s_idx s) else s_idx s)) as [n|]; [|discriminate].
      injection T as <-. rewrite V in *. unfold hooks_of. erewrite fresh_new by reflexivity. cbn [flat_map of_ask app tell_all fold_left].
      destruct (first_ask _ _ _ _ (s_configured s) n SI' eq_refl (or_introl eq_refl)) as (G1 & G2 & G3); [lia|]. cbn in G3.
      assert (N : next (Arm_Props.Running (s_total s) (w_from w) (w_count w) (w_shot w)) (UPostRunArmed (s_configured s) n) =
                  Some (Arm_Props.Armed (s_total s) (s_configured s) n)).
      { cbn [next]. rewrite O, E, !Z.eqb_refl. cbn [andb]. now rewrite armed_ok. }
      destruct (told soft _ _ _ _ I F N) as [I' F'].
      eexists. split; [exact I'|]. split; [exact F'|]. unfold agrees. cbn. exists zs. split; [exact SI'|]. auto.
    + injection T as <-. rewrite V in *. unfold hooks_of. erewrite fresh_new by reflexivity. cbn [flat_map of_ask app tell_all fold_left].
      apply Z.ltb_ge in L.
      assert (N : next (Arm_Props.Running (s_total s) (w_from w) (w_count w) (w_shot w)) UPostRunReady = Some (Arm_Props.Finished (s_total s))).
      { cbn [next]. rewrite O, E, Z.eqb_refl. cbn [andb]. replace (s_configured s =? s_total s) with true; [reflexivity|].
        symmetry. apply Z.eqb_eq. lia. }
      destruct (told soft _ _ _ _ I F N) as [I' F'].
      eexists. split; [exact I'|]. split; [exact F'|]. unfold agrees. cbn. exists zs. split; [exact SI'|]. reflexivity.
  - (* report *) injection T as <-. cbn [hooks_of tell_all fold_left].
    exists p. split; [exact I|]. split; [exact F|]. unfold agrees. cbn. exists zs. split; [exact SI'|]. exact A.
  - (* pause *)
    assert (N1 : next p UStop = Some (Arm_Props.Halted (s_total s))).
    { destruct (s_state s); [destruct A as (-> & _)|destruct A as (-> & _)|destruct A as (-> & _)|subst p]; reflexivity. }
    destruct (Z.ltb_spec n 0) as [NN|NN]; [destruct (s_state s) eqn:S|].
    4:{ unfold pause in T. replace (n <? 0) with true in T by (symmetry; now apply Z.ltb_lt). rewrite S in T. injection T as <-.
        unfold hooks_of. rewrite fresh_none by reflexivity. cbn. exists p. split; [exact I|]. split; [exact F|].
        unfold agrees. cbn. exists zs. split; [exact SI|]. rewrite S. exact A. }
    all: rewrite Scan_Proofs.pause_eq in T by (intros; try (rewrite S; discriminate); lia).
    all: destruct (Scan_Proofs.pause_target_ok zs s n SI P) as [T1 _]; [intros; try (rewrite S; discriminate); lia|].
    all: match type of T with do_pause ?cc ?nx _ = _ =>
           destruct (Scan_Proofs.do_pause_spec zs s cc nx SI T1) as (q & j & _ & _ & Q & _ & D); rewrite D in T; injection T as <-;
           set (c := cc) in *; clearbody c end.
    all: unfold hooks_of; erewrite fresh_new by reflexivity; cbn [flat_map of_ask app tell_all fold_left].
    all: destruct (first_ask _ _ _ _ c (q - c) SI' eq_refl (or_introl eq_refl)) as (G1 & G2 & G3); [lia|]; cbn in G3.
    all: assert (N2 : next (Arm_Props.Halted (s_total s)) (USeek c (q - c)) = Some (Arm_Props.Armed (s_total s) c (q - c)))
           by (cbn [next]; now rewrite armed_ok by lia).
    all: destruct (told soft _ _ _ _ I F N1) as [I1 F1]; destruct (told soft _ _ _ _ I1 F1 N2) as [I2 F2].
    all: eexists; split; [exact I2|]; split; [exact F2|]; unfold agrees; cbn; exists zs; split; [exact SI'|].
    all: destruct (s_state s); (split; [reflexivity|]; split; lia).
  - (* resume *) unfold resume in T. destruct (s_state s) eqn:S; try discriminate. injection T as <-.
    destruct A as (-> & E & K). cbn [hooks_of tell_all fold_left].
    destruct (told soft _ _ URun _ I F eq_refl) as [I' F'].
    eexists. split; [exact I'|]. split; [exact F'|]. unfold agrees. cbn. exists zs. split; [exact SI'|]. auto.
Qed.

Lemma good_step soft w o : good w -> wpolite w o -> good (wstep soft w o).
Proof.
  intros G P. unfold wstep. destruct o as [dims axes bps mode| | |o|part|].
  - destruct P as [W B]. destruct (w_block w) as [| |s] eqn:E; try exact G.
    + destruct (configure dims axes bps) as [s|] eqn:C; [|exact G].
      apply (good_configure soft w dims axes bps mode s G W B C). rewrite E. exact Logic.I.
    + destruct s as [t pl ix cf cm st nx pr ak]. destruct st; try exact G.
      destruct (configure dims axes bps) as [s|] eqn:C; [|exact G].
      apply (good_configure soft w dims axes bps mode s G W B C). rewrite E. reflexivity.
  - destruct (w_block w); try exact G; apply good_stop; auto.
  - destruct (w_block w) as [| |[t pl ix cf cm st nx pr ak]]; try exact G; [apply good_stop; auto|].
    destruct st; try exact G; apply good_stop; auto.
  - cbn [wpolite] in P. destruct (w_block w) as [| |s] eqn:E; try (destruct o; exact G).
    destruct o; try (apply good_call; auto; discriminate).
    destruct (run_over (w_unit w)) eqn:R; [|exact G]. apply good_call; auto.
  - destruct (w_block w) as [| |s] eqn:E; try exact G. destruct (s_state s) eqn:S; try exact G.
    apply good_call; auto; [|discriminate]. destruct G as (p & I & F & A). unfold agrees in A. rewrite E in A.
    destruct A as (zs & SI & A). rewrite S in A. destruct A as (-> & A). destruct (over_all _ _ _ _ _ I) as (_ & D & K).
    cbn [polite]. rewrite S, D. lia.
  - destruct (w_block w) as [| |s] eqn:E; try exact G. destruct (s_state s) eqn:S; try exact G.
    destruct (Z.ltb_spec (w_shot w) (w_count w)) as [L|L]; [|exact G].
    destruct G as (p & I & F & A). unfold agrees in A. rewrite E in A. destruct A as (zs & SI & A). rewrite S in A. destruct A as (-> & A).
    assert (N : next (Arm_Props.Running (s_total s) (w_from w) (w_count w) (w_shot w)) UTrigger =
                Some (Arm_Props.Running (s_total s) (w_from w) (w_count w) (w_shot w + 1))).
    { cbn [next]. replace (w_shot w <? w_count w) with true; [reflexivity|]. symmetry. now apply Z.ltb_lt. }
    destruct (told soft _ _ _ _ I F N) as [I' F'].
    eexists. split; [exact I'|]. split; [exact F'|]. unfold agrees. cbn. rewrite E. exists zs. split; [exact SI|]. rewrite S. auto.
Qed.
Lemma good_run soft h : forall w, good w -> wpolite_history soft w h -> good (wrun soft w h).
Proof.
  induction h as [|o h IH]; intros w G P; [exact G|]. destruct P as [P R]. cbn [wrun fold_left].
  apply IH; [|exact R]. apply good_step; assumption.
Qed.
Lemma good_new : good new_whole.
Proof. exists Arm_Props.New. split; [reflexivity|]. split; [constructor|exact Logic.I]. Qed.

(* ---- theorems ---- *)
(* Whatever a user does - any scans with any breakpoints, runs, pauses, seeks, resumes, aborts, resets, in any
   order - no trigger of a run finds the detector idle and it is never started while it acquires. *)
Theorem C105_no_trigger_missed : forall soft h, wpolite_history soft new_whole h ->
  let log := m_log (w_unit (wrun soft new_whole h)) in ~ In Missed log /\ ~ In (Started true) log.
Proof.
  intros soft h P log. destruct (good_run soft h new_whole good_new P) as (p & _ & F & _). fold log in F.
  rewrite Forall_forall in F. split; intros J; [exact (F _ J)|discriminate (F _ J)].
Qed.
Print Assumptions C105_no_trigger_missed.

(* In a run the detector waits for a trigger until it had one for each step; then, and not before, the run is over.
   What it reports is the steps of the scan that are done. *)
Theorem C105_run : forall soft h s, wpolite_history soft new_whole h ->
  let w := wrun soft new_whole h in w_block w = Scanning s -> s_state s = Running ->
  (run_over (w_unit w) = true <-> w_from w + w_shot w = s_configured s) /\
  det_completed (m_det (w_unit w)) (m_counter (w_unit w)) = w_from w + w_shot w /\
  (w_from w + w_shot w < s_configured s -> m_acq (w_unit w) = true) /\
  w_from w + w_shot w <= s_configured s <= s_total s.
Proof.
  intros soft h s P w B S. destruct (good_run soft h new_whole good_new P) as (p & I & _ & A). fold w in I, A.
  unfold agrees in A. rewrite B in A. destruct A as (zs & SI & A). rewrite S in A. destruct A as (-> & E).
  destruct (over_all _ _ _ _ _ I) as (OV & D & K). destruct (Scan_Proofs.inv_bounds _ _ SI) as (_ & B2 & _).
  split; [rewrite OV; lia|]. split; [exact D|]. split; [|lia].
  intros L. destruct I as [(R1 & R2 & R3 & R4 & R5 & R6 & R7) [S1 S2]]. rewrite S2. apply Z.ltb_lt.
  rewrite S1. destruct (_ && _); lia.
Qed.
Print Assumptions C105_run.

(* It acquires in no other state but Armed and Paused, and there just when it is triggered from outside. *)
Theorem C105_rest : forall soft h, wpolite_history soft new_whole h ->
  let w := wrun soft new_whole h in
  match w_block w with
  | Ready | Aborted => m_acq (w_unit w) = false
  | Scanning s => match s_state s with
                  | Finished => m_acq (w_unit w) = false
                  | Armed | Paused => m_acq (w_unit w) = m_hw (w_unit w)
                  | Running => True
                  end
  end.
Proof.
  intros soft h P w. destruct (good_run soft h new_whole good_new P) as (p & I & _ & A). fold w in I, A.
  unfold agrees in A. destruct (w_block w) as [| |s].
  - destruct p; try contradiction; apply I.
  - destruct p; try contradiction; apply I.
  - destruct A as (zs & SI & A). destruct (s_state s).
    + destruct A as (-> & _). destruct I as [(R1 & R2 & R3 & R4 & R5 & R6 & R7) St]. destruct (m_hw (w_unit w)) eqn:W; [|apply St].
      destruct St as [S1 S2]. rewrite S2. apply Z.ltb_lt. rewrite S1, W. cbn [andb]. destruct (negb _); lia.
    + exact Logic.I.
    + destruct A as (-> & _). destruct I as [(R1 & R2 & R3 & R4 & R5 & R6 & R7) St]. destruct (m_hw (w_unit w)) eqn:W; [|apply St].
      destruct St as [S1 S2]. rewrite S2. apply Z.ltb_lt. rewrite S1, W. cbn [andb]. destruct (negb _); lia.
    + subst p. apply I.
Qed.
Print Assumptions C105_rest.

(* ---- frames ---- *)
Definition frames (w : whole) : Z := Z.of_nat (length (ids (m_log (w_unit w)))).
(* A step that is no configure, pause, abort or reset. *)
Definition onward (o : wop) : Prop :=
  match o with WScan (Pause _) | WConfigure _ _ _ _ | WAbort | WReset => False | _ => True end.
Definition counted (base size : Z) (w : whole) : Prop :=
  match w_block w with
  | Scanning s => s_total s = size /\
      match s_state s with
      | Armed => frames w = base + w_from w
      | Running => frames w = base + w_from w + w_shot w
      | Finished => frames w = base + size
      | Paused => False
      end
  | _ => False
  end.
Lemma told_frames soft u p o p' : armed_inv u p -> next p o = Some p' ->
  length (ids (m_log (ustep soft u o))) = (length (ids (m_log u)) + if Arm_Props.is_trigger o then 1 else 0)%nat.
Proof.
  intros I N. destruct (Arm_Props.step_inv soft u p o p' I N) as (_ & new & L & _ & D & _).
  rewrite L. unfold ids in *. rewrite flat_map_app, app_length, D. destruct (Arm_Props.is_trigger o); cbn; lia.
Qed.
Lemma counted_call soft base size w s o : good w -> w_block w = Scanning s -> polite s o ->
  (o = EndRun -> run_over (w_unit w) = true) -> (forall n, o <> Pause n) -> counted base size w -> counted base size (call soft w s o).
Proof.
  intros (p & I & F & A) B P O NP C. unfold agrees in A. unfold counted in C. rewrite B in A, C.
  destruct A as (zs & SI & A). destruct C as [CS C].
  pose proof (Scan_Proofs.scan_step_inv zs s o SI P) as SI'. unfold scan_step in SI'.
  unfold call. destruct (scan_try s o) as [s'|e] eqn:T; [|unfold counted; rewrite B; auto].
  destruct o as [| |part n|n|]; cbn [scan_try] in T.
  - unfold start_run in T. destruct (s_state s) eqn:S; try discriminate. injection T as <-.
    destruct A as (-> & E & K). unfold counted, frames. cbn [hooks_of tell_all fold_left w_block tell s_total s_state w_unit w_from w_shot]. split; [exact CS|].
    rewrite (told_frames soft _ _ URun _ I eq_refl). cbn [Arm_Props.is_trigger]. unfold frames in C. lia.
  - specialize (O eq_refl). unfold end_run in T. destruct (s_state s) eqn:S; try discriminate.
    destruct A as (-> & E). destruct (over_all _ _ _ _ _ I) as (OV & _ & KN). apply OV in O.
    pose proof (Scan_Proofs.v_state _ _ SI) as V. rewrite S in V.
    destruct (Scan_Proofs.inv_bounds _ _ SI) as (_ & B2 & _). unfold frames in C.
    destruct (s_configured s <? s_total s) eqn:L.
    + destruct (nth_error (p_steps (s_plan s)) (if p_use (s_plan s) then Datatypes.S (s_idx s) else s_idx s)) as [n|]; [|discriminate].
      injection T as <-. rewrite V in *. unfold hooks_of. erewrite fresh_new by reflexivity. cbn [flat_map of_ask app tell_all fold_left].
      destruct (first_ask _ _ _ _ (s_configured s) n SI' eq_refl (or_introl eq_refl)) as (G1 & G2 & G3); [lia|]. cbn in G3.
      assert (N : next (Arm_Props.Running (s_total s) (w_from w) (w_count w) (w_shot w)) (UPostRunArmed (s_configured s) n) =
                  Some (Arm_Props.Armed (s_total s) (s_configured s) n)).
      { cbn [next]. rewrite O, E, !Z.eqb_refl. cbn [andb]. now rewrite armed_ok. }
      unfold counted, frames. cbn [w_block tell s_total s_state w_unit w_from]. split; [exact CS|].
      rewrite (told_frames soft _ _ _ _ I N). cbn [Arm_Props.is_trigger]. lia.
    + injection T as <-. rewrite V in *. unfold hooks_of. erewrite fresh_new by reflexivity. cbn [flat_map of_ask app tell_all fold_left].
      apply Z.ltb_ge in L.
      assert (N : next (Arm_Props.Running (s_total s) (w_from w) (w_count w) (w_shot w)) UPostRunReady = Some (Arm_Props.Finished (s_total s))).
      { cbn [next]. rewrite O, E, Z.eqb_refl. cbn [andb]. replace (s_configured s =? s_total s) with true; [reflexivity|].
        symmetry. apply Z.eqb_eq. lia. }
      unfold counted, frames. cbn [w_block tell s_total s_state w_unit w_from]. split; [exact CS|].
      rewrite (told_frames soft _ _ _ _ I N). cbn [Arm_Props.is_trigger]. lia.
  - injection T as <-. unfold counted. cbn. split; [exact CS|]. exact C.
  - exfalso. eapply NP; reflexivity.
  - unfold resume in T. destruct (s_state s); try discriminate. contradiction.
Qed.
Lemma counted_step soft base size w o : good w -> wpolite w o -> onward o -> counted base size w -> counted base size (wstep soft w o).
Proof.
  intros G P N C. pose proof C as C0. unfold counted in C0. destruct (w_block w) as [| |s] eqn:E; try contradiction.
  unfold wstep. destruct o as [dims axes bps mode| | |o|part|]; try contradiction.
  - cbn [wpolite] in P. rewrite E in *. destruct o; try contradiction;
      try (apply counted_call; auto; intros; discriminate).
    destruct (run_over (w_unit w)) eqn:R; [|exact C]. apply counted_call; auto. intros; discriminate.
  - rewrite E. destruct (s_state s) eqn:S; try exact C. apply counted_call; auto; try (intros; discriminate).
    destruct G as (p & I & F & A). unfold agrees in A. rewrite E in A.
    destruct A as (zs & SI & A). rewrite S in A. destruct A as (-> & A). destruct (over_all _ _ _ _ _ I) as (_ & D & K).
    cbn [polite]. rewrite S, D. lia.
  - rewrite E. destruct (s_state s) eqn:S; try exact C.
    destruct (Z.ltb_spec (w_shot w) (w_count w)) as [L|L]; [|exact C].
    destruct G as (p & I & F & A). unfold agrees in A. rewrite E in A. destruct A as (zs & SI & A). rewrite S in A. destruct A as (-> & A).
    assert (NX : next (Arm_Props.Running (s_total s) (w_from w) (w_count w) (w_shot w)) UTrigger =
                Some (Arm_Props.Running (s_total s) (w_from w) (w_count w) (w_shot w + 1))).
    { cbn [next]. replace (w_shot w <? w_count w) with true; [reflexivity|]. symmetry. now apply Z.ltb_lt. }
    unfold counted, frames. rewrite tell_block, E, tell_unit. destruct C0 as [C1 C2]. split; [exact C1|]. rewrite S in *.
    rewrite (told_frames soft _ _ _ _ I NX). cbn [Arm_Props.is_trigger w_from w_shot tell]. unfold frames in C2. lia.
Qed.
(* A scan that goes on to its end without a pause gives one frame for each step of it, in however many runs. *)
Theorem C105_all_steps : forall soft h dims axes bps mode h2 s,
  wpolite_history soft new_whole (h ++ WConfigure dims axes bps mode :: h2) -> Forall onward h2 ->
  let w0 := wrun soft new_whole h in
  let w := wrun soft new_whole (h ++ WConfigure dims axes bps mode :: h2) in
  match w_block w0 with Ready => True | Scanning s0 => s_state s0 = Finished | Aborted => False end ->
  (exists s0, configure dims axes bps = Ok s0) ->
  w_block w = Scanning s -> s_state s = Finished -> frames w = frames w0 + gen_size dims.
Proof.
  intros soft h dims axes bps mode h2 s P ON w0 w R (s0 & C) B S.
  assert (SP : forall a b x, wpolite_history soft x (a ++ b) -> wpolite_history soft x a /\ wpolite_history soft (wrun soft x a) b).
  { clear. induction a as [|o a IH]; intros b x H; [split; [exact Logic.I|exact H]|]. cbn in H. destruct H as [H1 H2].
    apply IH in H2 as [H2 H3]. split; [split; assumption|exact H3]. }
  apply SP in P as [P1 P2]. fold w0 in P2. destruct P2 as [[W BP] P3]. pose proof (good_run soft h new_whole good_new P1) as G0. fold w0 in G0.
  assert (EW : w = wrun soft (wstep soft w0 (WConfigure dims axes bps mode)) h2).
  { unfold w, wrun. rewrite fold_left_app. reflexivity. }
  assert (ST : wstep soft w0 (WConfigure dims axes bps mode) =
    tell soft (mkWhole (Scanning s0) (w_unit w0) (w_from w0) (w_count w0) (w_shot w0))
         (UConfigure mode (match bps with [] => false | _ => true end) (s_total s0) 0 (s_configured s0))).
  { unfold wstep. rewrite C. destruct (w_block w0) as [| |[t pl ix cf cm st nx pr ak]]; [reflexivity|contradiction|].
    cbn in R. subst st. reflexivity. }
  pose proof (good_configure soft w0 dims axes bps mode s0 G0 W BP C R) as G1. rewrite <- ST in G1.
  destruct (Scan_Proofs.configure_inv _ _ _ _ W BP C) as (zs & SI & Hc & Hs & _ & Ht & _).
  assert (C1 : counted (frames w0) (gen_size dims) (wstep soft w0 (WConfigure dims axes bps mode))).
  { rewrite ST. unfold counted, frames. cbn [w_block tell w_unit w_from]. rewrite Hs. split; [exact Ht|].
    destruct G0 as (p & I & F & A). destruct (Scan_Proofs.inv_bounds _ _ SI) as (_ & B2 & _).
    assert (N : next p (UConfigure mode (match bps with [] => false | _ => true end) (s_total s0) 0 (s_configured s0)) =
              Some (Arm_Props.Armed (s_total s0) 0 (s_configured s0))).
    { unfold agrees in A. destruct (w_block w0) as [| |s1].
      - destruct p; try contradiction; cbn [next]; now rewrite armed_ok by lia.
      - contradiction.
      - destruct A as (z0 & _ & A). rewrite R in A. subst p. cbn [next]. now rewrite armed_ok by lia. }
    rewrite (told_frames soft _ _ _ _ I N). cbn [Arm_Props.is_trigger]. lia. }
  assert (X : forall l x, good x -> wpolite_history soft x l -> Forall onward l -> counted (frames w0) (gen_size dims) x ->
    counted (frames w0) (gen_size dims) (wrun soft x l)).
  { clear. intros l. induction l as [|o l IH]; intros x G P O C; [exact C|]. destruct P as [P1 P2]. inversion O; subst.
    cbn [wrun fold_left]. apply IH; auto; [apply good_step|apply counted_step]; assumption. }
  pose proof (X h2 _ G1 P3 ON C1) as CF. rewrite <- EW in CF. unfold counted in CF. rewrite B in CF. rewrite S in CF. apply CF.
Qed.
Print Assumptions C105_all_steps.

(* A scan of 2 x 3 with a breakpoint, a pause back by one step, a seek while Armed, and then a second scan. *)
Definition ex_dims : list dim := [mk_dim ["y"] 2; mk_dim ["x"] 3].
Definition ex_history : list wop :=
  [WConfigure ex_dims ["x"] [2] "External"; WScan StartRun; WTrigger; WReport "DET"; WTrigger; WScan EndRun; WScan StartRun; WTrigger;
   WReport "DET"; WScan (Pause 2); WScan Resume; WTrigger; WTrigger; WScan EndRun; WScan (Pause 5); WScan StartRun; WTrigger; WScan EndRun;
   WConfigure ex_dims ["x"; "y"] [] "Internal"; WScan StartRun; WTrigger; WAbort; WReset;
   WConfigure ex_dims ["x"] [] "External"; WScan StartRun; WTrigger; WTrigger; WTrigger; WScan EndRun; WScan StartRun; WTrigger; WTrigger;
   WTrigger; WScan EndRun].
Example C105_ex : wpolite_history ["Internal"] new_whole ex_history /\
  rev (m_log (w_unit (wrun ["Internal"] new_whole ex_history))) =
    [Started false; Frame 1; Frame 2; Started false; Frame 3; Stopped; Started false; Frame 4; Started false; Stopped; Started false;
     Frame 7; Started false; Frame 1; Stopped; Stopped; Started false; Frame 1; Frame 2; Frame 3; Frame 4; Frame 5; Frame 6].
Proof.
  split; [|vm_compute; reflexivity].
  vm_compute. repeat split; try discriminate; auto.
  all: repeat (constructor; [split; [reflexivity|discriminate]|]); try constructor.
  all: try (intros [J|[]]; discriminate J). all: constructor; [intros []|constructor].
Qed.
(* The end of it: the last scan, in two runs, without a pause. *)
Example C105_ex_all : let w := wrun ["Internal"] new_whole ex_history in
  frames w = frames (wrun ["Internal"] new_whole (firstn 23 ex_history)) + gen_size ex_dims /\ gen_size ex_dims = 6 /\
  nth_error ex_history 23 = Some (WConfigure ex_dims ["x"] [] "External") /\ Forall onward (skipn 24 ex_history) /\
  w_block (wrun ["Internal"] new_whole (firstn 23 ex_history)) = Ready /\
  match w_block w with Scanning s => s_state s = Finished | _ => False end.
Proof. vm_compute. repeat split. repeat constructor. Qed.
