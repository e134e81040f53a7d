(* C106: when the run of a scan is over every frame of it is in the file, and the steps completed are in it. *)
From Coq Require Import String Bool ZArith Lia List.
From Verif Require Import Base Scan_Model Scan_Spec Det_Model Arm_Model Whole_Model Trio_Model Whole_Props.
From Verif Require Count_Model Scan_Proofs Arm_Props.
Import ListNotations.
Local Open Scope string_scope.
Local Open Scope Z_scope.
Local Open Scope list_scope.
Import Count_Model (s_done, s_offset, s_captured, s_running, s_finished, s_reports).

(* ---- histories ---- *)
(* The name of the writer is its own. *)
Definition named (o : wop) : Prop := match o with WScan (Report p _) | WReport p => p <> "HDF" | _ => True end.
(* A run is paused when no frame is on its way. *)
Definition calm (t : trio) (o : wop) : Prop :=
  match o, w_block (t_whole t) with
  | WScan (Pause _), Scanning s => match s_state s with Running => t_flight t = 0 | _ => True end
  | _, _ => True
  end.
Definition listening (t : trio) : bool := s_running (t_hdf t) || s_finished (t_hdf t).
(* In a run no part reports before the writer listens to its frames. *)
Definition orderly (t : trio) (o : wop) : Prop :=
  match o, w_block (t_whole t) with
  | (WScan (Report _ _) | WReport _), Scanning s => match s_state s with Running => listening t = true | _ => True end
  | _, _ => True
  end.
Definition tpolite (t : trio) (o : top) : Prop := match o with TBlock o => wpolite (t_whole t) o /\ named o | _ => True end.
Definition tcalm (t : trio) (o : top) : Prop := match o with TBlock o => calm t o | _ => True end.
Definition torderly (t : trio) (o : top) : Prop := match o with TBlock o => orderly t o | _ => True end.
(* All along a history. *)
Fixpoint along (P : trio -> top -> Prop) (soft : list string) (t : trio) (h : list top) : Prop :=
  match h with [] => True | o :: r => P t o /\ along P soft (tstep soft t o) r end.
(* The step of the scan up to which the frames are in the file, in a run. *)
Definition written (t : trio) : Z := w_from (t_whole t) + w_shot (t_whole t) - t_flight t.

(* ---- invariant ---- *)
Definition sure (w : whole) (h : Count_Model.st) (flight : Z) : Prop :=
  match w_block w with
  | Scanning s =>
      match s_state s with
      | Armed | Paused => s_captured h - s_offset h = w_from w /\ s_done h - s_offset h = s_configured s /\ flight = 0 /\
                          s_running h = false /\ s_finished h = false /\ s_completed s = w_from w
      | Running => s_captured h - s_offset h = w_from w + w_shot w - flight /\ s_done h - s_offset h = s_configured s /\
                   0 <= flight <= w_shot w /\ (s_running h = true -> s_captured h <> s_done h) /\
                   (s_finished h = true -> s_captured h = s_done h) /\
                   (s_running h || s_finished h = true -> dget "HDF" (s_progress s) = Some (s_captured h - s_offset h))
      | Finished => s_captured h - s_offset h = s_total s /\ flight = 0
      end
  | _ => flight = 0
  end.
Definition inv (t : trio) : Prop := good (t_whole t) /\ sure (t_whole t) (t_hdf t) (t_flight t).

Lemma min_le d n : min_progress d n <= n.
Proof. unfold min_progress. induction (map snd d) as [|x l IH]; cbn; lia. Qed.
Lemma min_entry d n k x : dget k d = Some x -> min_progress d n <= x.
Proof.
  intros G. apply dget_Some_In in G. unfold min_progress. induction d as [|[a b] d IH]; [contradiction|].
  cbn. destruct G as [[= <- <-]|G]; [lia|]. apply IH in G. lia.
Qed.
Lemma report_idle s p n : n <= s_completed s -> s_completed (report_progress p n s) = s_completed s.
Proof.
  intros L. unfold report_progress. cbn. pose proof (min_le (dset p n (s_progress s)) n).
  destruct (Z.ltb_spec (s_completed s) (min_progress (dset p n (s_progress s)) n)); lia.
Qed.
Lemma good_running w s : good w -> w_block w = Scanning s -> s_state s = Running ->
  (run_over (w_unit w) = true <-> w_shot w = w_count w) /\ det_completed (m_det (w_unit w)) (m_counter (w_unit w)) = w_from w + w_shot w /\
  0 <= w_shot w <= w_count w /\ w_from w + w_count w = s_configured s /\ s_configured s <= s_total s.
Proof.
  intros (p & I & F & A) B S. unfold agrees in A. rewrite B in A. destruct A as (zs & SI & A). rewrite S in A. destruct A as (-> & E).
  destruct (over_all _ _ _ _ _ I) as (OV & D & K). destruct (Scan_Proofs.inv_bounds _ _ SI) as (_ & B2 & _).
  repeat split; try assumption; try lia; apply OV.
Qed.
(* The trigger of a run gives a frame. *)
Lemma trigger_counts soft w s : good w -> w_block w = Scanning s -> s_state s = Running -> w_shot w < w_count w ->
  m_counter (w_unit (tell soft w UTrigger)) = m_counter (w_unit w) + 1.
Proof.
  intros (p & I & F & A) B S L. unfold agrees in A. rewrite B in A. destruct A as (zs & SI & A). rewrite S in A. destruct A as (-> & E).
  destruct I as [(R1 & R2 & R3 & R4 & R5 & R6 & R7) [S1 S2]]. rewrite tell_unit. cbn [ustep]. unfold trigger.
  replace (m_acq (w_unit w)) with true; [reflexivity|]. symmetry. rewrite S2. apply Z.ltb_lt. rewrite S1. destruct (_ && _); lia.
Qed.

Lemma sure_call soft t s o : inv t -> w_block (t_whole t) = Scanning s -> polite s o ->
  (o = EndRun -> run_over (w_unit (t_whole t)) = true /\ s_finished (t_hdf t) = true) -> 
  (forall n, o = Pause n -> s_state s = Running -> t_flight t = 0) -> (forall n p, o = Report p n -> p <> "HDF") ->
  sure (call soft (t_whole t) s o)
       (fold_left (Count_Model.step Count_Model.Hdf) (hdf_hooks (WScan o) (t_whole t) (call soft (t_whole t) s o)) (t_hdf t)) (t_flight t).
Proof.
  intros [G C] B P O CA NM. pose proof G as G0. destruct t as [w h fl]. cbn [t_whole t_hdf t_flight] in *.
  destruct G as (p & I & F & A). unfold agrees in A. unfold sure in C. rewrite B in A, C. destruct A as (zs & SI & A).
  unfold hdf_hooks. rewrite B. unfold call. destruct (scan_try s o) as [s'|e] eqn:T.
  2:{ rewrite B. unfold sure. rewrite B. rewrite fresh_none by reflexivity. destruct o; exact C. }
  destruct o as [| |part n|n|]; cbn [scan_try] in T.
  - unfold start_run in T. destruct (s_state s) eqn:S; try discriminate. injection T as <-.
    destruct A as (-> & E & K). cbn [hooks_of tell_all fold_left]. unfold sure. cbn [tell w_block w_from w_shot s_state s_configured s_progress].
    destruct C as (C1 & C2 & C3 & C4 & C5 & C6). rewrite C4, C5. repeat split; try lia; try discriminate.
  - destruct (O eq_refl) as [O1 O2]. unfold end_run in T. destruct (s_state s) eqn:S; try discriminate.
    destruct (good_running w s G0 B S) as (OV & _ & KN & EN & TN). apply OV in O1.
    destruct C as (C1 & C2 & C3 & C4 & C5 & C6). specialize (C5 O2).
    pose proof (Scan_Proofs.v_state _ _ SI) as V. rewrite S in V.
    destruct (s_configured s <? s_total s) eqn:L.
    + destruct (nth_error (p_steps (s_plan s)) (if p_use (s_plan s) then Datatypes.S (s_idx s) else s_idx s)) as [n|]; [|discriminate].
      injection T as <-. rewrite V in *. unfold hooks_of. erewrite fresh_new by reflexivity. cbn [flat_map of_ask app tell_all fold_left tell w_block].
      erewrite fresh_new by reflexivity. cbn [flat_map hdf_of_ask app fold_left Count_Model.step].
      unfold sure. cbn. repeat split; lia.
    + injection T as <-. rewrite V in *. unfold hooks_of. erewrite fresh_new by reflexivity. cbn [flat_map of_ask app tell_all fold_left tell w_block].
      erewrite fresh_new by reflexivity. cbn [flat_map hdf_of_ask app fold_left Count_Model.step].
      apply Z.ltb_ge in L. unfold sure. cbn. lia.
  - injection T as <-. cbn [hooks_of tell_all fold_left]. unfold sure. cbn [w_block w_from w_shot].
    assert (X : dget "HDF" (dset part n (s_progress s)) = dget "HDF" (s_progress s)).
    { rewrite dget_dset_other; [reflexivity|]. intros Q. apply (NM n part eq_refl). now subst. }
    change (s_state (report_progress part n s)) with (s_state s). change (s_configured (report_progress part n s)) with (s_configured s).
    change (s_total (report_progress part n s)) with (s_total s). change (s_progress (report_progress part n s)) with (dset part n (s_progress s)).
    rewrite X. destruct (s_state s) eqn:S; cbn [polite] in P; rewrite S in P; try rewrite (report_idle s part n P); exact C.
  - assert (FL : fl = 0). { destruct (s_state s) eqn:S; try (apply C). now apply (CA n). }
    destruct (Z.ltb_spec n 0) as [NN|NN]; [destruct (s_state s) eqn:S|].
    4:{ unfold pause in T. replace (n <? 0) with true in T by (symmetry; now apply Z.ltb_lt). rewrite S in T. injection T as <-.
        unfold hooks_of. rewrite fresh_none by reflexivity. cbn [flat_map tell_all fold_left w_block]. rewrite fresh_none by reflexivity. cbn.
        unfold sure. cbn. rewrite S. exact C. }
    all: rewrite Scan_Proofs.pause_eq in T by (intros; try (rewrite S; discriminate); lia).
    all: destruct (Scan_Proofs.pause_target_ok zs s n SI P) as [T1 _]; [intros; try (rewrite S; discriminate); lia|].
    all: match type of T with do_pause ?cc ?nx _ = _ =>
           destruct (Scan_Proofs.do_pause_spec zs s cc nx SI T1) as (q & j & _ & _ & Q & _ & D); rewrite D in T; injection T as <-;
           set (c := cc) in *; clearbody c end.
    all: unfold hooks_of; erewrite fresh_new by reflexivity; cbn [flat_map of_ask app tell_all fold_left tell w_block];
         erewrite fresh_new by reflexivity; cbn [flat_map hdf_of_ask app fold_left Count_Model.step].
    all: unfold sure; cbn; destruct (s_state s); repeat split; lia.
  - unfold resume in T. destruct (s_state s) eqn:S; try discriminate. injection T as <-.
    destruct A as (-> & E & K). cbn [hooks_of tell_all fold_left]. unfold sure. cbn [tell w_block w_from w_shot s_state s_configured s_progress].
    destruct C as (C1 & C2 & C3 & C4 & C5 & C6). rewrite C4, C5. repeat split; try lia; try discriminate.
Qed.

Lemma from_pos w s : good w -> w_block w = Scanning s -> s_state s <> Finished -> 0 <= w_from w.
Proof.
  intros (p & I & F & A) B S. unfold agrees in A. rewrite B in A. destruct A as (zs & SI & A).
  destruct (s_state s); [destruct A as (-> & _)|destruct A as (-> & _)|destruct A as (-> & _)|congruence];
    destruct I as [(R1 & R2 & _) _]; exact R2.
Qed.
Lemma inv_block soft t o : inv t -> wpolite (t_whole t) o -> named o -> calm t o -> inv (block_step soft t o).
Proof.
  intros I P N C. pose proof I as [G SU]. pose proof (good_step soft _ _ G P) as G'.
  destruct t as [w h fl]. cbn [t_whole t_hdf t_flight] in *. unfold block_step. cbn [t_whole t_hdf t_flight].
  destruct o as [dims axes bps mode| | |o|part|].
  - split; [exact G'|]. cbn [t_whole t_hdf t_flight]. clear G'. unfold wstep, hdf_hooks. destruct P as [W BP].
    assert (X : forall s, configure dims axes bps = Ok s -> fl = 0 ->
      sure (tell soft (mkWhole (Scanning s) (w_unit w) (w_from w) (w_count w) (w_shot w))
              (UConfigure mode (match bps with [] => false | _ => true end) (s_total s) 0 (s_configured s)))
           (fold_left (Count_Model.step Count_Model.Hdf)
             (match s_state s with Armed => [Count_Model.Configure 0 (s_configured s)] | _ => [] end) h) fl).
    { intros s CF ->. destruct (Scan_Proofs.configure_inv _ _ _ _ W BP CF) as (zs & SI & Hc & Hs & _ & Ht & _).
      rewrite Hs. unfold sure. cbn. rewrite Hs. repeat split; try lia. }
    unfold sure in SU. destruct (w_block w) as [| |s] eqn:B.
    + destruct (configure dims axes bps) as [s|] eqn:CF; [|rewrite B; unfold sure; rewrite B; exact SU].
      cbn [tell w_block]. apply X; auto.
    + unfold sure. cbn. rewrite B. exact SU.
    + destruct s as [tt pl ix cf cm st nx pr ak]. destruct st; try (unfold sure; cbn; rewrite B; exact SU).
      cbn in SU. destruct (configure dims axes bps) as [s|] eqn:CF; [|rewrite B; unfold sure; rewrite B; exact SU].
      cbn [tell w_block]. apply X; [reflexivity|apply SU].
  - split; [exact G'|]. cbn [t_whole t_hdf t_flight]. unfold sure, wstep in *. destruct (w_block w) eqn:B; [reflexivity|cbn; now rewrite B|reflexivity].
  - split; [exact G'|]. cbn [t_whole t_hdf t_flight]. clear G'. unfold hdf_hooks, wstep, sure in *. cbn [fold_left].
    destruct (w_block w) as [| |s] eqn:B; [rewrite ?B; exact SU|exact SU|]. destruct s as [tt pl ix cf cm st nx pr ak].
    destruct st; try (rewrite ?B; exact SU); cbn in SU; cbn; apply SU.
  - assert (Y : o = EndRun \/ o <> EndRun) by (destruct o; auto; right; discriminate).
    cbn [wpolite] in P. unfold calm in C. cbn [t_whole t_flight] in C.
    destruct (w_block w) as [| |s] eqn:B.
    1,2: assert (Z0 : wstep soft w (WScan o) = w) by (unfold wstep; rewrite B; destruct o; reflexivity); rewrite Z0;
         unfold hdf_hooks; rewrite B; assert (K : inv (mkTrio w h fl)) by exact I; destruct o; try exact K;
         cbn [fold_left]; destruct (s_finished h); exact K.
    destruct Y as [-> |Y].
    + destruct (s_finished h) eqn:FI; [|exact I].
      unfold wstep in *. rewrite B in *. destruct (run_over (w_unit w)) eqn:R.
      * split; [exact G'|]. apply (sure_call soft (mkTrio w h fl) s EndRun); auto; try (intros; discriminate).
      * split; [exact G'|]. cbn [t_whole t_hdf t_flight]. unfold hdf_hooks. rewrite B, fresh_none by reflexivity. exact SU.
    + assert (Z1 : wstep soft w (WScan o) = call soft w s o) by (unfold wstep; rewrite B; destruct o; try reflexivity; congruence).
      assert (K : inv (mkTrio (wstep soft w (WScan o)) (fold_left (Count_Model.step Count_Model.Hdf) (hdf_hooks (WScan o) w (wstep soft w (WScan o))) h) fl)).
      { split; [exact G'|]. cbn [t_whole t_hdf t_flight]. rewrite Z1.
        apply (sure_call soft (mkTrio w h fl) s o); auto; try (intros; contradiction).
        - intros n -> S. rewrite S in C. exact C.
        - intros n p ->. exact N. }
      destruct o; try exact K. congruence.
  - split; [exact G'|]. cbn [t_whole t_hdf t_flight]. unfold hdf_hooks. cbn [fold_left]. clear G'. unfold wstep. destruct (w_block w) as [| |s] eqn:B; try exact SU.
    destruct (s_state s) eqn:S; try exact SU.
    destruct (good_running w s G B S) as (OV & D & KN & EN & TN).
    pose proof (sure_call soft (mkTrio w h fl) s (Report part (det_completed (m_det (w_unit w)) (m_counter (w_unit w)))) I B) as X.
    unfold hdf_hooks in X. cbn [t_whole t_hdf t_flight fold_left] in X. apply X; try (intros; discriminate).
    + cbn [polite]. rewrite S, D. lia.
    + intros n p [= -> _]. exact N.
  - split; [exact G'|]. cbn [t_whole t_hdf t_flight]. unfold hdf_hooks. cbn [fold_left]. clear G'. unfold wstep.
    destruct (w_block w) as [| |s] eqn:B; try (rewrite Z.sub_diag, Z.add_0_r; exact SU).
    destruct (s_state s) eqn:S; try (rewrite Z.sub_diag, Z.add_0_r; exact SU).
    destruct (Z.ltb_spec (w_shot w) (w_count w)) as [L|L]; [|rewrite Z.sub_diag, Z.add_0_r; exact SU].
    rewrite (trigger_counts soft w s G B S L). unfold sure in *. rewrite tell_block. rewrite B in *. rewrite S in *. cbn [tell w_from w_shot].
    destruct SU as (C1 & C2 & C3 & C4 & C5 & C6). repeat split; try assumption; lia.
Qed.

(* The readback of the writer and its reports, in a run. *)
Lemma inv_listen soft t s h2 fl2 : inv t -> w_block (t_whole t) = Scanning s -> s_state s = Running ->
  s_captured h2 - s_offset h2 = w_from (t_whole t) + w_shot (t_whole t) - fl2 -> s_done h2 = s_done (t_hdf t) -> s_offset h2 = s_offset (t_hdf t) ->
  0 <= fl2 <= w_shot (t_whole t) -> s_running h2 = true -> 
  inv (mkTrio (hear soft (t_whole t) (t_hdf t) (Count_Model.matches (Count_Model.update Count_Model.Hdf h2)))
              (Count_Model.matches (Count_Model.update Count_Model.Hdf h2)) fl2) \/ s_reports h2 <> s_reports (t_hdf t) \/ s_finished h2 = true.
Proof.
  intros I B S E1 E2 E3 FL R. pose proof I as [G SU]. destruct t as [w h fl]. cbn [t_whole t_hdf t_flight] in *.
  destruct (s_finished h2) eqn:F2; [auto|].
  destruct (list_eq_dec Z.eq_dec (s_reports h2) (s_reports h)) as [RE|]; [left|auto].
  destruct (good_running w s G B S) as (OV & D & KN & EN & TN).
  pose proof (from_pos w s G B ltac:(rewrite S; discriminate)) as FP.
  unfold sure in SU. rewrite B, S in SU. destruct SU as (C1 & C2 & C3 & C4 & C5 & C6).
  set (n := s_captured h2 - s_offset h2) in *.
  assert (RP : s_reports (Count_Model.matches (Count_Model.update Count_Model.Hdf h2)) = n :: s_reports h).
  { unfold Count_Model.update. fold n. replace (0 <=? n) with true by (symmetry; apply Z.leb_le; lia).
    unfold Count_Model.matches. cbn. destruct (s_captured h2 =? s_done h2); cbn; now rewrite RE. }
  unfold hear. rewrite RP, Nat.eqb_refl.
  assert (P : wpolite w (WScan (Report "HDF" n))). { cbn [wpolite]. rewrite B. cbn [polite]. rewrite S. lia. }
  split; [exact (good_step soft _ _ G P)|]. cbn [t_whole t_hdf t_flight].
  assert (W : wstep soft w (WScan (Report "HDF" n)) = mkWhole (Scanning (report_progress "HDF" n s)) (w_unit w) (w_from w) (w_count w) (w_shot w)).
  { unfold wstep. rewrite B. reflexivity. }
  rewrite W. unfold sure. cbn [w_block w_from w_shot]. change (s_state (report_progress "HDF" n s)) with (s_state s). rewrite S.
  change (s_progress (report_progress "HDF" n s)) with (dset "HDF" n (s_progress s)). rewrite dget_dset_same.
  change (s_configured (report_progress "HDF" n s)) with (s_configured s).
  unfold Count_Model.update. fold n. replace (0 <=? n) with true by (symmetry; apply Z.leb_le; lia).
  unfold Count_Model.matches. cbn [s_captured s_done s_offset s_running s_finished]. rewrite F2.
  destruct (Z.eqb_spec (s_captured h2) (s_done h2)) as [Q|Q]; cbn [s_captured s_done s_offset s_running s_finished]; fold n;
    (split; [lia|]; split; [lia|]; split; [lia|]; split; [intros; (discriminate || assumption)|]; split; [intros; (discriminate || assumption)|reflexivity]).
Qed.
Lemma inv_step soft t o : inv t -> tpolite t o -> tcalm t o -> inv (tstep soft t o).
Proof.
  intros I P C. destruct o as [o| |k]; [apply inv_block; try assumption; apply P|..].
  - unfold tstep. destruct (w_block (t_whole t)) as [| |s] eqn:B; try exact I. destruct s as [tt pl ix cf cm st nx pr ak] eqn:ES. destruct st; try exact I.
    destruct (s_running (t_hdf t) || s_finished (t_hdf t)) eqn:L; [exact I|]. apply orb_false_iff in L as [L1 L2].
    unfold hdf_step. cbn [Count_Model.step]. rewrite <- ES in B. pose proof I as [G SU]. unfold sure in SU. rewrite B in SU. rewrite ES in SU. cbn [s_state s_configured] in SU.
    destruct (inv_listen soft t s (Count_Model.mkSt (s_done (t_hdf t)) (s_offset (t_hdf t)) (s_captured (t_hdf t)) true false (s_reports (t_hdf t))) (t_flight t) I B) as [K|[K|K]].
    + now rewrite ES.
    + cbn. lia.
    + reflexivity.
    + reflexivity.
    + lia.
    + reflexivity.
    + exact K.
    + exfalso. apply K. reflexivity.
    + discriminate.
  - unfold tstep. destruct ((1 <=? k) && (k <=? t_flight t)) eqn:K; [|exact I]. apply andb_true_iff in K as [K1 K2]. apply Z.leb_le in K1, K2.
    pose proof I as [G SU]. unfold sure in SU. destruct (w_block (t_whole t)) as [| |s] eqn:B; try lia.
    destruct (s_state s) eqn:S; try lia. destruct (good_running _ s G B S) as (OV & D & KN & EN & TN).
    destruct SU as (C1 & C2 & C3 & C4 & C5 & C6).
    assert (NF : s_finished (t_hdf t) = false). { destruct (s_finished (t_hdf t)); [specialize (C5 eq_refl); lia|reflexivity]. }
    unfold hdf_step. cbn [Count_Model.step]. destruct (s_running (t_hdf t)) eqn:R.
    + match goal with |- inv (mkTrio (hear _ _ _ (Count_Model.matches (Count_Model.update _ ?x))) _ ?f) =>
        destruct (inv_listen soft t s x f I B S) as [Q|[Q|Q]] end; try reflexivity; try (cbn; lia).
      * exact Q.
      * exfalso. apply Q. reflexivity.
      * cbn in Q. congruence.
    + unfold hear. cbn [s_reports]. assert (HR : forall w', match s_reports (t_hdf t) with
        | n :: r => if Nat.eqb (length r) (length (s_reports (t_hdf t))) then w' n else t_whole t | [] => t_whole t end = t_whole t).
      { intros w'. destruct (s_reports (t_hdf t)) as [|a r]; [reflexivity|].
        replace (Nat.eqb (length r) (length (a :: r))) with false; [reflexivity|]. symmetry. apply Nat.eqb_neq. cbn. lia. }
      rewrite (HR (fun n => wstep soft (t_whole t) (WScan (Report "HDF" n)))).
      split; [exact G|]. cbn [t_whole t_hdf t_flight]. unfold sure. rewrite B, S. cbn. rewrite NF. rewrite NF in C6.
      split; [lia|]. split; [lia|]. split; [lia|]. split; [discriminate|]. split; discriminate.
Qed.
Lemma inv_run soft h : forall t, inv t -> along tpolite soft t h -> along tcalm soft t h -> inv (trun soft t h).
Proof.
  induction h as [|o h IH]; intros t I P C; [exact I|]. destruct P as [P1 P2], C as [C1 C2]. cbn [trun fold_left].
  apply IH; auto. apply inv_step; assumption.
Qed.
Lemma inv_new : inv new_trio.
Proof. split; [exact good_new|reflexivity]. Qed.

(* ---- theorems ---- *)
(* The run of the writer ends when every frame of the run is in the file, not before; so the run of the block does. *)
Theorem C106_run : forall soft h s, along tpolite soft new_trio h -> along tcalm soft new_trio h ->
  let t := trun soft new_trio h in w_block (t_whole t) = Scanning s -> s_state s = Running ->
  (listening t = true -> (s_finished (t_hdf t) = true <-> written t = s_configured s)) /\
  (s_finished (t_hdf t) = true -> t_flight t = 0 /\ run_over (w_unit (t_whole t)) = true) /\
  s_captured (t_hdf t) - s_offset (t_hdf t) = written t /\ written t <= s_configured s.
Proof.
  intros soft h s P C t B S. destruct (inv_run soft h new_trio inv_new P C) as [G SU]. fold t in G, SU.
  unfold sure in SU. rewrite B, S in SU. destruct SU as (C1 & C2 & C3 & C4 & C5 & C6).
  destruct (good_running _ s G B S) as (OV & D & KN & EN & TN). unfold written, listening.
  split; [|split; [|split; [exact C1|lia]]].
  - intros L. split; [intros F; specialize (C5 F); lia|]. intros W. destruct (s_finished (t_hdf t)); [reflexivity|].
    rewrite orb_false_r in L. exfalso. apply (C4 L). lia.
  - intros F. specialize (C5 F). split; [lia|]. apply OV. lia.
Qed.
Print Assumptions C106_run.

(* When a scan is Finished no frame is on its way, and the file has those up to the last step. *)
Theorem C106_finished : forall soft h s, along tpolite soft new_trio h -> along tcalm soft new_trio h ->
  let t := trun soft new_trio h in w_block (t_whole t) = Scanning s -> s_state s = Finished ->
  t_flight t = 0 /\ s_captured (t_hdf t) - s_offset (t_hdf t) = s_total s.
Proof.
  intros soft h s P C t B S. destruct (inv_run soft h new_trio inv_new P C) as [G SU]. fold t in G, SU.
  unfold sure in SU. rewrite B, S in SU. tauto.
Qed.
Print Assumptions C106_finished.

(* ---- completed steps ---- *)
Definition ahead (t : trio) : Prop :=
  match w_block (t_whole t) with
  | Scanning s => match s_state s with Running => s_completed s <= s_captured (t_hdf t) - s_offset (t_hdf t) | _ => True end
  | _ => True
  end.
Lemma report_most s p n x : s_completed s <= x -> min_progress (dset p n (s_progress s)) n <= x -> s_completed (report_progress p n s) <= x.
Proof.
  intros A B. unfold report_progress. cbn. destruct (Z.ltb_spec (s_completed s) (min_progress (dset p n (s_progress s)) n)); lia.
Qed.
Lemma not_running_ahead t : (forall s, w_block (t_whole t) = Scanning s -> s_state s <> Running) -> ahead t.
Proof. intros H. unfold ahead. destruct (w_block (t_whole t)) as [| |s]; try exact Logic.I. specialize (H s eq_refl). destruct (s_state s); congruence || exact Logic.I. Qed.
Lemma pause_not_running s n s' : pause n s = Ok s' -> s' = s /\ s_state s = Finished \/ s_state s' <> Running.
Proof.
  unfold pause. assert (D : forall c st x, do_pause c st s = Ok x -> s_state x = st).
  { intros c st x. unfold do_pause. destruct (p_use (s_plan s)).
    - destruct (get_breakpoint_index c (p_stops (s_plan s))) as [i|]; [|discriminate].
      destruct (nth_error (p_stops (s_plan s)) i) as [b|]; [|discriminate]. destruct (steps_left c b); [|discriminate].
      intros [= <-]. reflexivity.
    - destruct (nth_error (p_steps (s_plan s)) (s_idx s)) as [b|]; [|discriminate]. destruct (steps_left c b); [|discriminate].
      intros [= <-]. reflexivity. }
  destruct (n <? 0), (s_state s) eqn:S; intros H; try (right; apply D in H; rewrite H; discriminate).
  injection H as <-. left. auto.
Qed.
Lemma tell_all_block soft ops : forall w, w_block (tell_all soft ops w) = w_block w.
Proof. induction ops as [|o ops IH]; intros w; [reflexivity|]. unfold tell_all in *. cbn [fold_left]. rewrite IH. apply tell_block. Qed.
Lemma ahead_same w h fl w' h' fl' : w_block w' = w_block w -> s_captured h' - s_offset h' = s_captured h - s_offset h ->
  ahead (mkTrio w h fl) -> ahead (mkTrio w' h' fl').
Proof. intros B E A. unfold ahead in *. cbn [t_whole t_hdf] in *. rewrite B, E. exact A. Qed.
Lemma ahead_report soft t s p n : inv t -> w_block (t_whole t) = Scanning s -> polite s (Report p n) -> p <> "HDF" ->
  (s_state s = Running -> listening t = true) -> ahead t -> 
  ahead (mkTrio (call soft (t_whole t) s (Report p n)) (t_hdf t) (t_flight t)).
Proof.
  intros [G SU] B P N L A. unfold ahead in *. unfold sure in SU. rewrite B in *. cbn [t_whole t_hdf].
  unfold call. cbn [scan_try hooks_of tell_all fold_left w_block]. change (s_state (report_progress p n s)) with (s_state s).
  destruct (s_state s) eqn:S; try exact Logic.I. specialize (L eq_refl). destruct SU as (_ & _ & _ & _ & _ & C6). specialize (C6 L).
  apply report_most; [exact A|]. apply min_entry with (k := "HDF"). rewrite dget_dset_other; [exact C6|congruence].
Qed.
Lemma ahead_hear soft t s h2 fl2 : inv t -> w_block (t_whole t) = Scanning s -> s_state s = Running -> ahead t ->
  s_captured h2 - s_offset h2 >= s_captured (t_hdf t) - s_offset (t_hdf t) ->
  ahead (mkTrio (hear soft (t_whole t) (t_hdf t) (Count_Model.matches (Count_Model.update Count_Model.Hdf h2)))
                (Count_Model.matches (Count_Model.update Count_Model.Hdf h2)) fl2) \/ s_reports h2 <> s_reports (t_hdf t).
Proof.
  intros I B S A GE. destruct (list_eq_dec Z.eq_dec (s_reports h2) (s_reports (t_hdf t))) as [RE|]; [left|auto].
  unfold ahead in A. rewrite B, S in A. set (n := s_captured h2 - s_offset h2) in *.
  assert (CO : s_captured (Count_Model.matches (Count_Model.update Count_Model.Hdf h2)) - s_offset (Count_Model.matches (Count_Model.update Count_Model.Hdf h2)) = n).
  { unfold Count_Model.matches, Count_Model.update. fold n. destruct (0 <=? n); cbn; destruct (s_captured h2 =? s_done h2); reflexivity. }
  unfold ahead. cbn [t_whole t_hdf]. rewrite CO. unfold hear.
  assert (RP : s_reports (Count_Model.matches (Count_Model.update Count_Model.Hdf h2)) =
               if 0 <=? n then n :: s_reports (t_hdf t) else s_reports (t_hdf t)).
  { unfold Count_Model.matches, Count_Model.update. fold n. destruct (0 <=? n); cbn; destruct (s_captured h2 =? s_done h2); cbn; now rewrite RE. }
  rewrite RP. destruct (0 <=? n).
  - rewrite Nat.eqb_refl. unfold wstep. rewrite B. unfold call. cbn [scan_try hooks_of tell_all fold_left w_block].
    change (s_state (report_progress "HDF" n s)) with (s_state s). rewrite S. apply report_most; [lia|]. apply min_le.
  - destruct (s_reports (t_hdf t)) as [|a r]; [rewrite B, S; lia|].
    replace (Nat.eqb (length r) (length (a :: r))) with false; [rewrite B, S; lia|]. symmetry. apply Nat.eqb_neq. cbn. lia.
Qed.
Lemma ahead_step soft t o : inv t -> tpolite t o -> tcalm t o -> torderly t o -> ahead t -> ahead (tstep soft t o).
Proof.
  intros I P C O A. pose proof I as [G SU]. destruct t as [w h fl]. cbn [t_whole t_hdf t_flight] in *. destruct o as [o| |k].
  - destruct P as [P N]. cbn [t_whole] in P. unfold tstep, block_step. cbn [t_whole t_hdf t_flight]. cbn [tcalm torderly] in C, O.
    unfold orderly in O. cbn [t_whole] in O. pose proof (inv_block soft (mkTrio w h fl)) as IB. unfold block_step in IB. cbn [t_whole t_hdf t_flight] in IB.
    destruct o as [dims axes bps mode| | |o|part|].
    + unfold hdf_hooks, wstep. destruct P as [W BP].
      assert (X : forall s h', configure dims axes bps = Ok s ->
        ahead (mkTrio (tell soft (mkWhole (Scanning s) (w_unit w) (w_from w) (w_count w) (w_shot w))
              (UConfigure mode (match bps with [] => false | _ => true end) (s_total s) 0 (s_configured s))) h' fl)).
      { intros s h' CF. destruct (Scan_Proofs.configure_inv _ _ _ _ W BP CF) as (zs & _ & _ & Hs & _). unfold ahead. cbn. now rewrite Hs. }
      destruct (w_block w) as [| |s] eqn:B.
      * destruct (configure dims axes bps) as [s|] eqn:CF; [now apply X|rewrite B; exact A].
      * exact A.
      * destruct s as [tt pl ix cf cm st nx pr ak]. destruct st; try exact A.
        destruct (configure dims axes bps) as [s|] eqn:CF; [now apply X|rewrite B; exact A].
    + unfold wstep. destruct (w_block w) eqn:B; try exact Logic.I. unfold ahead. cbn. now rewrite B.
    + unfold wstep, hdf_hooks. cbn [fold_left]. destruct (w_block w) as [| |s] eqn:B; try exact A; try exact Logic.I.
      destruct s as [tt pl ix cf cm st nx pr ak]. destruct st; exact A || exact Logic.I.
    + destruct (w_block w) as [| |s] eqn:B.
      1,2: assert (Z0 : wstep soft w (WScan o) = w) by (unfold wstep; rewrite B; destruct o; reflexivity); rewrite Z0;
           unfold hdf_hooks; rewrite B; destruct o; try exact A; cbn [fold_left]; destruct (s_finished h); exact A.
      cbn [wpolite] in P. rewrite B in P. unfold wstep. rewrite B. destruct o as [| |part n|n|].
      * unfold hdf_hooks. cbn [fold_left]. unfold sure in SU. rewrite B in SU. unfold call. cbn [scan_try]. unfold start_run.
        destruct (s_state s) eqn:S; try exact A. unfold ahead. cbn. lia.
      * destruct (s_finished h); [|exact A]. destruct (run_over (w_unit w)).
        2:{ unfold hdf_hooks. rewrite B, fresh_none by reflexivity. exact A. }
        unfold call. cbn [scan_try]. destruct (end_run s) as [s'|] eqn:T.
        2:{ unfold hdf_hooks. rewrite B, fresh_none by reflexivity. exact A. }
        apply not_running_ahead. cbn [t_whole]. intros s0. rewrite tell_all_block. cbn [w_block]. intros [= <-].
        destruct G as (p & _ & _ & AG). unfold agrees in AG. rewrite B in AG. destruct AG as (zs & SI & _).
        pose proof (Scan_Proofs.v_state _ _ SI) as V. unfold end_run in T. destruct (s_state s); try discriminate.
        destruct (s_configured s <? s_total s).
        -- destruct (nth_error (p_steps (s_plan s)) (if p_use (s_plan s) then Datatypes.S (s_idx s) else s_idx s)); [|discriminate].
           injection T as <-. cbn. rewrite V. discriminate.
        -- injection T as <-. cbn. rewrite V. discriminate.
      * unfold hdf_hooks. cbn [fold_left]. apply (ahead_report soft (mkTrio w h fl) s part n); auto.
        intros S. rewrite S in O. exact O.
      * unfold call. cbn [scan_try]. destruct (pause n s) as [s'|] eqn:T.
        2:{ unfold hdf_hooks. rewrite B, fresh_none by reflexivity. exact A. }
        apply not_running_ahead. cbn [t_whole]. intros s0. rewrite tell_all_block. cbn [w_block]. intros [= <-].
        destruct (pause_not_running _ _ _ T) as [[-> Q]|Q]; [rewrite Q; discriminate|exact Q].
      * unfold hdf_hooks. cbn [fold_left]. unfold sure in SU. rewrite B in SU. unfold call. cbn [scan_try]. unfold resume.
        destruct (s_state s) eqn:S; try exact A. unfold ahead. cbn. lia.
    + unfold hdf_hooks. cbn [fold_left]. unfold wstep. destruct (w_block w) as [| |s] eqn:B; try exact A. destruct (s_state s) eqn:S; try exact A.
      destruct (good_running w s G B S) as (OV & D & KN & EN & TN).
      apply (ahead_report soft (mkTrio w h fl) s part); auto. cbn [polite]. rewrite S, D. lia.
    + unfold hdf_hooks. cbn [fold_left]. apply ahead_same with w h fl; auto. unfold wstep.
      destruct (w_block w) as [| |s] eqn:B; auto. destruct (s_state s); auto.
      destruct (w_shot w <? w_count w); auto.
  - unfold tstep. cbn [t_whole t_hdf t_flight]. destruct (w_block w) as [| |s] eqn:B; try exact A. destruct s as [tt pl ix cf cm st nx pr ak] eqn:ES. destruct st; try exact A.
    destruct (s_running h || s_finished h); [exact A|]. unfold hdf_step. cbn [Count_Model.step t_hdf t_whole].
    match goal with |- ahead (mkTrio (hear _ _ _ (Count_Model.matches (Count_Model.update _ ?x))) _ ?f) =>
      destruct (ahead_hear soft (mkTrio w h fl) s x f I) as [Q|Q] end; try assumption.
    + cbn. now rewrite ES.
    + now rewrite ES.
    + cbn. lia.
    + exfalso. apply Q. reflexivity.
  - unfold tstep. cbn [t_whole t_hdf t_flight]. destruct ((1 <=? k) && (k <=? fl)) eqn:K; [|exact A]. apply andb_true_iff in K as [K1 K2]. apply Z.leb_le in K1, K2.
    unfold sure in SU. destruct (w_block w) as [| |s] eqn:B; try lia. destruct (s_state s) eqn:S; try lia.
    unfold hdf_step. cbn [Count_Model.step t_hdf t_whole]. destruct (s_running h) eqn:R.
    + match goal with |- ahead (mkTrio (hear _ _ _ (Count_Model.matches (Count_Model.update _ ?x))) _ ?f) =>
        destruct (ahead_hear soft (mkTrio w h fl) s x f I B S A) as [Q|Q] end.
      * cbn. lia.
      * exact Q.
      * exfalso. apply Q. reflexivity.
    + unfold ahead in *. cbn [t_whole t_hdf] in *. unfold hear. cbn [s_reports]. rewrite B, S in A.
      assert (HR : match s_reports h with
        | n :: r => if Nat.eqb (length r) (length (s_reports h)) then wstep soft w (WScan (Report "HDF" n)) else w | [] => w end = w).
      { destruct (s_reports h) as [|a r]; [reflexivity|].
        replace (Nat.eqb (length r) (length (a :: r))) with false; [reflexivity|]. symmetry. apply Nat.eqb_neq. cbn. lia. }
      rewrite HR, B, S. cbn. lia.
Qed.
(* The steps that the block says are completed are in the file, in every run in which the parts report only after the
   writer listens. *)
Theorem C106_completed : forall soft h s, along tpolite soft new_trio h -> along tcalm soft new_trio h -> along torderly soft new_trio h ->
  let t := trun soft new_trio h in w_block (t_whole t) = Scanning s -> s_state s = Running -> s_completed s <= written t.
Proof.
  intros soft h s P C O t B S.
  assert (X : forall h t0, inv t0 -> ahead t0 -> along tpolite soft t0 h -> along tcalm soft t0 h -> along torderly soft t0 h ->
    ahead (trun soft t0 h)).
  { clear. induction h as [|o h IH]; intros t0 I A P C O; [exact A|]. destruct P as [P1 P2], C as [C1 C2], O as [O1 O2].
    cbn [trun fold_left]. apply IH; auto; [apply inv_step|apply ahead_step]; assumption. }
  pose proof (X h new_trio inv_new Logic.I P C O) as A. fold t in A. unfold ahead in A. rewrite B, S in A.
  destruct (C106_run soft h s P C B S) as (_ & _ & E & _). fold t in E. lia.
Qed.
Print Assumptions C106_completed.

(* ---- all frames in the file ---- *)
Definition tonward (o : top) : Prop := match o with TBlock o => onward o | _ => True end.
Definition level (size : Z) (t : trio) : Prop :=
  match w_block (t_whole t) with
  | Scanning s => s_total s = size /\ s_state s <> Paused /\ s_offset (t_hdf t) = 0
  | _ => False
  end.
Lemma level_call size w s h fl soft o : s_total s = size -> s_state s <> Paused -> s_offset h = 0 -> (forall n, o <> Pause n) ->
  w_block w = Scanning s -> (o = EndRun -> s_captured h - s_offset h = s_configured s) -> (s_state s = Running -> s_next s <> Paused) ->
  level size (mkTrio (call soft w s o) (fold_left (Count_Model.step Count_Model.Hdf) (hdf_hooks (WScan o) w (call soft w s o)) h) fl).
Proof.
  intros T NP OF NO B E NX. unfold call. destruct (scan_try s o) as [s'|] eqn:Q.
  2:{ unfold level, hdf_hooks. cbn [t_whole]. rewrite B. destruct o; cbn [t_hdf]; rewrite ?fresh_none by reflexivity; auto. }
  unfold level, hdf_hooks. cbn [t_whole t_hdf]. rewrite tell_all_block. cbn [w_block]. rewrite ?B.
  destruct o as [| |part n|n|]; cbn [scan_try] in Q.
  - unfold start_run in Q. destruct (s_state s); try discriminate. injection Q as <-. cbn. repeat split; auto. discriminate.
  - specialize (E eq_refl). unfold end_run in Q. destruct (s_state s) eqn:S; try discriminate. specialize (NX eq_refl). destruct (s_configured s <? s_total s).
    + destruct (nth_error (p_steps (s_plan s)) (if p_use (s_plan s) then Datatypes.S (s_idx s) else s_idx s)); [|discriminate].
      injection Q as <-. erewrite fresh_new by reflexivity. cbn. repeat split; auto. lia.
    + injection Q as <-. erewrite fresh_new by reflexivity. cbn. repeat split; auto.
  - injection Q as <-. cbn. auto.
  - exfalso. eapply NO. reflexivity.
  - unfold resume in Q. destruct (s_state s); try discriminate. congruence.
Qed.
Lemma next_not_paused w s : good w -> w_block w = Scanning s -> s_state s = Running -> s_next s <> Paused.
Proof.
  intros (p & _ & _ & A) B S. unfold agrees in A. rewrite B in A. destruct A as (zs & SI & _).
  pose proof (Scan_Proofs.v_state _ _ SI) as V. rewrite S in V. rewrite V. destruct (s_configured s <? s_total s); discriminate.
Qed.
Lemma level_step size soft t o : inv t -> tpolite t o -> tonward o -> level size t -> level size (tstep soft t o).
Proof.
  intros I P ON L. pose proof I as [G SU]. destruct t as [w h fl]. pose proof L as L0. unfold level in L0. cbn [t_whole t_hdf t_flight] in *.
  destruct (w_block w) as [| |s] eqn:B; try contradiction. destruct L0 as (L1 & L2 & L3).
  assert (HE : forall h2, s_offset h2 = 0 -> level size (mkTrio (hear soft w h h2) h2 fl)).
  { intros h2 O2. unfold level, hear. cbn [t_whole t_hdf]. destruct (s_reports h2) as [|n r]; [rewrite B; auto|].
    destruct (Nat.eqb (length r) (length (s_reports h))); [|rewrite B; auto]. unfold wstep. rewrite B. cbn. auto. }
  assert (HF : forall x y, s_offset (Count_Model.step Count_Model.Hdf h (if x : bool then Count_Model.Run else Count_Model.Frames y)) = 0).
  { intros x y. assert (M : forall z, s_offset (Count_Model.matches (Count_Model.update Count_Model.Hdf z)) = s_offset z).
    { intros z. unfold Count_Model.matches, Count_Model.update. destruct (0 <=? _); cbn; destruct (_ =? _); reflexivity. }
    destruct x; cbn [Count_Model.step]; [rewrite M; exact L3|]. destruct (s_running h); [rewrite M|]; exact L3. }
  destruct o as [o| |k].
  - destruct P as [P N]. cbn [t_whole] in P. unfold tstep, block_step. cbn [t_whole t_hdf t_flight].
    destruct o as [dims axes bps mode| | |o|part|]; try contradiction.
    + unfold wstep. rewrite B. destruct o as [| |part n|n|]; try contradiction;
        try (apply (level_call size w s h fl soft); auto; try (intros; discriminate); intros S; now apply (next_not_paused w s)).
      destruct (s_finished h) eqn:FI; [|exact L]. destruct (run_over (w_unit w)) eqn:R.
      * apply (level_call size w s h fl soft); auto; try (intros; discriminate).
        -- intros _. unfold sure in SU. rewrite B in SU. destruct (s_state s) eqn:S.
           ++ destruct SU as (_ & _ & _ & _ & X & _). congruence.
           ++ destruct SU as (C1 & C2 & C3 & C4 & C5 & C6). specialize (C5 FI). lia.
           ++ congruence.
           ++ destruct SU as (C1 & C2). destruct G as (p & _ & _ & AG). unfold agrees in AG. rewrite B in AG. destruct AG as (zs & SI & _).
              pose proof (Scan_Proofs.v_state _ _ SI) as V. rewrite S in V. lia.
        -- intros S. now apply (next_not_paused w s).
      * unfold hdf_hooks. rewrite B, fresh_none by reflexivity. exact L.
    + unfold hdf_hooks. cbn [fold_left]. unfold wstep. rewrite B. destruct (s_state s) eqn:S; try exact L. 
      pose proof (level_call size w s h fl soft (Report part (det_completed (m_det (w_unit w)) (m_counter (w_unit w))))) as X.
      unfold hdf_hooks in X. cbn [fold_left] in X. apply X; auto; try (intros; discriminate); [congruence|]. intros _. now apply (next_not_paused w s).
    + unfold hdf_hooks. cbn [fold_left]. unfold wstep. rewrite B. unfold level. cbn [t_whole t_hdf].
      destruct (s_state s) eqn:S; try (rewrite B, S; auto).
      destruct (w_shot w <? w_count w); [rewrite tell_block|]; rewrite B, S; auto.
  - unfold tstep. cbn [t_whole t_hdf t_flight]. rewrite B. destruct s as [tt pl ix cf cm st nx pr ak] eqn:ES. destruct st; try exact L.
    destruct (s_running h || s_finished h); [exact L|]. apply HE. exact (HF true 0).
  - unfold tstep. cbn [t_whole t_hdf t_flight]. destruct ((1 <=? k) && (k <=? fl)); [|exact L]. exact (HE _ (HF false k)).
Qed.
(* A scan that goes on to its end without a pause: the file has as many frames as the scan has steps. *)
Theorem C106_all_steps : forall soft h dims axes bps mode h2 s,
  let t := trun soft new_trio (h ++ TBlock (WConfigure dims axes bps mode) :: h2) in
  along tpolite soft new_trio (h ++ TBlock (WConfigure dims axes bps mode) :: h2) -> along tcalm soft new_trio h -> Forall tonward h2 ->
  match w_block (t_whole (trun soft new_trio h)) with Ready => True | Scanning s0 => s_state s0 = Finished | Aborted => False end ->
  (exists s0, configure dims axes bps = Ok s0) ->
  w_block (t_whole t) = Scanning s -> s_state s = Finished -> s_captured (t_hdf t) = gen_size dims /\ t_flight t = 0.
Proof.
  intros soft h dims axes bps mode h2 s t P C ON R (s0 & CF) B S.
  assert (SP : forall Q a b x, along Q soft x (a ++ b) -> along Q soft x a /\ along Q soft (trun soft x a) b).
  { clear. intros Q. induction a as [|o a IH]; intros b x H; [split; [exact Logic.I|exact H]|]. cbn in H. destruct H as [H1 H2].
    apply IH in H2 as [H2 H3]. split; [split; assumption|exact H3]. }
  apply SP in P as [P1 [[[W BP] N] P3]]. pose proof (inv_run soft h new_trio inv_new P1 C) as I0.
  set (t0 := trun soft new_trio h) in *.
  assert (ET : t = trun soft (tstep soft t0 (TBlock (WConfigure dims axes bps mode))) h2).
  { unfold t, trun. rewrite fold_left_app. reflexivity. }
  set (t1 := tstep soft t0 (TBlock (WConfigure dims axes bps mode))) in *.
  assert (I1 : inv t1). { apply inv_block; auto. split; assumption. }
  destruct (Scan_Proofs.configure_inv _ _ _ _ W BP CF) as (zs & SI & Hc & Hs & _ & Ht & _).
  assert (L1 : level (gen_size dims) t1).
  { unfold t1, tstep, block_step, wstep, hdf_hooks. rewrite CF.
    destruct (w_block (t_whole t0)) as [| |[tt pl ix cf cm st nx pr ak]]; [|contradiction|cbn in R; subst st];
      unfold level; cbn; rewrite Hs; cbn; repeat split; auto; discriminate. }
  assert (X : forall l x, inv x -> along tpolite soft x l -> Forall tonward l -> level (gen_size dims) x ->
    inv (trun soft x l) /\ level (gen_size dims) (trun soft x l)).
  { clear. intros l. induction l as [|o l IH]; intros x I P O L; [auto|]. destruct P as [P1 P2]. inversion O; subst.
    cbn [trun fold_left]. apply IH; auto; [apply inv_step; auto|apply level_step; auto].
    destruct o as [[| | |[]| |]| |]; cbn in *; auto; try contradiction; unfold calm; destruct (w_block (t_whole x)); exact Logic.I. }
  destruct (X h2 t1 I1 P3 ON L1) as [[_ SU] L]. rewrite <- ET in SU, L. unfold level in L. unfold sure in SU. rewrite B in SU, L.
  rewrite S in SU. lia.
Qed.
Print Assumptions C106_all_steps.

(* ---- examples ---- *)
Definition line : list dim := [mk_dim ["x"] 4].
Lemma line_ok : well_formed line.
Proof. split; [repeat constructor; discriminate|constructor; [intros []|constructor]]. Qed.
Ltac polite_by := vm_compute; repeat split; try discriminate; auto; try exact (proj1 line_ok); try exact (proj2 line_ok).
(* With a frame on its way when the run is paused, the writer takes it for one of the next run and is done with
   a frame missing: the scan is Finished while it is not in the file. *)
Definition hasty : list top :=
  [TBlock (WConfigure line ["x"] [] "External"); TBlock (WScan StartRun); THdfRun; TBlock WTrigger; TBlock WTrigger; TArrive 1;
   TBlock (WScan (Pause 1)); TArrive 1; TBlock (WScan Resume); THdfRun; TBlock WTrigger; TBlock WTrigger; TBlock WTrigger; TArrive 2;
   TBlock (WScan EndRun)].
Theorem C106_pause_refuted : exists soft h s, along tpolite soft new_trio h /\ along torderly soft new_trio h /\
  let t := trun soft new_trio h in w_block (t_whole t) = Scanning s /\ s_state s = Finished /\ t_flight t = 1.
Proof.
  exists ["Internal"], hasty. eexists. split; [polite_by|]. split; [vm_compute; repeat split|].
  vm_compute. repeat split.
Qed.
Print Assumptions C106_pause_refuted.
(* Before the writer listens the steps completed are those of the detector, though no frame of them is in the file. *)
Theorem C106_early_refuted : exists soft h s, along tpolite soft new_trio h /\ along tcalm soft new_trio h /\
  let t := trun soft new_trio h in w_block (t_whole t) = Scanning s /\ s_state s = Running /\ s_completed s = 2 /\ written t = 0.
Proof.
  exists ["Internal"], [TBlock (WConfigure line ["x"] [] "External"); TBlock (WScan StartRun); TBlock WTrigger; TBlock WTrigger; TBlock (WReport "DET")].
  eexists. split; [polite_by|]. split; [vm_compute; repeat split|]. vm_compute. repeat split.
Qed.
Print Assumptions C106_early_refuted.
(* A scan with a breakpoint, paused and resumed; all as it should be; then another without a pause. *)
Definition steady : list top :=
  [TBlock (WConfigure line ["x"] [3] "External"); TBlock (WScan StartRun); TBlock WTrigger; TArrive 1; THdfRun; TBlock (WReport "DET"); TBlock WTrigger;
   TBlock (WReport "DET"); TArrive 1; TBlock (WScan (Pause 1)); TBlock (WScan Resume); THdfRun; TBlock WTrigger; TBlock WTrigger; TArrive 2; TBlock (WReport "DET");
   TBlock (WScan EndRun); TBlock (WScan StartRun); THdfRun; TBlock WTrigger; TArrive 1; TBlock (WScan EndRun);
   TBlock (WConfigure line ["x"] [2] "Internal"); TBlock (WScan StartRun); TBlock WTrigger; THdfRun; TBlock WTrigger; TArrive 2; TBlock (WReport "DET");
   TBlock (WScan EndRun); TBlock (WScan StartRun); THdfRun; TBlock WTrigger; TBlock WTrigger; TArrive 1; TArrive 1; TBlock (WScan EndRun)].
Definition shown (t : trio) : option (sstate * Z) * Z * Z * Z :=
  (match w_block (t_whole t) with Scanning s => Some (s_state s, s_completed s) | _ => None end, s_captured (t_hdf t), s_offset (t_hdf t), t_flight t).
Example C106_ex : along tpolite ["Internal"] new_trio steady /\ along tcalm ["Internal"] new_trio steady /\ along torderly ["Internal"] new_trio steady /\
  map (fun n => shown (trun ["Internal"] new_trio (firstn n steady))) [8; 9; 10; 16; 22; 23; 37]%nat =
  [(Some (Running, 1), 1, 0, 1); (Some (Running, 2), 2, 0, 0); (Some (Paused, 1), 2, 1, 0); (Some (Running, 3), 4, 1, 0);
   (Some (Finished, 4), 5, 1, 0); (Some (Armed, 0), 0, 0, 0); (Some (Finished, 4), 4, 0, 0)] /\
  Forall tonward (skipn 23 steady).
Proof. split; [polite_by|]. split; [vm_compute; repeat split|]. split; [vm_compute; repeat split|]. split; [vm_compute; reflexivity|vm_compute; repeat constructor]. Qed.
