(** C68: the beam selector holds still for each detector in turn, once in each cycle. *)
From Coq Require Import String Bool QArith Qminmax Lia Lqa List.
From Verif Require Import Base Beam_Model.
Import ListNotations.
Local Open Scope nat_scope.

(** A detector can be used: it takes one frame, is enabled and is exposed. *)
Definition usable (rows : list drow) (name : string) (exposure : Q) : Prop :=
  exists mri, In (mkDet true name mri exposure 1) rows /\ (0 < exposure)%Q.

Lemma check_ok r : check_detector r = None <-> d_frames r = 1 /\ d_enable r = true /\ (0 < d_exposure r)%Q.
Proof.
  unfold check_detector. destruct (Nat.eqb_spec (d_frames r) 1) as [E|E]; cbn [negb]; [|split; [discriminate|tauto]].
  destruct (d_enable r); cbn [negb]; [|split; [discriminate|intros (_ & X & _); discriminate]].
  destruct (Qle_bool (d_exposure r) 0) eqn:Q; [split; [discriminate|]|split; auto].
  - apply Qle_bool_iff in Q. intros (_ & _ & X). lra.
  - intros _. split; [exact E|]. split; [reflexivity|]. apply Qnot_le_lt. intro X. apply Qle_bool_iff in X. congruence.
Qed.
Lemma find_sound p rows : forall acc d i, find_exposures p rows acc = Ok (Some d, Some i) -> (fst acc = None \/ snd acc = None) ->
  (fst acc = Some d \/ usable rows (b_diffraction_det p) d) /\ (snd acc = Some i \/ usable rows (b_imaging_det p) i).
Proof.
  induction rows as [|r rows IH]; intros acc d i H N; cbn in H.
  - injection H as ->. cbn. auto.
  - assert (U : forall n e, usable rows n e -> usable (r :: rows) n e) by (intros n e (m & I & X); exists m; split; [now right|exact X]).
    assert (HD : forall n, d_name r = n -> check_detector r = None -> usable (r :: rows) n (d_exposure r)).
    { intros n E C. apply check_ok in C. destruct C as (F & En & X). exists (d_mri r). split; [left; destruct r; cbn in *; subst; reflexivity|exact X]. }
    destruct (String.eqb_spec (d_name r) (b_diffraction_det p)) as [E|E].
    + destruct (check_detector r) eqn:C; [discriminate|]. destruct (snd acc) as [si|] eqn:Es.
      * injection H as <- <-. split; [right; apply HD; auto|left; reflexivity].
      * destruct (IH _ _ _ H) as [A B]; [now right|]. cbn [fst snd] in *. split; [|destruct B; [discriminate|right; auto]].
        destruct A as [A|A]; [injection A as <-; right; apply HD; auto|right; auto].
    + destruct (String.eqb_spec (d_name r) (b_imaging_det p)) as [E'|E'].
      * destruct (check_detector r) eqn:C; [discriminate|]. destruct (fst acc) as [fd|] eqn:Ef.
        -- injection H as <- <-. split; [left; reflexivity|right; apply HD; auto].
        -- destruct (IH _ _ _ H) as [A B]; [now left|]. cbn [fst snd] in *. split; [destruct A; [discriminate|right; auto]|].
           destruct B as [B|B]; [injection B as <-; right; apply HD; auto|right; auto].
      * destruct acc as [[fd|] [si|]]; cbn [fst snd] in *; [destruct N; discriminate| | |];
          (destruct (IH _ _ _ H) as [A B]; [cbn; auto|]; cbn [fst snd] in *; split; [destruct A; auto|destruct B; auto]).
Qed.
Lemma find_complete p rows d i : NoDup (map d_name rows) -> b_diffraction_det p <> b_imaging_det p -> forall acc,
  (fst acc = None \/ snd acc = None) ->
  (fst acc = Some d \/ (fst acc = None /\ usable rows (b_diffraction_det p) d)) ->
  (snd acc = Some i \/ (snd acc = None /\ usable rows (b_imaging_det p) i)) ->
  (fst acc <> None -> ~ In (b_diffraction_det p) (map d_name rows)) ->
  (snd acc <> None -> ~ In (b_imaging_det p) (map d_name rows)) ->
  find_exposures p rows acc = Ok (Some d, Some i).
Proof.
  intros N NE. induction rows as [|r rows IH]; intros acc O A B X Y.
  - exfalso. destruct A as [A|[_ (m & [] & _)]], B as [B|[_ (m & [] & _)]]. destruct O; congruence.
  - cbn [map] in N. inversion N as [|? ? Nr N']; subst. cbn [find_exposures].
    assert (U : forall n e, usable (r :: rows) n e -> d_name r <> n -> usable rows n e).
    { intros n e (m & [->|I] & Z) D; [cbn in D; congruence|]. exists m. auto. }
    assert (V : forall n e, usable (r :: rows) n e -> d_name r = n -> check_detector r = None /\ d_exposure r = e).
    { intros n e (m & [->|I] & Z) D.
      - split; [|reflexivity]. apply check_ok. auto.
      - exfalso. apply Nr. rewrite D. apply in_map_iff. eexists. split; [|exact I]. reflexivity. }
    destruct (String.eqb_spec (d_name r) (b_diffraction_det p)) as [E|E].
    + destruct A as [A|[A1 A2]]; [exfalso; apply X; [congruence|left; exact E]|].
      destruct (V _ _ A2 E) as [-> Ee]. rewrite Ee. destruct B as [B|[B1 B2]].
      * rewrite B. reflexivity.
      * rewrite B1. apply (IH N'); cbn [fst snd]; auto.
        -- right. split; [reflexivity|]. apply U; [exact B2|congruence].
        -- intros _ I. apply Nr. now rewrite E.
    + destruct (String.eqb_spec (d_name r) (b_imaging_det p)) as [E'|E'].
      * destruct B as [B|[B1 B2]]; [exfalso; apply Y; [congruence|left; exact E']|].
        destruct (V _ _ B2 E') as [-> Ee]. rewrite Ee. destruct A as [A|[A1 A2]].
        -- rewrite A. reflexivity.
        -- rewrite A1. apply (IH N'); cbn [fst snd]; auto.
           intros _ I. apply Nr. now rewrite E'.
      * assert (R : find_exposures p rows acc = Ok (Some d, Some i)).
        { apply (IH N'); auto.
          - destruct A as [A|[A1 A2]]; [now left|right; split; [exact A1|now apply U]].
          - destruct B as [B|[B1 B2]]; [now left|right; split; [exact B1|now apply U]].
          - intros Z I. apply (X Z). now right.
          - intros Z I. apply (Y Z). now right. }
        destruct acc as [[fd|] [si|]]; cbn [fst snd] in *; [destruct O; discriminate| | |]; exact R.
Qed.
(** The exposures are those of the two detectors in the table, and there are some exactly if both
    detectors can be used. *)
Theorem C68_exposures : forall p rows d i, NoDup (map d_name rows) -> b_diffraction_det p <> b_imaging_det p ->
  exposure_times p rows = Ok (d, i) <-> usable rows (b_diffraction_det p) d /\ usable rows (b_imaging_det p) i.
Proof.
  intros p rows d i N NE. unfold exposure_times. split.
  - destruct (find_exposures p rows (None, None)) as [[[d'|] [i'|]]|] eqn:F; try discriminate. intro H. injection H as -> ->.
    apply find_sound in F; [|now left]. cbn in F. destruct F as [[F|F] [G|G]]; try discriminate. auto.
  - intros [A B]. rewrite (find_complete p rows d i N NE (None, None)); cbn; auto.
Qed.
Print Assumptions C68_exposures.

Lemma qmax_ge a b : (a <= qmax a b /\ b <= qmax a b)%Q /\ (qmax a b = a \/ qmax a b = b).
Proof.
  unfold qmax. destruct (Qle_bool b a) eqn:E; [apply Qle_bool_iff in E|].
  - split; [split; [apply Qle_refl|exact E]|now left].
  - assert (a < b)%Q. { apply Qnot_le_lt. intro X. apply Qle_bool_iff in X. congruence. } split; [split; lra|now right].
Qed.

(** The time that a detector of exposure [e] gets with the minimum turnaround [gap]: the shortest
    that is not below any of them. *)
Definition held (gaps : list Q) (e t : Q) : Prop :=
  (e <= t /\ (2 # 1000) <= t /\ (forall g, In g gaps -> g <= t))%Q /\ (t = e \/ t = (2 # 1000)%Q \/ In t gaps).
Lemma times_held p gaps rows td ti : times_at p gaps rows = Ok (td, ti) ->
  exists d i, exposure_times p rows = Ok (d, i) /\ held gaps d td /\ held gaps i ti.
Proof.
  unfold times_at. destruct (exposure_times p rows) as [[d i]|] eqn:E; [|discriminate].
  destruct (min_turnaround gaps) as [t|] eqn:M; [|discriminate]. intro H. injection H as <- <-. exists d, i. split; [reflexivity|].
  assert (T : ((2 # 1000) <= t /\ (forall g, In g gaps -> g <= t))%Q /\ (t = (2 # 1000)%Q \/ In t gaps)).
  { unfold min_turnaround in M. destruct gaps as [|g [|]]; [| |discriminate]; injection M as <-.
    - split; [split; [apply Qle_refl|intros g []]|now left].
    - destruct (qmax_ge MIN_TIME g) as [[A B] C]. split; [split; [exact A|intros x [<-|[]]; exact B]|].
      destruct C as [->| ->]; [now left|right; now left]. }
  destruct T as [[T1 T2] T3].
  assert (H : forall e, held gaps e (qmax t e)).
  { intro e. destruct (qmax_ge t e) as [[A B] C]. split.
    - split; [exact B|]. split; [lra|]. intros g G. specialize (T2 g G). lra.
    - destruct C as [->| ->]; [right; exact T3|now left]. }
  split; apply H.
Qed.

(** Validation asks for the duration of a cycle, and for nothing more when it has it; configure takes
    exactly that duration. *)
Theorem C68_validate : forall p g gaps rows size td ti, g_static g = Some size -> times_at p gaps rows = Ok (td, ti) ->
  (on_validate p g gaps rows = Ok None /\ (g_duration g == td + ti + 2 * b_move p)%Q \/
   on_validate p g gaps rows = Ok (Some (td + ti + 2 * b_move p)%Q) /\ ~ (g_duration g == td + ti + 2 * b_move p)%Q) /\
  on_validate p (mkGen (g_static g) (td + ti + 2 * b_move p)) gaps rows = Ok None /\
  forall c n, (exists r, on_configure p c n gaps g rows = Ok r) <-> on_validate p g gaps rows = Ok None.
Proof.
  intros p g gaps rows size td ti S T. unfold on_validate, on_configure. cbn [g_static g_duration]. rewrite S, T. unfold cycle_duration.
  assert (R : Qeq_bool (td + ti + 2 * b_move p) (td + ti + 2 * b_move p) = true) by apply Qeq_bool_refl. rewrite R.
  destruct (Qeq_bool (g_duration g) (td + ti + 2 * b_move p)) eqn:E.
  - apply Qeq_bool_iff in E. split; [left; auto|]. split; [reflexivity|]. intros c n. split; [auto|]. intros _. eauto.
  - split; [right; split; [reflexivity|intro X; apply Qeq_bool_iff in X; congruence]|]. split; [reflexivity|].
    intros c n. split; [intros (r & H); discriminate|discriminate].
Qed.
Print Assumptions C68_validate.

(** A list of [n] times the same. *)
Fixpoint times {A} (n : nat) (l : list A) : list A := match n with 0 => [] | S m => l ++ times m l end.
(** One cycle: to the diffraction angle and wait there, to the imaging angle and wait there. *)
Definition cycle (p : part) (td ti : Q) : list point :=
  [mkPoint (b_imaging p) (b_diffraction p) (b_move p) td; mkPoint (b_diffraction p) (b_imaging p) (b_move p) ti].
Lemma points_cycles p td ti n : forall k, map (get_point p td ti) (seq (k * 2) (n * 2)) = times n (cycle p td ti).
Proof.
  induction n as [|n IH]; intro k; [reflexivity|]. cbn [Nat.mul Nat.add seq map times].
  change (S (S (k * 2))) with (S k * 2). rewrite IH. unfold get_point, cycle. cbn [app].
  assert (E : Nat.even (k * 2) = true) by (rewrite Nat.even_mul; now rewrite orb_true_r). rewrite E, Nat.even_succ, <- Nat.negb_even, E. reflexivity.
Qed.

(** A scan from its start: for each step asked for the selector goes once to each angle and waits there
    at least for the exposure of the detector, and the turnaround; a step takes the duration of the
    generator. *)
Theorem C68_cycles : forall p todo gaps g rows c, on_configure p 0 todo gaps g rows = Ok c ->
  exists d i td ti, exposure_times p rows = Ok (d, i) /\ held gaps d td /\ held gaps i ti /\
    driven c = times todo (cycle p td ti) /\
    (fold_right Qplus 0 (map (fun x => p_duration x + p_delay x) (cycle p td ti)) == g_duration g)%Q.
Proof.
  intros p todo gaps g rows c H. unfold on_configure in H. destruct (g_static g) as [size|]; [|discriminate].
  destruct (times_at p gaps rows) as [[td ti]|] eqn:T; [|discriminate]. destruct (Qeq_bool _ _) eqn:E; [|discriminate].
  injection H as <-. destruct (times_held _ _ _ _ _ T) as (d & i & X & Hd & Hi). exists d, i, td, ti.
  split; [exact X|]. split; [exact Hd|]. split; [exact Hi|]. split.
  - unfold driven. cbn [c_point c_completed c_todo]. exact (points_cycles p td ti todo 0).
  - apply Qeq_bool_iff in E. unfold cycle_duration in E. cbn. lra.
Qed.
Print Assumptions C68_cycles.

(** The points are joined: each starts where the one before ended, and the tail goes on from the last. *)
Theorem C68_joined : forall p completed todo gaps g rows c, on_configure p completed todo gaps g rows = Ok c ->
  (forall a b l r, driven c = l ++ a :: b :: r -> p_upper a = p_lower b) /\
  (0 < todo -> p_upper (fst (tail c)) = p_lower (snd (tail c))).
Proof.
  intros p completed todo gaps g rows c H. unfold on_configure in H. destruct (g_static g) as [size|]; [|discriminate].
  destruct (times_at p gaps rows) as [[td ti]|] eqn:T; [|discriminate]. destruct (Qeq_bool _ _) eqn:E; [|discriminate]. injection H as <-.
  assert (J : forall j, p_upper (get_point p td ti j) = p_lower (get_point p td ti (S j))).
  { intro j. unfold get_point. rewrite Nat.even_succ, <- Nat.negb_even. destruct (Nat.even j); reflexivity. }
  split.
  - intros a b l r D. unfold driven in D. cbn [c_point c_completed c_todo] in D.
    assert (A : nth_error (map (get_point p td ti) (seq completed (todo * 2))) (length l) = Some a).
    { rewrite D, nth_error_app2 by lia. now rewrite Nat.sub_diag. }
    assert (B : nth_error (map (get_point p td ti) (seq completed (todo * 2))) (S (length l)) = Some b).
    { rewrite D, nth_error_app2 by lia. replace (S (length l) - length l) with 1 by lia. reflexivity. }
    assert (L : S (length l) < todo * 2).
    { assert (X : length (map (get_point p td ti) (seq completed (todo * 2))) = length (l ++ a :: b :: r)) by now rewrite D.
      rewrite map_length, seq_length, app_length in X. cbn in X. lia. }
    rewrite nth_error_map in A, B. rewrite (nth_error_nth' _ 0) in A by (rewrite seq_length; lia).
    rewrite (nth_error_nth' _ 0) in B by (rewrite seq_length; lia). rewrite seq_nth in A, B by lia. cbn in A, B.
    injection A as <-. injection B as <-. rewrite J. f_equal. f_equal. lia.
  - intro P. unfold tail. cbn [c_point c_completed c_todo fst snd].
    assert (X : exists j, completed + todo * 2 - 2 = j /\ completed + todo * 2 - 1 = S j) by (eexists; split; [reflexivity|lia]).
    destruct X as (j & -> & ->). unfold get_point. rewrite Nat.even_succ, <- Nat.negb_even. destruct (Nat.even j); reflexivity.
Qed.
Print Assumptions C68_joined.

Example C68_ex :
  let p := mkPart 50 90 "im" "diff" (1 # 2) in
  let rows := [mkDet true "im" "ML-IM" (1 # 10) 1; mkDet true "diff" "ML-DIFF" (3 # 10) 1; mkDet true "PandA" "ML-P" 0 2] in
  exists c, on_validate p (mkGen (Some 3) 0) [] rows = Ok (Some (((3 # 10) + (1 # 10) + 2 * (1 # 2))%Q)) /\
  on_configure p 0 3 [] (mkGen (Some 3) (14 # 10)) rows = Ok c /\
  map (fun x => (p_lower x, p_upper x, p_delay x)) (driven c)
  = [(50, 90, 3 # 10); (90, 50, 1 # 10); (50, 90, 3 # 10); (90, 50, 1 # 10); (50, 90, 3 # 10); (90, 50, 1 # 10)]%Q /\
  on_validate p (mkGen (Some 3) 0) [] (firstn 1 rows) = Err NoDiffraction.
Proof. eexists. repeat split. Qed.

(** A run that does not start at the first step: the right number of points, but [completed] points too
    early, as the steps completed are not doubled. *)
Theorem C68_resumed : forall p completed todo gaps g rows c, on_configure p completed todo gaps g rows = Ok c ->
  exists td ti, driven c = map (get_point p td ti) (seq completed (todo * 2)) /\
    firstn (todo * 2) (skipn completed (times (completed + todo) (cycle p td ti))) = driven c.
Proof.
  intros p completed todo gaps g rows c H. unfold on_configure in H. destruct (g_static g) as [size|]; [|discriminate].
  destruct (times_at p gaps rows) as [[td ti]|] eqn:T; [|discriminate]. destruct (Qeq_bool _ _) eqn:E; [|discriminate]. injection H as <-.
  exists td, ti. unfold driven. cbn [c_point c_completed c_todo]. split; [reflexivity|].
  rewrite <- (points_cycles p td ti (completed + todo) 0). cbn [Nat.mul].
  replace ((completed + todo) * 2) with (completed + (todo * 2 + completed)) by lia. rewrite !seq_app, !map_app.
  rewrite skipn_app, skipn_all2 by (rewrite map_length, seq_length; lia). rewrite map_length, seq_length, Nat.sub_diag. cbn [app skipn Nat.add].
  rewrite firstn_app, map_length, seq_length, Nat.sub_diag. cbn [firstn]. rewrite app_nil_r. apply firstn_all2. rewrite map_length, seq_length. lia.
Qed.
Print Assumptions C68_resumed.

(** So after a pause, or at the second breakpoint, the selector does not do the steps that are left: it
    starts with the wrong detector, and the last one is never served. *)
Theorem C68_resumed_refuted : exists p todo gaps g rows c td ti,
  times_at p gaps rows = Ok (td, ti) /\ on_configure p 1 todo gaps g rows = Ok c /\
  driven c <> times todo (cycle p td ti) /\
  (forall x r, driven c = x :: r -> p_upper x = b_imaging p) /\
  (forall x l, driven c = l ++ [x] -> p_upper x = b_diffraction p).
Proof.
  exists (mkPart 50 90 "im" "diff" (1 # 2)), 2, [], (mkGen (Some 3) (14 # 10)),
    [mkDet true "im" "ML-IM" (1 # 10) 1; mkDet true "diff" "ML-DIFF" (3 # 10) 1; mkDet true "PandA" "ML-P" 0 2].
  eexists. eexists. eexists. split; [reflexivity|]. split; [reflexivity|]. split; [discriminate|]. split.
  - intros x r H. cbn in H. injection H as <- _. reflexivity.
  - intros x l H. cbn in H. destruct l as [|x1 [|x2 [|x3 [|x4 [|]]]]]; try discriminate. injection H as <- <- <- <-. reflexivity.
Qed.
Print Assumptions C68_resumed_refuted.

(** The progress of a scan of [todo] steps is reported as up to twice as many. *)
Theorem C68_progress_refuted : exists p todo gaps g rows c, on_configure p 0 todo gaps g rows = Ok c /\
  g_static g = Some todo /\ exists k, In k (reported c) /\ todo < k.
Proof.
  exists (mkPart 50 90 "im" "diff" (1 # 2)), 3, [], (mkGen (Some 3) (14 # 10)),
    [mkDet true "im" "ML-IM" (1 # 10) 1; mkDet true "diff" "ML-DIFF" (3 # 10) 1].
  eexists. split; [reflexivity|]. split; [reflexivity|]. exists 6. split; [cbn; tauto|lia].
Qed.
Print Assumptions C68_progress_refuted.
