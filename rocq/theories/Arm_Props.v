(* C103: every trigger of a scan finds the detector armed. *)
From Coq Require Import String Bool ZArith Lia List.
From Verif Require Import Base Scan_Model Det_Model Arm_Model.
Import ListNotations.
Local Open Scope string_scope.
Local Open Scope Z_scope.
Local Open Scope list_scope.

(* ---- the course of scans ---- *)
(* Before the first scan; configured for n steps from step c of size; in the run of these with k triggers so far;
   all steps done; paused, aborted or reset. *)
Inductive phase := New | Armed (size c n : Z) | Running (size c n k : Z) | Finished (size : Z) | Halted (size : Z).
(* What may come next.  Steps are in the scan, one at least; a run has as many triggers as steps; what follows a
   completed run goes on where it ended; after a pause any step may be next. *)
Definition next (p : phase) (o : uop) : option phase :=
  let armed size c n := if (0 <=? c) && (1 <=? n) && (c + n <=? size) then Some (Armed size c n) else None in
  match p, o with
  | (New | Finished _ | Halted _), UConfigure _ _ size c n => armed size c n
  | Halted size, USeek c n => armed size c n
  | Armed size c n, URun => Some (Running size c n 0)
  | Running size c n k, UTrigger => if k <? n then Some (Running size c n (k + 1)) else None
  | Running size c n k, UPostRunArmed c' n' => if (k =? n) && (c' =? c + n) then armed size c' n' else None
  | Running size c n k, UPostRunReady => if (k =? n) && (c + n =? size) then Some (Finished size) else None
  | New, UStop => Some New
  | (Armed size _ _ | Running size _ _ _ | Finished size | Halted size), UStop => Some (Halted size)
  | _, _ => None
  end.
Fixpoint course (p : phase) (ops : list uop) : option phase :=
  match ops with [] => Some p | o :: r => match next p o with Some p' => course p' r | None => None end end.

Definition act (soft : list string) (ops : list uop) (m : unit_) : unit_ := fold_left (ustep soft) ops m.
Definition ids (l : list event) : list Z := flat_map (fun e => match e with Frame i => [i] | _ => [] end) l.
Definition starts (l : list event) : nat := length (filter (fun e => match e with Started _ => true | _ => false end) l).
Definition count (f : uop -> bool) (ops : list uop) : nat := length (filter f ops).
Definition is_trigger o := match o with UTrigger => true | _ => false end.
Definition is_configure o := match o with UConfigure _ _ _ _ _ => true | _ => false end.
Definition is_seek o := match o with USeek _ _ => true | _ => false end.
Definition is_again o := match o with UPostRunArmed _ _ => true | _ => false end.
Definition is_run o := match o with URun => true | _ => false end.

(* ---- invariant ---- *)
Definition ready (m : unit_) (size c n k : Z) : Prop :=
  m_size m = size /\ 0 <= c /\ 1 <= n /\ c + n <= size /\ 0 <= k <= n /\
  m_counter m = dt_done (m_det m) - n + k /\ m_counter m + dt_off (m_det m) = c + k.
Definition stock (m : unit_) (size c n k : Z) : Prop :=
  m_left m = (if m_hw m && negb (m_bp m) then size - c - k else n - k) /\ m_acq m = (0 <? m_left m).
Definition inv (m : unit_) (p : phase) : Prop :=
  match p with
  | New => m_acq m = false
  | Armed s c n => ready m s c n 0 /\ (if m_hw m then stock m s c n 0 else m_acq m = false /\ dt_images (m_det m) = n)
  | Running s c n k => ready m s c n k /\ stock m s c n k
  | Finished s => m_acq m = false /\ m_size m = s
  | Halted s => m_acq m = false /\ m_size m = s
  end.

Ltac bools := repeat match goal with
  | H : (_ && _) = true |- _ => apply andb_true_iff in H as [? ?]
  | H : (_ <=? _) = true |- _ => apply Z.leb_le in H
  | H : (_ <? _) = true |- _ => apply Z.ltb_lt in H
  | H : (_ <? _) = false |- _ => apply Z.ltb_ge in H
  | H : (_ =? _) = true |- _ => apply Z.eqb_eq in H
  end.

(* One step: the invariant, and what it adds to the log. *)
Definition fine (e : event) : Prop := match e with Started b => b = false | Missed => False | _ => True end.
Lemma step_inv soft m p o p' : inv m p -> next p o = Some p' ->
  inv (ustep soft m o) p' /\
  exists new, m_log (ustep soft m o) = new ++ m_log m /\ Forall fine new /\
    ids new = (if is_trigger o then [m_counter m + 1] else []) /\
    m_hw (ustep soft m o) = (if is_configure o then m_hw (ustep soft m o) else m_hw m) /\
    m_bp (ustep soft m o) = (if is_configure o then m_bp (ustep soft m o) else m_bp m) /\
    starts new = (if is_configure o || is_seek o then (if m_hw (ustep soft m o) then 1 else 0)
                  else if is_again o then (if m_hw m && m_bp m then 1 else 0)
                  else if is_run o then (if m_hw m then 0 else 1) else 0)%nat.
Proof.
  intros I H.
  assert (AR : forall size c n, (if (0 <=? c) && (1 <=? n) && (c + n <=? size) then Some (Armed size c n) else None) = Some p' ->
    p' = Armed size c n /\ 0 <= c /\ 1 <= n /\ c + n <= size).
  { intros size c n E. destruct ((0 <=? c) && (1 <=? n) && (c + n <=? size)) eqn:B; [|discriminate].
    injection E as <-. bools. auto. }
  assert (CF : forall mode bp size c n, o = UConfigure mode bp size c n -> m_acq m = false -> 
    (if (0 <=? c) && (1 <=? n) && (c + n <=? size) then Some (Armed size c n) else None) = Some p' ->
    inv (ustep soft m o) p' /\
    exists new, m_log (ustep soft m o) = new ++ m_log m /\ Forall fine new /\ ids new = [] /\
      starts new = (if m_hw (ustep soft m o) then 1 else 0)%nat).
  { intros mode bp size c n -> A E. apply AR in E as (-> & B1 & B2 & B3). cbn [ustep].
    unfold set_up, arm_detector, images, num_images, inv, ready, stock, setup_detector. cbn.
    destruct (hardware soft mode (m_hw m)); cbn; rewrite ?A.
    - destruct bp; cbn; (split; [split; [lia|split; [lia|reflexivity]]|]);
        (exists [Started false]; repeat split; auto; constructor; [reflexivity|constructor]).
    - split; [split; [lia|auto]|]. exists []. repeat split; auto. }
  destruct p as [|s c n|s c n k|s|s], o as [mode bp size c' n'|c' n'|c' n'| | | |]; cbn [next] in H; try discriminate H;
    try (destruct (CF mode bp size c' n' eq_refl) as (J & new & L & F & D & S); [apply I|exact H|];
         split; [exact J|]; exists new; repeat split; assumption || reflexivity).
  - (* New, stop *) injection H as <-. cbn. split; [reflexivity|].
    exists [Stopped]. repeat split; auto. constructor; [exact Logic.I|constructor].
  - (* Armed, run *) injection H as <-. cbn [ustep inv] in *. destruct I as [R S].
    destruct (m_hw m) eqn:W; cbn.
    + split; [split; [exact R|exact S]|]. exists []. rewrite W. repeat split; auto.
    + destruct S as [A D]. unfold arm_detector, ready, stock in *; cbn. rewrite W, A, D. cbn.
      split; [split; [exact R|split; [lia|reflexivity]]|].
      exists [Started false]. repeat split; auto. constructor; [reflexivity|constructor].
  - (* Armed, stop *) injection H as <-. cbn. split; [split; [reflexivity|apply I]|].
    exists [Stopped]. repeat split; auto. constructor; [exact Logic.I|constructor].
  - (* Running, again *)
    destruct ((k =? n) && (c' =? c + n)) eqn:B; [|discriminate]. apply AR in H as (-> & B1 & B2 & B3).
    bools. subst k c'. destruct I as [(R1 & R2 & R3 & R4 & R5 & R6 & R7) [S1 S2]].
    cbn [ustep]. destruct (m_bp m) eqn:P, (m_hw m) eqn:W; cbn [orb negb andb] in *.
    + assert (A : m_acq m = false) by (rewrite S2; apply Z.ltb_ge; lia).
      unfold set_up, arm_detector, inv, ready, stock, setup_detector; cbn. rewrite ?W, ?P, ?A. cbn. rewrite ?W, ?P, ?A. cbn.
      split; [split; [lia|split; [lia|reflexivity]]|].
      exists [Started false]. repeat split; auto. constructor; [reflexivity|constructor].
    + assert (A : m_acq m = false) by (rewrite S2; apply Z.ltb_ge; lia).
      unfold set_up, arm_detector, inv, ready, stock, setup_detector; cbn. rewrite ?W, ?P. cbn. rewrite ?W, ?P.
      split; [split; [lia|auto]|]. exists []. repeat split; auto.
    + unfold inv, ready, stock; cbn. rewrite ?W, ?P. cbn.
      split; [split; [lia|split; [lia|exact S2]]|]. exists []. repeat split; auto.
    + assert (A : m_acq m = false) by (rewrite S2; apply Z.ltb_ge; lia).
      unfold set_up, arm_detector, inv, ready, stock, setup_detector; cbn. rewrite ?W, ?P. cbn. rewrite ?W, ?P.
      split; [split; [lia|auto]|]. exists []. repeat split; auto.
  - (* Running, ready *)
    destruct ((k =? n) && (c + n =? s)) eqn:B; [|discriminate]. injection H as <-. bools. subst k.
    destruct I as [(R1 & R2 & R3 & R4 & R5 & R6 & R7) [S1 S2]]. cbn.
    split; [split; [|exact R1]|exists []; repeat split; auto].
    rewrite S2. apply Z.ltb_ge. destruct (m_hw m && negb (m_bp m)); lia.
  - (* Running, stop *) injection H as <-. cbn. split; [split; [reflexivity|apply I]|].
    exists [Stopped]. repeat split; auto. constructor; [exact Logic.I|constructor].
  - (* Running, trigger *)
    destruct (k <? n) eqn:B; [|discriminate]. injection H as <-. bools.
    destruct I as [(R1 & R2 & R3 & R4 & R5 & R6 & R7) [S1 S2]]. cbn [ustep]. unfold trigger.
    assert (A : m_acq m = true) by (rewrite S2; apply Z.ltb_lt; destruct (m_hw m && negb (m_bp m)); lia).
    rewrite A. unfold inv, ready, stock; cbn.
    split; [split; [lia|]|].
    + split; [destruct (m_hw m && negb (m_bp m)); lia|].
      destruct (Z.ltb_spec 1 (m_left m)), (Z.ltb_spec 0 (m_left m - 1)); auto; lia.
    + exists [Frame (m_counter m + 1)]. repeat split; auto. constructor; [exact Logic.I|constructor].
  - (* Finished, stop *) injection H as <-. cbn. split; [split; [reflexivity|apply I]|].
    exists [Stopped]. repeat split; auto. constructor; [exact Logic.I|constructor].
  - (* Halted, seek *)
    apply AR in H as (-> & B1 & B2 & B3). destruct I as [A Z]. cbn [ustep].
    unfold set_up, arm_detector, images, num_images, inv, ready, stock, setup_detector. cbn.
    destruct (m_hw m) eqn:W; cbn; rewrite ?A, ?W; cbn.
    + destruct (m_bp m); cbn; (split; [split; [lia|split; [lia|reflexivity]]|]);
        (exists [Started false]; repeat split; auto; constructor; [reflexivity|constructor]).
    + split; [split; [lia|auto]|]. exists []. repeat split; auto.
  - (* Halted, stop *) injection H as <-. cbn. split; [split; [reflexivity|apply I]|].
    exists [Stopped]. repeat split; auto. constructor; [exact Logic.I|constructor].
Qed.

Lemma act_inv soft ops : forall m p p', inv m p -> course p ops = Some p' ->
  inv (act soft ops m) p' /\
  exists new, m_log (act soft ops m) = new ++ m_log m /\ Forall fine new /\ length (ids new) = count is_trigger ops.
Proof.
  induction ops as [|o ops IH]; intros m p p' I H; cbn in H.
  - injection H as <-. split; [exact I|]. exists []. repeat split. constructor.
  - destruct (next p o) as [q|] eqn:E; [|discriminate].
    destruct (step_inv soft m p o q I E) as (I' & new & L & F & D & _).
    destruct (IH _ _ _ I' H) as (I2 & new2 & L2 & F2 & D2).
    split; [exact I2|]. exists (new2 ++ new). cbn [act fold_left]. fold (act soft ops (ustep soft m o)).
    rewrite L2, L, app_assoc. split; [reflexivity|]. split; [apply Forall_app; auto|].
    unfold ids in *. rewrite flat_map_app, app_length, D2, D. unfold count. cbn [filter].
    destruct (is_trigger o); cbn; lia.
Qed.

(* ---- theorems ---- *)
(* Whatever the course of scans - with pauses, aborts and breakpoints, with triggers from outside or from itself -
   every trigger gives a frame, and the detector is never started while it acquires. *)
Theorem C103_every_trigger : forall soft ops p, course New ops = Some p ->
  let log := m_log (act soft ops new_unit) in
  ~ In Missed log /\ ~ In (Started true) log /\ length (ids log) = count is_trigger ops.
Proof.
  intros soft ops p H log.
  destruct (act_inv soft ops new_unit New p eq_refl H) as (_ & new & L & F & D).
  unfold log. rewrite L. cbn. rewrite app_nil_r. rewrite Forall_forall in F.
  split; [intros I; exact (F _ I)|]. split; [intros I; discriminate (F _ I)|exact D].
Qed.
Print Assumptions C103_every_trigger.

(* A run is over exactly with the frame of its last step; what is reported is the steps that are done. *)
Theorem C103_over : forall soft ops size c n k, course New ops = Some (Running size c n k) ->
  let m := act soft ops new_unit in
  (run_over m = true <-> k = n) /\ det_completed (m_det m) (m_counter m) = c + k.
Proof.
  intros soft ops size c n k H m.
  destruct (act_inv soft ops new_unit New _ eq_refl H) as [[(R1 & R2 & R3 & R4 & R5 & R6 & R7) _] _].
  fold m in R6, R7. unfold run_over, det_completed. split; [|exact R7]. rewrite Z.eqb_eq. lia.
Qed.
Print Assumptions C103_over.

(* When a scan is done, or was stopped, the detector is idle; while a run is not over it acquires. *)
Theorem C103_idle : forall soft ops p, course New ops = Some p ->
  let m := act soft ops new_unit in
  match p with
  | New | Finished _ | Halted _ => m_acq m = false
  | Running _ _ n k => k < n -> m_acq m = true
  | Armed _ _ _ => m_acq m = m_hw m
  end.
Proof.
  intros soft ops p H m.
  destruct (act_inv soft ops new_unit New _ eq_refl H) as [I _]. fold m in I.
  destruct p as [|s c n|s c n k|s|s]; cbn in I; try apply I.
  - destruct I as [(R1 & R2 & R3 & R4 & R5 & R6 & R7) S]. destruct (m_hw m) eqn:W; [|apply S].
    destruct S as [S1 S2]. rewrite S2. apply Z.ltb_lt. rewrite S1, W. destruct (m_bp m); cbn; lia.
  - intros K. destruct I as [(R1 & R2 & R3 & R4 & R5 & R6 & R7) [S1 S2]]. rewrite S2. apply Z.ltb_lt. rewrite S1.
    destruct (m_hw m && negb (m_bp m)); lia.
Qed.
Print Assumptions C103_idle.

(* How often it is started in a scan: with triggers from outside once, and once after each pause; with breakpoints
   once for each stretch too; with its own triggers once for each run. *)
Definition expected (hw bp : bool) (ops : list uop) : nat :=
  if hw then (count is_seek ops + if bp then count is_again ops else 0)%nat else count is_run ops.
Lemma starts_hw : forall soft before mode bp size c n ops p,
  course New (before ++ UConfigure mode bp size c n :: ops) = Some p -> count is_configure ops = 0%nat ->
  let m0 := act soft before new_unit in
  let m1 := act soft (before ++ UConfigure mode bp size c n :: ops) new_unit in
  let hw := hardware soft mode (m_hw m0) in
  exists new, m_log m1 = new ++ m_log m0 /\ starts new = ((if hw then 1 else 0) + expected hw bp ops)%nat.
Proof.
  intros soft before mode bp size c n ops p H NC m0 m1 hw.
  assert (SP : forall a b q r, course q (a ++ b) = Some r -> exists q', course q a = Some q' /\ course q' b = Some r).
  { clear. induction a as [|o a IH]; intros b q r E; [exists q; auto|]. cbn in *.
    destruct (next q o); [|discriminate]. apply IH, E. }
  apply SP in H as (q & H1 & H2). cbn in H2.
  destruct (next q (UConfigure mode bp size c n)) as [q2|] eqn:E; [|discriminate].
  destruct (act_inv soft before new_unit New q eq_refl H1) as [I0 _]. fold m0 in I0.
  destruct (step_inv soft m0 q _ q2 I0 E) as (I1 & new1 & L1 & _ & _ & _ & _ & S1).
  set (m2 := ustep soft m0 (UConfigure mode bp size c n)) in *.
  assert (W : m_hw m2 = hw /\ m_bp m2 = bp).
  { unfold m2, hw. cbn [ustep]. unfold set_up, arm_detector. cbn.
    destruct (hardware soft mode (m_hw m0)) eqn:W; cbn; auto. }
  assert (G : forall ops m q p, inv m q -> course q ops = Some p -> count is_configure ops = 0%nat ->
    exists new, m_log (act soft ops m) = new ++ m_log m /\ starts new = expected (m_hw m) (m_bp m) ops).
  { clear. intros ops. induction ops as [|o ops IH]; intros m q p I H NC; cbn in H.
    - exists []. split; [reflexivity|]. unfold expected, count, starts. cbn. destruct (m_hw m), (m_bp m); reflexivity.
    - destruct (next q o) as [q'|] eqn:E; [|discriminate].
      destruct (step_inv soft m q o q' I E) as (I' & new & L & _ & _ & W & B & S).
      assert (C : is_configure o = false /\ count is_configure ops = 0%nat).
      { unfold count in NC. cbn [filter] in NC. destruct (is_configure o); cbn in NC; [discriminate|auto]. }
      destruct C as [C C']. rewrite C in W, B, S.
      destruct (IH _ _ _ I' H C') as (new2 & L2 & S2).
      exists (new2 ++ new). cbn [act fold_left]. fold (act soft ops (ustep soft m o)). rewrite L2, L, app_assoc.
      split; [reflexivity|]. unfold starts in *. rewrite filter_app, app_length, S2, S, W, B.
      unfold expected, count. cbn [filter orb]. clear - C.
      destruct (m_hw m), (m_bp m), o; cbn in *; try discriminate; lia. }
  destruct (G ops m2 q2 p I1 H2 NC) as (new & L & S). destruct W as [W B].
  assert (EA : m1 = act soft ops m2).
  { unfold m1, m2, m0, act. rewrite fold_left_app. reflexivity. }
  exists (new ++ new1). rewrite EA, L, L1, app_assoc. split; [reflexivity|].
  unfold starts in *. rewrite filter_app, app_length, S, S1. cbn [is_configure is_seek orb].
  rewrite W, B. destruct hw; lia.
Qed.
(* A detector without modes of its own is always triggered from outside. *)
Lemma no_modes_hw ops : forall m, m_hw m = true -> m_hw (act [] ops m) = true.
Proof.
  induction ops as [|o ops IH]; intros m H; [exact H|]. cbn [act fold_left]. apply (IH (ustep [] m o)).
  destruct o; cbn [ustep hardware]; unfold set_up, arm_detector, setup_detector, abort_detector, trigger; cbn; rewrite ?H; cbn; auto.
  - destruct (m_bp m || false); cbn; rewrite ?H; auto.
  - destruct (m_acq m); cbn; auto.
Qed.
Theorem C103_starts : forall soft before mode bp size c n ops p hw,
  course New (before ++ UConfigure mode bp size c n :: ops) = Some p -> count is_configure ops = 0%nat ->
  (hw = true <-> ~ In mode soft) ->
  let m0 := act soft before new_unit in
  let m1 := act soft (before ++ UConfigure mode bp size c n :: ops) new_unit in
  exists new, m_log m1 = new ++ m_log m0 /\ starts new = ((if hw then 1 else 0) + expected hw bp ops)%nat.
Proof.
  intros soft before mode bp size c n ops p hw H NC W m0 m1.
  assert (E : hw = hardware soft mode (m_hw m0)).
  { unfold hardware. destruct soft as [|x r].
    - unfold m0. rewrite no_modes_hw by reflexivity. apply W. intros [].
    - destruct (smem mode (x :: r)) eqn:M; cbn [negb].
      + apply smem_In in M. destruct hw; [exfalso; now apply W|reflexivity].
      + apply W. intros I. apply smem_In in I. congruence. }
  rewrite E. apply (starts_hw soft before mode bp size c n ops p H NC).
Qed.
Print Assumptions C103_starts.

(* In one scan no id is used twice and they only go up, over all its pauses. *)
Lemma ids_up soft ops : forall m q p, inv m q -> course q ops = Some p -> count is_configure ops = 0%nat ->
  q <> New -> m_counter m <= dt_done (m_det m) ->
  exists new, m_log (act soft ops m) = new ++ m_log m /\
    (forall a b x y, ids new = a ++ x :: b -> In y b -> y < x) /\ (forall x, In x (ids new) -> m_counter m < x).
Proof.
  induction ops as [|o ops IH]; intros m q p I H NC NN LE; cbn in H.
  - exists []. split; [reflexivity|]. split; [intros a b x y E; destruct a; discriminate|intros x []].
  - destruct (next q o) as [q'|] eqn:E; [|discriminate].
    destruct (step_inv soft m q o q' I E) as (I' & new & L & _ & D & _).
    assert (C : is_configure o = false /\ count is_configure ops = 0%nat).
    { unfold count in NC. cbn [filter] in NC. destruct (is_configure o); cbn in NC; [discriminate|auto]. }
    destruct C as [C C'].
    assert (X : q' <> New /\ m_counter m <= m_counter (ustep soft m o) /\
                m_counter (ustep soft m o) <= dt_done (m_det (ustep soft m o)) /\
                (is_trigger o = true -> m_counter (ustep soft m o) = m_counter m + 1)).
    { split.
      { intros ->. clear - E C NN. destruct q, o; cbn in *; try discriminate; try congruence; revert E;
          repeat match goal with |- context [if ?b then _ else _] => destruct b end; discriminate. }
      assert (NG : forall b z, b = false -> z >= 1 ->
        let d := setup_detector b 0 z 0 (m_det m) in m_counter m <= dt_base d /\ dt_base d <= dt_done d).
      { intros b z -> Z1. cbn. lia. }
      destruct o; cbn in C; try discriminate.
      - (* seek *) assert (N1 : 1 <= n). { destruct q; cbn in E; try discriminate.
          destruct ((0 <=? c) && (1 <=? n) && (c + n <=? size)) eqn:B; [|discriminate]. bools. lia. }
        cbn [ustep]. destruct (m_hw _); unfold arm_detector, set_up, setup_detector; cbn; repeat split; try lia; discriminate.
      - (* again *) assert (N1 : 1 <= n). { destruct q; cbn in E; try discriminate.
          destruct ((k =? n0) && (c =? c0 + n0)); [|discriminate].
          destruct ((0 <=? c) && (1 <=? n) && (c + n <=? size)) eqn:B; [|discriminate]. bools. lia. }
        cbn [ustep]. destruct (m_bp m || negb (m_hw m)).
        + destruct (m_hw _); unfold arm_detector, set_up, setup_detector; cbn; repeat split; try lia; discriminate.
        + cbn. repeat split; try lia; discriminate.
      - cbn. repeat split; try lia; discriminate.
      - cbn [ustep]. destruct (m_hw m); cbn; repeat split; try lia; discriminate.
      - cbn. repeat split; try lia; discriminate.
      - destruct q; cbn in E; try discriminate. destruct (k <? n) eqn:B; [|discriminate]. injection E as <-. bools.
        destruct I as [(R1 & R2 & R3 & R4 & R5 & R6 & R7) [S1 S2]].
        assert (A : m_acq m = true) by (rewrite S2; apply Z.ltb_lt; destruct (m_hw m && negb (m_bp m)); lia).
        cbn [ustep]. unfold trigger. rewrite A. cbn. repeat split; lia. }
    destruct X as (NN' & G1 & G2 & G3).
    destruct (IH _ _ _ I' H C' NN' G2) as (new2 & L2 & O2 & M2).
    exists (new2 ++ new). cbn [act fold_left]. fold (act soft ops (ustep soft m o)). rewrite L2, L, app_assoc.
    split; [reflexivity|]. unfold ids in *. rewrite flat_map_app, D. destruct (is_trigger o); [|rewrite app_nil_r].
    + specialize (G3 eq_refl). split.
      * intros a b x y EE Iy.
        destruct b as [|z b _] using rev_ind; [destruct Iy|].
        rewrite app_comm_cons, app_assoc in EE. apply app_inj_tail in EE as [EE <-].
        apply in_app_or in Iy as [Iy|[<-|[]]]; [apply (O2 _ _ _ _ EE Iy)|].
        specialize (M2 x). rewrite EE in M2. specialize (M2 ltac:(apply in_or_app; right; left; reflexivity)). lia.
      * intros x Ix. apply in_app_or in Ix as [Ix|[<-|[]]]; [apply M2 in Ix; lia|lia].
    + split; [exact O2|]. intros x Ix. apply M2 in Ix. lia.
Qed.
Theorem C103_ids : forall soft before mode bp size c n ops p,
  course New (before ++ UConfigure mode bp size c n :: ops) = Some p -> count is_configure ops = 0%nat ->
  let m0 := act soft before new_unit in
  let m1 := act soft (before ++ UConfigure mode bp size c n :: ops) new_unit in
  exists new, m_log m1 = new ++ m_log m0 /\
    (forall later sooner x y, ids new = later ++ x :: sooner -> In y sooner -> y < x) /\
    (forall x, In x (ids new) -> 0 < x).
Proof.
  intros soft before mode bp size c n ops p H NC m0 m1.
  assert (SP : forall a b q r, course q (a ++ b) = Some r -> exists q', course q a = Some q' /\ course q' b = Some r).
  { clear. induction a as [|o a IH]; intros b q r E; [exists q; auto|]. cbn in *.
    destruct (next q o); [|discriminate]. apply IH, E. }
  apply SP in H as (q & H1 & H2). cbn in H2.
  destruct (next q (UConfigure mode bp size c n)) as [q2|] eqn:E; [|discriminate].
  destruct (act_inv soft before new_unit New q eq_refl H1) as [I0 _]. fold m0 in I0.
  destruct (step_inv soft m0 q _ q2 I0 E) as (I1 & new1 & L1 & _ & D1 & _).
  assert (Q : q2 <> New /\ 1 <= n).
  { destruct q; cbn in E; try discriminate;
      destruct ((0 <=? c) && (1 <=? n) && (c + n <=? size)) eqn:B; try discriminate; injection E as <-; bools;
      split; try discriminate; lia. }
  destruct Q as [Q N1].
  assert (Z : m_counter (ustep soft m0 (UConfigure mode bp size c n)) = 0 /\
              dt_done (m_det (ustep soft m0 (UConfigure mode bp size c n))) = n).
  { cbn [ustep]. unfold set_up, arm_detector, setup_detector. cbn. destruct (hardware _ _ _); auto. }
  destruct Z as [Z1 Z2].
  destruct (ids_up soft ops _ q2 p I1 H2 NC Q ltac:(lia)) as (new & L & O & M).
  exists (new ++ new1). unfold m1, act. rewrite fold_left_app. cbn [fold_left]. fold (act soft before new_unit). fold m0.
  unfold act in L. rewrite L, L1, app_assoc. split; [reflexivity|].
  unfold ids in *. rewrite flat_map_app, D1. cbn [is_trigger]. rewrite app_nil_r. split; [exact O|].
  intros x Ix. apply M in Ix. lia.
Qed.
Print Assumptions C103_ids.

(* ---- cases ---- *)
(* Five steps with triggers from outside: two, a pause after one more, again from step 2, to the end. *)
Definition outside : list uop :=
  [UConfigure "External" false 5 0 2; URun; UTrigger; UTrigger; UPostRunArmed 2 3; URun; UTrigger; UStop;
   USeek 2 3; URun; UTrigger; UTrigger; UTrigger; UPostRunReady].
Example C103_ex_outside : course New outside = Some (Finished 5) /\
  rev (m_log (act ["Internal"] outside new_unit)) =
    [Started false; Frame 1; Frame 2; Frame 3; Stopped; Started false; Frame 6; Frame 7; Frame 8].
Proof. split; vm_compute; reflexivity. Qed.
(* The same with its own triggers, then a scan with breakpoints. *)
Definition inside : list uop :=
  [UConfigure "Internal" false 3 0 2; URun; UTrigger; UTrigger; UPostRunArmed 2 1; URun; UTrigger; UPostRunReady;
   UConfigure "External" true 4 0 3; URun; UTrigger; UTrigger; UTrigger; UPostRunArmed 3 1; URun].
Example C103_ex_inside : course New inside = Some (Running 4 3 1 0) /\
  rev (m_log (act ["Internal"] inside new_unit)) =
    [Started false; Frame 1; Frame 2; Started false; Frame 3; Started false; Frame 1; Frame 2; Frame 3; Started false].
Proof. split; vm_compute; reflexivity. Qed.
(* A trigger too many between two runs: the next run is over one step early. *)
Example C103_ex_stray :
  run_over (act ["Internal"] [UConfigure "External" false 4 0 2; URun; UTrigger; UTrigger; UTrigger; UPostRunArmed 2 2;
                              URun; UTrigger] new_unit) = true.
Proof. reflexivity. Qed.
