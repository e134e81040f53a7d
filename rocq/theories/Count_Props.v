(** C56: a writer is done when the frames of the batch are captured, and reports the steps done. *)
From Coq Require Import Bool ZArith Lia List.
From Verif Require Import Count_Model.
Import ListNotations.
Local Open Scope Z_scope.

(** What a user expects: the steps done before this batch, frames captured in it, steps of it; whether
    it has been run; the progress told so far, latest first.  [per] is the frames of a step. *)
Record want := mkW { w_before : Z; w_since : Z; w_steps : Z; w_run : bool; w_told : list Z }.
Definition want0 : want := mkW 0 0 0 false [].
Definition complete (per : Z) (v : want) : bool := w_since v =? per * w_steps v.
Definition wstep (per : Z) (v : want) (o : op) : want :=
  match o with
  | Configure c n | PostRunArmed c n | Seek c n => mkW c 0 n false (w_told v)
  | Run => mkW (w_before v) (w_since v) (w_steps v) true (w_before v + w_since v :: w_told v)
  | Frames k => mkW (w_before v) (w_since v + k) (w_steps v) (w_run v)
                    (if w_run v && negb (complete per v) then w_before v + w_since v + k :: w_told v else w_told v)
  end.
Definition want_of (per : Z) (ops : list op) : want := fold_left (wstep per) ops want0.

(** The histories: configure starts at 0; after a batch the controller goes on where it ended; a seek
    is to a step from 0; there are no more frames than there should be. *)
Inductive fine (seeks : bool) (per : Z) : list op -> Prop :=
| fine_nil : fine seeks per []
| fine_configure : forall l n, fine seeks per l -> 0 <= n -> fine seeks per (l ++ [Configure 0 n])
| fine_armed : forall l n, fine seeks per l -> 0 <= n -> complete per (want_of per l) = true ->
    fine seeks per (l ++ [PostRunArmed (w_before (want_of per l) + w_steps (want_of per l)) n])
| fine_seek : forall l c n, fine seeks per l -> seeks = true -> 0 <= c -> 0 <= n -> fine seeks per (l ++ [Seek c n])
| fine_run : forall l, fine seeks per l -> fine seeks per (l ++ [Run])
| fine_frames : forall l k, fine seeks per l -> 0 < k -> w_since (want_of per l) + k <= per * w_steps (want_of per l) ->
    fine seeks per (l ++ [Frames k]).

(** Frames of one step for each writer, and whether it can seek: the on_pause of Odin and Xspress
    raises (odinwriterpart.py 349-350). *)
Definition per (w : writer) : Z := match w with Xsp p => p | _ => 1 end.
Definition seeks (w : writer) : bool := match w with Hdf => true | _ => false end.

Lemma want_snoc : forall p l o, want_of p (l ++ [o]) = wstep p (want_of p l) o.
Proof. intros. unfold want_of. rewrite fold_left_app. reflexivity. Qed.
Lemma steps_snoc : forall w l o, steps_of w (l ++ [o]) = step w (steps_of w l) o.
Proof. intros. unfold steps_of. rewrite fold_left_app. reflexivity. Qed.

Definition inv (w : writer) (v : want) (s : st) : Prop :=
  0 <= w_before v /\ 0 <= w_steps v /\ 0 <= w_since v <= per w * w_steps v /\
  s_captured s - s_offset s = per w * w_before v + w_since v /\
  s_done s - s_captured s = per w * w_steps v - w_since v /\
  s_running s = w_run v && negb (complete (per w) v) /\ s_finished s = w_run v && complete (per w) v.

Lemma update_same : forall w s, s_done (update w s) = s_done s /\ s_offset (update w s) = s_offset s /\ s_captured (update w s) = s_captured s /\
  s_running (update w s) = s_running s /\ s_finished (update w s) = s_finished s.
Proof. intros w s. unfold update. destruct w; [destruct (0 <=? s_captured s - s_offset s)|..]; auto 10. Qed.
Lemma matches_same : forall s, s_done (matches s) = s_done s /\ s_offset (matches s) = s_offset s /\ s_captured (matches s) = s_captured s /\ s_reports (matches s) = s_reports s.
Proof. intros s. unfold matches. destruct (s_captured s =? s_done s); auto. Qed.
Lemma matches_flags : forall s, s_running s = true -> s_finished s = false ->
  s_running (matches s) = negb (s_captured s =? s_done s) /\ s_finished (matches s) = (s_captured s =? s_done s).
Proof. intros s R F. unfold matches. destruct (s_captured s =? s_done s); cbn; auto. Qed.
Lemma update_reports : forall w s, 0 <= s_captured s - s_offset s -> s_reports (update w s) = (s_captured s - s_offset s) :: s_reports s.
Proof. intros w s H. unfold update. destruct w; [|reflexivity..]. apply Z.leb_le in H. rewrite H. reflexivity. Qed.

Lemma awaited : forall w v s, 0 <= w_before v -> 0 <= w_steps v -> 0 <= w_since v <= per w * w_steps v ->
  s_captured s - s_offset s = per w * w_before v + w_since v -> s_done s - s_captured s = per w * w_steps v - w_since v ->
  s_running s = true -> s_finished s = false -> w_run v = true -> inv w v (matches (update w s)).
Proof.
  intros w v s B N S O D R F V. pose proof (update_same w s) as (U1 & U2 & U3 & U4 & U5).
  pose proof (matches_same (update w s)) as (M1 & M2 & M3 & _).
  destruct (matches_flags (update w s)) as [M4 M5]; [congruence | congruence |].
  unfold inv. rewrite M1, M2, M3, M4, M5, U1, U2, U3, V. cbn [andb].
  assert (E : (s_captured s =? s_done s) = complete (per w) v).
  { unfold complete. destruct (Z.eqb_spec (s_captured s) (s_done s)), (Z.eqb_spec (w_since v) (per w * w_steps v)); lia. }
  rewrite E. auto 10.
Qed.
Lemma inv_always : forall w ops, 0 < per w -> fine (seeks w) (per w) ops -> inv w (want_of (per w) ops) (steps_of w ops).
Proof.
  intros w ops P F; induction F as [|l n F IH Hn|l n F IH Hn E|l c n F IH S Hc Hn|l F IH|l k F IH Hk Hm]; rewrite ?want_snoc, ?steps_snoc.
  - unfold inv. cbn. lia.
  - unfold inv. cbn [wstep w_before w_since w_steps w_run step s_captured s_offset s_done s_running s_finished andb].
    repeat split; try lia; destruct w; cbn [per] in *; nia.
  - destruct IH as (I1 & I0 & I2 & I3 & I4 & _). apply Z.eqb_eq in E. unfold inv. cbn [wstep w_before w_since w_steps w_run andb].
    destruct w; cbn [per step s_captured s_offset s_done s_running s_finished] in *; repeat split; nia.
  - destruct w; try discriminate. destruct IH as (I1 & I0 & I2 & I3 & I4 & _). unfold inv.
    cbn [wstep w_before w_since w_steps w_run per step s_captured s_offset s_done s_running s_finished andb] in *. repeat split; lia.
  - destruct IH as (I1 & I0 & I2 & I3 & I4 & _). cbn [wstep step]. apply awaited; cbn; auto.
  - destruct IH as (I1 & I0 & I2 & I3 & I4 & I5 & I6). cbn [wstep step].
    destruct (s_running (steps_of w l)) eqn:R.
    + symmetry in I5. apply andb_true_iff in I5. destruct I5 as [V Cn]. apply negb_true_iff in Cn. rewrite V in *. cbn [andb] in *. rewrite Cn in I6.
      apply awaited; cbn [w_before w_since w_steps w_run s_captured s_offset s_done s_running s_finished]; auto; lia.
    + assert (Cn : w_since (want_of (per w) l) < per w * w_steps (want_of (per w) l)) by lia.
      assert (Cn' : complete (per w) (want_of (per w) l) = false) by (unfold complete; apply Z.eqb_neq; lia).
      rewrite Cn' in *. cbn [negb] in *. rewrite andb_true_r in I5. rewrite andb_false_r in I6. unfold inv.
      cbn [w_before w_since w_steps w_run s_captured s_offset s_done s_running s_finished]. rewrite <- I5. cbn [andb]. repeat split; auto; lia.
Qed.

(** A run that has been started has ended exactly if the frames of the batch have come. *)
Theorem C56_done : forall w ops, 0 < per w -> fine (seeks w) (per w) ops ->
  let v := want_of (per w) ops in
  s_running (steps_of w ops) = w_run v && negb (w_since v =? per w * w_steps v) /\
  s_finished (steps_of w ops) = w_run v && (w_since v =? per w * w_steps v).
Proof. intros w ops P F v. pose proof (inv_always w ops P F) as (_ & _ & _ & _ & _ & I5 & I6). split; assumption. Qed.

(** With one frame to a step the reports are the steps done before the batch and the frames of it. *)
Theorem C56_reports : forall w ops, per w = 1 -> fine (seeks w) (per w) ops -> s_reports (steps_of w ops) = w_told (want_of (per w) ops).
Proof.
  intros w ops P F; induction F as [|l n F IH Hn|l n F IH Hn E|l c n F IH S Hc Hn|l F IH|l k F IH Hk Hm]; rewrite ?want_snoc, ?steps_snoc; try reflexivity.
  - exact IH.
  - destruct w; exact IH.
  - destruct w; exact IH.
  - destruct (inv_always w l ltac:(lia) F) as (I1 & I0 & I2 & I3 & I4 & _). remember (want_of (per w) l) as v eqn:Ev. rewrite P in I2, I3. cbn [wstep step w_told]. rewrite (proj2 (proj2 (proj2 (matches_same _)))).
    rewrite update_reports; cbn [s_captured s_offset s_reports]; [|lia]. rewrite IH. f_equal. lia.
  - destruct (inv_always w l ltac:(lia) F) as (I1 & I0 & I2 & I3 & I4 & I5 & _). remember (want_of (per w) l) as v eqn:Ev. cbn [wstep step w_told]. rewrite <- I5. destruct (s_running (steps_of w l)); [|exact IH].
    rewrite P in I2, I3. rewrite (proj2 (proj2 (proj2 (matches_same _)))). rewrite update_reports; cbn [s_captured s_offset s_reports]; [|lia]. rewrite IH. f_equal. lia.
Qed.
(** So no more is ever reported than the steps that are set up, and no less than is done before. *)
Theorem C56_bounds : forall w ops o, per w = 1 -> fine (seeks w) (per w) (ops ++ [o]) ->
  forall r, s_reports (steps_of w (ops ++ [o])) = r :: s_reports (steps_of w ops) ->
  let v := want_of (per w) (ops ++ [o]) in w_before v <= r <= w_before v + w_steps v.
Proof.
  intros w ops o P F r H v. pose proof (inv_always w _ ltac:(lia) F) as (I1 & I0 & I2 & _). fold v in I1, I0, I2.
  assert (Fl : fine (seeks w) (per w) ops).
  { inversion F as [Q|l n F' Hn Q|l n F' Hn E Q|l c n F' S Hc Hn Q|l F' Q|l k F' Hk Hm Q].
    - symmetry in Q. apply app_eq_nil in Q. destruct Q. discriminate.
    - apply app_inj_tail in Q. destruct Q as [<- _]. exact F'.
    - apply app_inj_tail in Q. destruct Q as [<- _]. exact F'.
    - apply app_inj_tail in Q. destruct Q as [<- _]. exact F'.
    - apply app_inj_tail in Q. destruct Q as [<- _]. exact F'.
    - apply app_inj_tail in Q. destruct Q as [<- _]. exact F'. }
  rewrite (C56_reports w _ P F), (C56_reports w _ P Fl), want_snoc in H. unfold v in *. rewrite want_snoc in *. remember (want_of (per w) ops) as u eqn:Eu.
  assert (Nc : forall (x : Z) l, l <> x :: l). { intros x l; revert x; induction l as [|y l IH]; intros x K; [discriminate|]. injection K as -> K. exact (IH _ K). }
  destruct o; cbn [wstep w_told w_before w_since w_steps] in *; try (exfalso; exact (Nc _ _ H)).
  - injection H as <-. rewrite P in I2. lia.
  - destruct (w_run u && negb (complete (per w) u)); [|exfalso; exact (Nc _ _ H)]. injection H as <-. rewrite P in I2. lia.
Qed.
(** The numbers in the message of a stall are the steps done and the steps set up. *)
Theorem C56_stalled : forall ops, fine true 1 ops ->
  stalled_numbers (steps_of Hdf ops) = (w_before (want_of 1 ops) + w_since (want_of 1 ops), w_before (want_of 1 ops) + w_steps (want_of 1 ops)).
Proof.
  intros ops F. destruct (inv_always Hdf ops ltac:(cbn; lia) F) as (_ & _ & _ & I3 & I4 & _). cbn [per] in *. unfold stalled_numbers. f_equal; lia.
Qed.

(** ** A paused scan *)

Definition paused : list op := [Configure 0 10; Run; Frames 1; Frames 3; Seek 2 8; Run; Frames 5; Frames 3; PostRunArmed 10 4; Run; Frames 4].
Ltac fine_by := repeat (first [ apply fine_nil
  | match goal with |- fine _ _ ?l => let l' := eval vm_compute in (removelast l) in let o := eval vm_compute in (last l Run) in
      change l with (l' ++ [o]) end;
    first [ apply fine_configure | apply fine_run | apply fine_frames | apply fine_seek
          | match goal with |- fine ?b ?p (?l ++ [PostRunArmed ?c ?n]) => change c with (w_before (want_of p l) + w_steps (want_of p l)); apply fine_armed end ];
    try reflexivity; try (vm_compute; reflexivity); try (vm_compute; discriminate) ]).
Example C56_ex_fine : fine true 1 paused.
Proof. unfold paused. fine_by. Qed.
Example C56_ex : s_reports (steps_of Hdf paused) = [14; 10; 10; 7; 2; 4; 1; 0] /\ s_finished (steps_of Hdf paused) = true.
Proof. vm_compute. auto. Qed.
Example C56_ex_odin : fine false 1 [Configure 0 3; Run; Frames 3; PostRunArmed 3 2; Run; Frames 1] /\
  s_reports (steps_of Odin [Configure 0 3; Run; Frames 3; PostRunArmed 3 2; Run; Frames 1]) = [4; 3; 3; 0].
Proof. split; [fine_by | vm_compute; reflexivity]. Qed.
Example C56_ex_stalled : stalled_numbers (steps_of Hdf [Configure 0 10; Run; Frames 4; Seek 2 8; Run; Frames 5]) = (7, 10).
Proof. reflexivity. Qed.

(** ** What goes wrong *)

(** Two pairs: twice the steps are reported. *)
Theorem C56_pairs_refuted : exists ops r, fine false 2 ops /\ In r (s_reports (steps_of (Xsp 2) ops)) /\
  w_before (want_of 2 ops) + w_steps (want_of 2 ops) < r.
Proof.
  exists [Configure 0 3; Run; Frames 6], 6. split; [fine_by|]. vm_compute. auto.
Qed.
(** A readback that goes past the awaited value is not noticed; the run never ends. *)
Theorem C56_passed_refuted : exists ops, let s := steps_of Hdf ops in s_done s < s_captured s /\ s_running s = true /\
  forall more, Forall (fun o => exists k, o = Frames k /\ 0 < k) more -> s_running (fold_left (step Hdf) more s) = true.
Proof.
  exists [Configure 0 3; Run; Frames 4]. cbn zeta. split; [vm_compute; reflexivity|]. split; [reflexivity|].
  assert (H : forall more s, s_done s < s_captured s -> s_running s = true -> Forall (fun o => exists k, o = Frames k /\ 0 < k) more -> s_running (fold_left (step Hdf) more s) = true).
  { intros more; induction more as [|o more IH]; intros s D R F; [exact R|]. inversion F as [|? ? (k & -> & K) F']; subst. cbn [fold_left step]. rewrite R.
    set (s' := mkSt _ _ _ _ _ _). pose proof (update_same Hdf s') as (U1 & U2 & U3 & U4 & U5). pose proof (matches_same (update Hdf s')) as (M1 & M2 & M3 & _).
    apply IH; [| |exact F'].
    - rewrite M1, M3, U1, U3. cbn. lia.
    - unfold matches. rewrite U1, U3, (proj2 (Z.eqb_neq _ _)) by (cbn; lia). rewrite U4. reflexivity. }
  intros more F. apply H; [vm_compute; reflexivity | reflexivity | exact F].
Qed.

Print Assumptions C56_done.
Print Assumptions C56_reports.
Print Assumptions C56_bounds.
Print Assumptions C56_stalled.
Print Assumptions C56_pairs_refuted.
Print Assumptions C56_passed_refuted.
