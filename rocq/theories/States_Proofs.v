(** Proofs about the block state machine. *)
From Coq Require Import List String Bool Arith Lia.
From Verif Require Import Base States_Model States_Spec.
Import ListNotations.
Local Open Scope string_scope.
Local Open Scope list_scope.

(** ** The built state sets are the published graphs *)

Definition edges_of (x : stateset) : list (string * string) :=
  flat_map (fun kv => map (pair (fst kv)) (snd kv)) (ss_allowed x).

Definition pair_eqb (a b : string * string) : bool :=
  String.eqb (fst a) (fst b) && String.eqb (snd a) (snd b).

Lemma pair_eqb_eq : forall a b, pair_eqb a b = true <-> a = b.
Proof.
  intros [a1 a2] [b1 b2]; unfold pair_eqb; simpl; rewrite andb_true_iff, !String.eqb_eq.
  split; [intros [-> ->] | intros [= -> ->]]; auto.
Qed.

Definition subset (l1 l2 : list (string * string)) : bool :=
  forallb (fun e => existsb (pair_eqb e) l2) l1.

Lemma subset_incl : forall l1 l2, subset l1 l2 = true -> incl l1 l2.
Proof.
  unfold subset; intros l1 l2 H a Ha. rewrite forallb_forall in H. apply H in Ha.
  apply existsb_exists in Ha. destruct Ha as [b [Hb Hc]]. apply pair_eqb_eq in Hc; subst; auto.
Qed.

Fixpoint nodupb (l : list string) : bool :=
  match l with [] => true | a :: r => negb (smem a r) && nodupb r end.

Lemma nodupb_NoDup : forall l, nodupb l = true -> NoDup l.
Proof.
  induction l as [|a r IH]; simpl; intros H; constructor;
    apply andb_true_iff in H; destruct H as [H1 H2]; auto.
  apply negb_true_iff in H1. now apply smem_false in H1.
Qed.

Lemma edges_of_spec : forall x s t, NoDup (dkeys (ss_allowed x)) ->
  (transition_allowed x s t = Ok true <-> In (s, t) (edges_of x)).
Proof.
  intros x s t Hn; unfold transition_allowed, edges_of. rewrite in_flat_map.
  destruct (dget s (ss_allowed x)) as [l|] eqn:E.
  - split.
    + intros [= H]. apply smem_In in H. exists (s, l). split.
      * now apply dget_Some_In.
      * simpl. apply in_map_iff. exists t; auto.
    + intros [[k l'] [Hi Hm]]; simpl in Hm. apply in_map_iff in Hm.
      destruct Hm as [y [[= -> ->] Hy]].
      apply dget_In_nodup in Hi; auto. rewrite E in Hi. injection Hi as ->.
      f_equal. now apply smem_In.
  - split; [discriminate|].
    intros [[k l'] [Hi Hm]]; simpl in Hm. apply in_map_iff in Hm.
    destruct Hm as [y [[= -> ->] Hy]]. apply dget_In_nodup in Hi; auto. congruence.
Qed.

(** A state set together with the graph it must implement and facts used below;
    all decidable, checked by computation for the three state sets. *)
Record good (x : stateset) (es : list (string * string)) : Prop := mk_good {
  g_nodup : NoDup (dkeys (ss_allowed x));
  g_edges : forall s t, transition_allowed x s t = Ok true <-> In (s, t) es;
  g_poss_nodup : NoDup (ss_possible x);
  g_target : forall s t, In (s, t) es -> In t (ss_possible x);
  g_domain : forall s, In s (ss_possible x) -> In s (dkeys (ss_allowed x));
  g_disabled : forall t, In (DISABLED, t) es -> t = RESETTING;
  g_fault : forall s, In s (ss_possible x) -> s <> DISABLED -> s <> FAULT -> In (s, FAULT) es;
  g_fault_reset : In (FAULT, RESETTING) es;
  g_fault_disable : In (FAULT, DISABLING) es;
  g_no_self_fault : ~ In (FAULT, FAULT) es;
  g_start : In (DISABLING, DISABLED) es;
  g_reset_states : forallb (fun s => smem s (ss_possible x)) [DISABLED; FAULT] = true
}.

Definition goodb (x : stateset) (es : list (string * string)) : bool :=
  nodupb (dkeys (ss_allowed x)) &&
  subset (edges_of x) es && subset es (edges_of x) &&
  nodupb (ss_possible x) &&
  forallb (fun e => smem (snd e) (ss_possible x)) es &&
  forallb (fun s => smem s (dkeys (ss_allowed x))) (ss_possible x) &&
  forallb (fun e => negb (String.eqb (fst e) DISABLED) || String.eqb (snd e) RESETTING) es &&
  forallb (fun s => String.eqb s DISABLED || String.eqb s FAULT
                    || existsb (pair_eqb (s, FAULT)) es) (ss_possible x) &&
  existsb (pair_eqb (FAULT, RESETTING)) es && existsb (pair_eqb (FAULT, DISABLING)) es &&
  negb (existsb (pair_eqb (FAULT, FAULT)) es) &&
  existsb (pair_eqb (DISABLING, DISABLED)) es &&
  forallb (fun s => smem s (ss_possible x)) [DISABLED; FAULT].

Lemma existsb_pair : forall e es, existsb (pair_eqb e) es = true <-> In e es.
Proof.
  intros; rewrite existsb_exists; split.
  - intros [y [Hy He]]; apply pair_eqb_eq in He; subst; auto.
  - intros H; exists e; split; auto; now apply pair_eqb_eq.
Qed.

Lemma goodb_good : forall x es, goodb x es = true -> good x es.
Proof.
  intros x es H; unfold goodb in H; rewrite !andb_true_iff in H.
  destruct H as [[[[[[[[[[[[H1 H2] H3] H4] H5] H6] H7] H8] H9] H10] H11] H12] H13].
  assert (Hn := nodupb_NoDup _ H1).
  constructor; auto.
  - intros s t; rewrite edges_of_spec by auto. split; intros Hi.
    + now apply (subset_incl _ _ H2).
    + now apply (subset_incl _ _ H3).
  - now apply nodupb_NoDup.
  - intros s t Hi. rewrite forallb_forall in H5. apply H5 in Hi. now apply smem_In in Hi.
  - intros s Hi. rewrite forallb_forall in H6. apply H6 in Hi. now apply smem_In in Hi.
  - intros t Hi. rewrite forallb_forall in H7. apply H7 in Hi; simpl in Hi.
    now apply String.eqb_eq in Hi.
  - intros s Hi Ha Hb. rewrite forallb_forall in H8. apply H8 in Hi.
    rewrite !orb_true_iff, !String.eqb_eq in Hi. destruct Hi as [[Hi|Hi]|Hi]; try congruence.
    now apply existsb_pair in Hi.
  - now apply existsb_pair.
  - now apply existsb_pair.
  - intros Hi. apply existsb_pair in Hi. rewrite Hi in H11; discriminate.
  - now apply existsb_pair.
Qed.

Lemma good_stateful : good StatefulStates stateful_edges.
Proof. apply goodb_good; vm_compute; reflexivity. Qed.
Lemma good_manager : good ManagerStates manager_edges.
Proof. apply goodb_good; vm_compute; reflexivity. Qed.
Lemma good_runnable : good RunnableStates runnable_edges.
Proof. apply goodb_good; vm_compute; reflexivity. Qed.

(** ** Reachable controllers *)

Definition cw_full (x : stateset) (cw : dict (dict bool)) : Prop :=
  forall s, In s (ss_possible x) -> exists d, dget s cw = Some d.

Definition alarm_matches (c : ctrl) : Prop :=
  (c_state c = DISABLED /\ c_state_alarm c = alarm_invalid "Disabled") \/
  (c_state c = FAULT /\ exists m, c_state_alarm c = alarm_major m) \/
  (c_state c <> DISABLED /\ c_state c <> FAULT /\ c_state_alarm c = alarm_ok).

Record inv (x : stateset) (es : list (string * string)) (c : ctrl) : Prop := mk_inv {
  i_cw : cw_full x (c_cw c);
  i_poss : In (c_state c) (ss_possible x);
  i_hd : exists l, c_pub c = c_state c :: l;
  i_path : path es (c_pub c);
  i_alarm : alarm_matches c
}.

Lemma set_cw_get : forall s f b cw s2,
  dget s2 (set_cw s f b cw) =
  if String.eqb s2 s then Some (dset f b (match dget s cw with Some d => d | None => [] end))
  else dget s2 cw.
Proof. intros; unfold set_cw; rewrite dget_dset. reflexivity. Qed.

Lemma set_cw_fold_get : forall f states l cw s,
  NoDup l ->
  dget s (fold_left (fun cw s => set_cw s f (smem s states) cw) l cw) =
  if smem s l then Some (dset f (smem s states) (match dget s cw with Some d => d | None => [] end))
  else dget s cw.
Proof.
  intros f states l; induction l as [|a r IH]; intros cw s Hn; simpl; auto.
  inversion Hn as [|? ? Ha Hr]; subst. rewrite IH by auto. rewrite set_cw_get.
  destruct (String.eqb s a) eqn:E; simpl.
  - apply String.eqb_eq in E; subst a.
    apply smem_false in Ha. now rewrite Ha.
  - destruct (smem s r); auto.
Qed.

Lemma set_cw_all_get : forall x f states cw s, NoDup (ss_possible x) ->
  dget s (set_cw_all x f states cw) =
  if smem s (ss_possible x)
  then Some (dset f (smem s states) (match dget s cw with Some d => d | None => [] end))
  else dget s cw.
Proof. intros; unfold set_cw_all; now apply set_cw_fold_get. Qed.

Lemma set_cw_all_full : forall x f states cw, NoDup (ss_possible x) ->
  cw_full x (set_cw_all x f states cw).
Proof.
  intros x f states cw Hn s Hs. rewrite set_cw_all_get by auto.
  apply smem_In in Hs; rewrite Hs. eexists; reflexivity.
Qed.

Lemma update_health_same : forall r a c,
  c_state (update_health r a c) = c_state c /\ c_state_alarm (update_health r a c) = c_state_alarm c /\
  c_cw (update_health r a c) = c_cw c /\ c_wr (update_health r a c) = c_wr c /\
  c_pub (update_health r a c) = c_pub c.
Proof.
  intros r a c; unfold update_health.
  destruct (worst _) eqn:E; simpl; auto.
Qed.

Lemma alarm_for_matches : forall t m fl h ha cw wr p,
  alarm_matches (mk_ctrl t (alarm_for t m) fl h ha cw wr p).
Proof.
  intros; unfold alarm_matches, alarm_for; simpl.
  destruct (String.eqb t DISABLED) eqn:E1.
  - apply String.eqb_eq in E1; auto.
  - destruct (String.eqb t FAULT) eqn:E2.
    + apply String.eqb_eq in E2. right; left; split; eauto.
    + apply String.eqb_neq in E1. apply String.eqb_neq in E2. auto.
Qed.

(** What a transition attempt does to a controller satisfying the invariant. *)
Lemma transition_cases : forall x es c t m, good x es -> inv x es c ->
  (In (c_state c, t) es /\ snd (transition x t m c) = None /\
   exists flags, dget t (c_cw c) = Some flags /\
   c_state (fst (transition x t m c)) = t /\
   c_state_alarm (fst (transition x t m c)) = alarm_for t m /\
   c_cw (fst (transition x t m c)) = c_cw c /\
   c_wr (fst (transition x t m c)) = apply_writeable flags (c_wr c) /\
   c_pub (fst (transition x t m c)) = t :: c_pub c)
  \/
  (~ In (c_state c, t) es /\ fst (transition x t m c) = c /\ snd (transition x t m c) = Some EType).
Proof.
  intros x es c t m G I. unfold transition.
  assert (Hk : exists b, transition_allowed x (c_state c) t = Ok b).
  { unfold transition_allowed. pose proof (g_domain _ _ G _ (i_poss _ _ _ I)) as Hd.
    destruct (dget (c_state c) (ss_allowed x)) eqn:E; eauto.
    apply dget_None_notin in E. contradiction. }
  destruct Hk as [b Hb]; rewrite Hb. destruct b.
  - left. assert (Hin : In (c_state c, t) es) by (now apply (g_edges _ _ G)).
    split; auto.
    destruct (update_health_same self_key (alarm_for t m) c) as (H1 & H2 & H3 & H4 & H5).
    destruct (i_cw _ _ _ I t (g_target _ _ G _ _ Hin)) as [flags Hf].
    simpl. rewrite H3, Hf. simpl. split; auto. exists flags.
    rewrite H4, H5. repeat split; auto.
  - right. split; [|split; reflexivity].
    intros Hin; apply (g_edges _ _ G) in Hin. congruence.
Qed.

Lemma transition_inv : forall x es c t m, good x es -> inv x es c ->
  inv x es (fst (transition x t m c)).
Proof.
  intros x es c t m G I. pose proof (transition_cases x es c t m G I) as H.
  destruct H as [(Hin & Hn & flags & Hf & Hs & Ha & Hc & Hw & Hp) | (_ & H & _)].
  2: { rewrite H; auto. }
  destruct (fst (transition x t m c)) as [s al fl h ha cw wr p]; simpl in *; subst.
  destruct I as [i1 i2 [l i3] i4 i5].
  constructor; simpl; auto.
  - eapply g_target; eauto.
  - eauto.
  - rewrite i3. constructor; auto. rewrite <- i3; auto.
  - apply alarm_for_matches.
Qed.

Lemma step_inv : forall x es c o, good x es -> inv x es c -> inv x es (step x c o).
Proof.
  intros x es c o G I; destruct o; simpl.
  - now apply transition_inv.
  - destruct (update_health_same part a c) as (H1 & H2 & H3 & H4 & H5).
    destruct I as [i1 i2 i3 i4 i5]. constructor; try rewrite H1; try rewrite H3; try rewrite H5; auto.
    unfold alarm_matches in *; rewrite H1, H2; auto.
  - unfold set_writeable_in. destruct (forallb _ states); simpl; auto.
    destruct I as [i1 i2 i3 i4 i5]. constructor; simpl; auto.
    apply set_cw_all_full, (g_poss_nodup _ _ G).
  - unfold add_block_field. destruct settable; auto.
    destruct I as [i1 i2 i3 i4 i5].
    destruct (has_explicit _ _ _); constructor; simpl; auto.
    apply set_cw_all_full, (g_poss_nodup _ _ G).
Qed.

Lemma run_inv : forall x es h c, good x es -> inv x es c -> inv x es (run x c h).
Proof.
  intros x es h; induction h as [|o r IH]; intros c G I; simpl; auto.
  apply IH; auto. now apply step_inv.
Qed.

Lemma ctrl_init_inv : forall x es, good x es -> inv x es (ctrl_init x).
Proof.
  intros x es G. unfold ctrl_init.
  unfold set_writeable_in. rewrite (g_reset_states _ _ G).
  apply transition_inv; auto.
  assert (Hs : In DISABLING (ss_possible x)).
  { pose proof (g_target _ _ G _ _ (g_fault_disable _ _ G)); auto. }
  constructor; simpl; auto.
  - apply set_cw_all_full, (g_poss_nodup _ _ G).
  - eauto.
  - constructor.
  - right; right; repeat split; auto; discriminate.
Qed.

Lemma reach_inv : forall x es h, good x es -> inv x es (run x (ctrl_init x) h).
Proof. intros; apply run_inv; auto. now apply ctrl_init_inv. Qed.

(** Paths: consecutive entries are edges. *)
Lemma path_edge : forall es pre s t post, path es (pre ++ t :: s :: post) -> In (s, t) es.
Proof.
  intros es pre; induction pre as [|a pre IH]; intros s t post Hp; simpl in *.
  - inversion Hp; subst; auto.
  - apply (IH s t post). destruct pre as [|b pre]; simpl in *; inversion Hp; subst; auto.
Qed.

Lemma run_app : forall x c h1 h2, run x c (h1 ++ h2) = run x (run x c h1) h2.
Proof. intros; unfold run; now rewrite fold_left_app. Qed.

(** ** Calls that fail *)

Lemma handle_error_not_allowed_states : forall x es e c, good x es -> inv x es c ->
  (c_pub (fst (handle_error x e c)) = c_pub c \/
   c_pub (fst (handle_error x e c)) = FAULT :: c_pub c) /\
  snd (handle_error x e c) <> None.
Proof.
  intros x es e c G I; unfold handle_error, go_to_error_state.
  destruct (String.eqb (c_state c) FAULT) eqn:E.
  - simpl; split; auto; discriminate.
  - pose proof (transition_cases x es c FAULT (exn_text e) G I) as H.
    destruct (transition x FAULT (exn_text e) c) as [c' [e'|]]; simpl in *.
    + split; [|discriminate].
      destruct H as [(_ & H & _)|(_ & -> & _)]; [discriminate|auto].
    + split; [|discriminate].
      destruct H as [(_ & _ & fl & _ & _ & _ & _ & _ & Hp)|(_ & _ & H)]; [auto|discriminate].
Qed.

Lemma try_illegal_start : forall x es start stop env fail c, good x es -> inv x es c ->
  ~ In (c_state c, start) es ->
  snd (try_stateful x start stop env fail c) <> None /\
  (c_pub (fst (try_stateful x start stop env fail c)) = c_pub c \/
   c_pub (fst (try_stateful x start stop env fail c)) = FAULT :: c_pub c).
Proof.
  intros x es start stop env fail c G I Hn. unfold try_stateful.
  pose proof (transition_cases x es c start "" G I) as H.
  destruct H as [(Hi & _)|(_ & H1 & H2)]; [contradiction|].
  destruct (transition x start "" c) as [c1 o]; simpl in *; subst.
  destruct (handle_error_not_allowed_states x es EType c G I); auto.
Qed.

(** Failing work: the block ends in Fault. *)
Lemma handle_error_fault : forall x es m c, good x es -> inv x es c -> c_state c <> DISABLED ->
  let r := handle_error x (EWork m) c in
  c_state (fst r) = FAULT /\ snd r = Some (EWork m) /\
  (c_state c <> FAULT -> c_state_alarm (fst r) = alarm_major m /\
                         dget self_key (c_faults (fst r)) = Some (alarm_major m)).
Proof.
  intros x es m c G I Hd r; subst r; unfold handle_error, go_to_error_state.
  destruct (String.eqb (c_state c) FAULT) eqn:E.
  - apply String.eqb_eq in E; simpl; repeat split; auto; contradiction.
  - apply String.eqb_neq in E.
    pose proof (transition_cases x es c FAULT (exn_text (EWork m)) G I) as H.
    assert (Hin := g_fault _ _ G _ (i_poss _ _ _ I) Hd E).
    destruct H as [(_ & Hn & fl & Hf & Hs & Ha & Hc & Hw & Hp)|(H & _)]; [|contradiction].
    destruct (transition x FAULT (exn_text (EWork m)) c) as [c' o] eqn:T; simpl in *; subst.
    split; auto. split; auto. intros _; split; auto.
    unfold transition in T. 
    replace (transition_allowed x (c_state c) FAULT) with (@Ok exn bool true) in T
      by (symmetry; now apply (g_edges _ _ G)).
    unfold update_health in T. simpl in T.
    destruct (worst _) in T; simpl in T; rewrite Hf in T;
      injection T as <-; simpl; apply dget_dset_same.
Qed.

Lemma try_failing_work : forall x es start stop env m c, good x es -> inv x es c ->
  In (c_state c, start) es ->
  let c1 := run x (fst (transition x start "" c)) env in
  let r := try_stateful x start stop env (Some m) c in
  (c_state c1 <> DISABLED ->
   c_state (fst r) = FAULT /\ snd r = Some (EWork m) /\
   (c_state c1 <> FAULT -> c_state_alarm (fst r) = alarm_major m /\
                           dget self_key (c_faults (fst r)) = Some (alarm_major m))) /\
  (c_state c1 = DISABLED -> fst r = c1 /\ snd r <> None).
Proof.
  intros x es start stop env m c G I Hin c1 r; subst c1 r.
  unfold try_stateful.
  pose proof (transition_cases x es c start "" G I) as H.
  pose proof (transition_inv x es c start "" G I) as I1.
  destruct H as [(_ & Hn & _)|(H & _)]; [|contradiction].
  destruct (transition x start "" c) as [c1 o]; simpl in *; subst.
  assert (I2 := run_inv x es env c1 G I1).
  split.
  - intros Hd. now apply (handle_error_fault x es m _ G I2).
  - intros Hd. unfold handle_error, go_to_error_state. rewrite Hd. simpl.
    pose proof (transition_cases x es (run x c1 env) FAULT m G I2) as H.
    destruct H as [(H & _)|(_ & H1 & H2)].
    + rewrite Hd in H. apply (g_disabled _ _ G) in H. discriminate.
    + destruct (transition x FAULT m (run x c1 env)) as [c' o']; simpl in *; subst.
      split; auto; discriminate.
Qed.

(** From Fault, reset and disable can always start. *)
Lemma fault_recoverable : forall x es c, good x es -> inv x es c -> c_state c = FAULT ->
  snd (transition x RESETTING "" c) = None /\ snd (transition x DISABLING "" c) = None.
Proof.
  intros x es c G I Hc. split.
  - destruct (transition_cases x es c RESETTING "" G I) as [(_ & H & _)|(H & _)]; auto.
    rewrite Hc in H. destruct (H (g_fault_reset _ _ G)).
  - destruct (transition_cases x es c DISABLING "" G I) as [(_ & H & _)|(H & _)]; auto.
    rewrite Hc in H. destruct (H (g_fault_disable _ _ G)).
Qed.

(** ** Writeable flags *)

(** Invariant linking the table to the declarations. *)
Definition cw_ok (x : stateset) (f : string) (d : option (list string)) (c : ctrl) : Prop :=
  NoDup (dkeys (c_cw c)) /\
  (forall s fl, dget s (c_cw c) = Some fl -> NoDup (dkeys fl)) /\
  match d with
  | Some l => forall s, In s (ss_possible x) ->
                exists fl, dget s (c_cw c) = Some fl /\ dget f fl = Some (smem s l)
  | None => forall s fl, dget s (c_cw c) = Some fl -> dget f fl = None
  end.

Lemma set_cw_all_nodup : forall x g states cw,
  NoDup (dkeys cw) -> (forall s fl, dget s cw = Some fl -> NoDup (dkeys fl)) ->
  NoDup (dkeys (set_cw_all x g states cw)) /\
  (forall s fl, dget s (set_cw_all x g states cw) = Some fl -> NoDup (dkeys fl)).
Proof.
  intros x g states. unfold set_cw_all. generalize (ss_possible x) as l.
  induction l as [|a r IH]; intros cw H1 H2; simpl; auto.
  apply IH.
  - unfold set_cw. now apply dset_nodup.
  - intros s fl. rewrite set_cw_get. destruct (String.eqb s a).
    + intros [= <-]. apply dset_nodup. destruct (dget a cw) eqn:E; eauto. constructor.
    + eauto.
Qed.

Lemma cw_ok_set_other : forall x f g states d c, NoDup (ss_possible x) -> g <> f ->
  cw_ok x f d c -> cw_ok x f d (with_cw (set_cw_all x g states (c_cw c)) c).
Proof.
  intros x f g states d c Hn Hne (H1 & H2 & H3).
  destruct (set_cw_all_nodup x g states (c_cw c) H1 H2) as [Ha Hb].
  split; auto. split; auto. simpl.
  destruct d as [l|].
  - intros s Hs. destruct (H3 s Hs) as (fl & Hf & Hg).
    rewrite set_cw_all_get by auto. rewrite Hf.
    apply smem_In in Hs; rewrite Hs. eexists; split; eauto.
    rewrite dget_dset_other; auto.
  - intros s fl. rewrite set_cw_all_get by auto. destruct (smem s (ss_possible x)) eqn:E.
    + intros [= <-]. rewrite dget_dset_other by auto.
      destruct (dget s (c_cw c)) eqn:E2; eauto.
    + apply H3.
Qed.

Lemma cw_ok_set_same : forall x f states d c, NoDup (ss_possible x) ->
  cw_ok x f d c -> cw_ok x f (Some states) (with_cw (set_cw_all x f states (c_cw c)) c).
Proof.
  intros x f states d c Hn (H1 & H2 & H3).
  destruct (set_cw_all_nodup x f states (c_cw c) H1 H2) as [Ha Hb].
  split; auto. split; auto. simpl. intros s Hs.
  rewrite set_cw_all_get by auto. apply smem_In in Hs; rewrite Hs.
  eexists; split; eauto. now rewrite dget_dset_same.
Qed.

Lemma cw_ok_ext : forall x f d c c', c_cw c' = c_cw c -> cw_ok x f d c -> cw_ok x f d c'.
Proof. unfold cw_ok; intros x f d c c' ->; auto. Qed.

Lemma has_explicit_spec : forall x f d c, ss_possible x <> [] -> cw_ok x f d c ->
  has_explicit x f (c_cw c) = match d with Some _ => true | None => false end.
Proof.
  intros x f d c Hne (H1 & H2 & H3). unfold has_explicit. destruct d as [l|].
  - destruct (ss_possible x) as [|s r] eqn:E; [congruence|].
    apply existsb_exists. exists s; split; [left; auto|].
    destruct (H3 s (or_introl eq_refl)) as (fl & -> & Hf). unfold dmem; now rewrite Hf.
  - destruct (existsb _ _) eqn:E; auto. apply existsb_exists in E.
    destruct E as (s & _ & Hs). destruct (dget s (c_cw c)) as [fl|] eqn:E; [|discriminate].
    unfold dmem in Hs. rewrite (H3 _ _ E) in Hs. discriminate.
Qed.

Lemma step_cw_ok : forall x es f d c o, good x es -> inv x es c -> cw_ok x f d c ->
  cw_ok x f (declare (ss_possible x) f d o) (step x c o).
Proof.
  intros x es f d c o G I H. pose proof (g_poss_nodup _ _ G) as Hn.
  destruct o; simpl.
  - apply cw_ok_ext with (c := c); auto.
    destruct (transition_cases x es c target msg G I) as [(_ & _ & fl & _ & _ & _ & Hc & _)|(_ & -> & _)]; auto.
  - destruct (update_health_same part a c) as (H1 & H2 & H3 & H4 & H5).
    eapply cw_ok_ext; eauto.
  - unfold set_writeable_in. destruct (forallb _ states) eqn:E; simpl.
    + rewrite andb_true_r. destruct (String.eqb field f) eqn:Ef.
      * apply String.eqb_eq in Ef; subst. eapply cw_ok_set_same; eauto.
      * apply String.eqb_neq in Ef. now apply cw_ok_set_other.
    + now rewrite andb_false_r.
  - unfold add_block_field. destruct settable; auto.
    set (c1 := with_wr (dset field true (c_wr c)) c).
    assert (H1 : forall g d', cw_ok x g d' c -> cw_ok x g d' c1).
    { intros; eapply cw_ok_ext; [|eassumption]; reflexivity. }
    destruct (String.eqb field f) eqn:Ef.
    + apply String.eqb_eq in Ef; subst f.
      rewrite (has_explicit_spec x field d c1).
      * destruct d; auto. apply (cw_ok_set_same x field (default_states x) None c1); auto.
      * intros E; pose proof (i_poss _ _ _ I) as Hp; rewrite E in Hp; destruct Hp.
      * auto.
    + apply String.eqb_neq in Ef. destruct (has_explicit x field (c_cw c1)); auto.
      apply cw_ok_set_other with (c := c1); auto.
Qed.

Lemma run_cw_ok : forall x es f h d c, good x es -> inv x es c -> cw_ok x f d c ->
  cw_ok x f (fold_left (declare (ss_possible x) f) h d) (run x c h).
Proof.
  intros x es f h; induction h as [|o r IH]; intros d c G I H; simpl; auto.
  apply IH; auto. now apply step_inv. eapply step_cw_ok; eauto.
Qed.

Lemma init_cw_ok : forall x es f, good x es ->
  cw_ok x f (if String.eqb "reset" f then Some [DISABLED; FAULT] else None) (ctrl_init x).
Proof.
  intros x es f G. unfold ctrl_init, set_writeable_in. rewrite (g_reset_states _ _ G).
  set (c1 := with_cw _ _).
  assert (I1 : inv x es c1).
  { subst c1. constructor; simpl; auto.
    - apply set_cw_all_full, (g_poss_nodup _ _ G).
    - apply (g_target _ _ G _ _ (g_fault_disable _ _ G)).
    - eauto.
    - constructor.
    - right; right; repeat split; auto; discriminate. }
  assert (H : cw_ok x f (if String.eqb "reset" f then Some [DISABLED; FAULT] else None) c1).
  { pose proof (g_poss_nodup _ _ G) as Hn.
    assert (H0 : forall g, cw_ok x g None ctrl0).
    { intros g. split; [constructor|]. split; simpl; intros; discriminate. }
    destruct (String.eqb "reset" f) eqn:Ef.
    - apply String.eqb_eq in Ef; subst. eapply cw_ok_set_same; eauto.
    - apply String.eqb_neq in Ef. apply cw_ok_set_other with (c := ctrl0); auto. }
  apply (step_cw_ok x es f _ c1 (OTransition DISABLED "") G I1 H).
Qed.

Lemma reach_cw_ok : forall x es f h, good x es ->
  cw_ok x f (declared (ss_possible x) f h) (run x (ctrl_init x) h).
Proof.
  intros. unfold declared. eapply run_cw_ok; eauto.
  - now apply ctrl_init_inv.
  - eapply init_cw_ok; eauto.
Qed.

Lemma apply_writeable_get : forall fl wr f, NoDup (dkeys fl) ->
  dget f (apply_writeable fl wr) = match dget f fl with Some b => Some b | None => dget f wr end.
Proof.
  induction fl as [|[g b] r IH]; intros wr f Hn; simpl; auto.
  inversion Hn as [|? ? Hg Hr]; subst. simpl in *. unfold apply_writeable in *; simpl.
  rewrite IH by auto. rewrite dget_dset.
  destruct (String.eqb f g) eqn:E; auto.
  apply String.eqb_eq in E; subst. assert (Hx : dget g r = None) by (now apply dget_None_notin).
  now rewrite Hx.
Qed.

Definition settled (x : stateset) (f : string) (l : list string) (c : ctrl) : Prop :=
  cw_ok x f (Some l) c /\ dget f (c_wr c) = Some (smem (c_state c) l).

Lemma transition_settles : forall x es f l c t m, good x es -> inv x es c ->
  cw_ok x f (Some l) c -> snd (transition x t m c) = None ->
  settled x f l (fst (transition x t m c)).
Proof.
  intros x es f l c t m G I H Hs.
  split.
  - apply (step_cw_ok x es f _ c (OTransition t m) G I H).
  - destruct (transition_cases x es c t m G I) as [(Hin & _ & fl & Hf & Hst & _ & Hc & Hw & _)|(_ & _ & H2)];
      [|congruence].
    rewrite Hw, Hst. destruct H as (H1 & H2 & H3).
    rewrite apply_writeable_get by eauto.
    destruct (H3 t (g_target _ _ G _ _ Hin)) as (fl' & Hf' & Hg).
    rewrite Hf in Hf'; injection Hf' as <-. now rewrite Hg.
Qed.

Lemma step_settled : forall x es f l c o, good x es -> inv x es c -> touches f o = false ->
  settled x f l c -> settled x f l (step x c o).
Proof.
  intros x es f l c o G I Ht [Hc Hw].
  assert (Hcw : cw_ok x f (Some l) (step x c o)).
  { assert (E : declare (ss_possible x) f (Some l) o = Some l).
    { destruct o; simpl in *; auto.
      - rewrite Ht; auto.
      - destruct settable; auto. rewrite Ht; auto. }
    rewrite <- E. eapply step_cw_ok; eauto. }
  split; auto.
  destruct o; simpl in *.
  - destruct (snd (transition x target msg c)) eqn:E.
    + destruct (transition_cases x es c target msg G I) as [(_ & H & _)|(_ & -> & _)]; auto. congruence.
    + eapply transition_settles; eauto.
  - destruct (update_health_same part a c) as (H1 & H2 & H3 & H4 & H5). now rewrite H1, H4.
  - unfold set_writeable_in; destruct (forallb _ states); simpl; auto.
  - unfold add_block_field. destruct settable; auto.
    apply String.eqb_neq in Ht.
    destruct (has_explicit _ _ _); simpl; rewrite dget_dset_other; auto.
Qed.

Lemma run_settled : forall x es f l h c, good x es -> inv x es c ->
  (forall o, In o h -> touches f o = false) ->
  settled x f l c -> settled x f l (run x c h).
Proof.
  intros x es f l h; induction h as [|o r IH]; intros c G I Ht H; simpl; auto.
  apply IH; auto.
  - now apply step_inv.
  - intros; apply Ht; right; auto.
  - eapply step_settled; eauto. apply Ht; left; auto.
Qed.

(** ** Health *)

Lemma worst_fold : forall l b w, fold_left worst_step l (Some b) = Some w ->
  (w = b \/ In w l) /\
  sev_value (a_sev b) <= sev_value (a_sev w) /\
  forall a, In a l -> sev_value (a_sev a) <= sev_value (a_sev w).
Proof.
  induction l as [|a r IH]; intros b w H; simpl in *.
  - injection H as ->; repeat split; auto; intros; contradiction.
  - destruct (Nat.leb (sev_value (a_sev b)) (sev_value (a_sev a))) eqn:E.
    + apply Nat.leb_le in E. apply IH in H. destruct H as (H1 & H2 & H3).
      repeat split; [destruct H1; subst; auto | lia |].
      intros a' [->|Ha]; auto.
    + apply Nat.leb_gt in E. apply IH in H. destruct H as (H1 & H2 & H3).
      repeat split; [destruct H1; auto | lia |].
      intros a' [->|Ha]; auto; lia.
Qed.

Lemma worst_spec : forall l,
  match worst l with
  | None => l = []
  | Some w => In w l /\ forall a, In a l -> sev_value (a_sev a) <= sev_value (a_sev w)
  end.
Proof.
  intros [|a r]; simpl; auto. unfold worst; simpl.
  assert (H : forall l b, exists w, fold_left worst_step l (Some b) = Some w).
  { induction l as [|x l IH]; intros b; simpl; eauto.
    destruct (Nat.leb _ _); eauto. }
  destruct (H r a) as [w Hw]. rewrite Hw. apply worst_fold in Hw.
  destruct Hw as (H1 & H2 & H3). split.
  - destruct H1; subst; auto.
  - intros a' [->|Ha]; auto.
Qed.

Lemma latest_app : forall p h1 h2,
  latest p (h1 ++ h2) = match latest p h2 with Some b => Some b | None => latest p h1 end.
Proof.
  induction h1 as [|[q a] r IH]; intros h2; simpl.
  - now destruct (latest p h2).
  - rewrite IH. destruct (latest p h2); auto.
Qed.

Definition faults_ok (h : list (string * alarm)) (c : ctrl) : Prop :=
  NoDup (dkeys (c_faults c)) /\
  (forall p, dget p (c_faults c) =
             match latest p h with
             | Some a => if is_ok a then None else Some a
             | None => None
             end) /\
  match worst (map snd (c_faults c)) with
  | Some w => c_health c = a_msg w /\ c_health_alarm c = w
  | None => c_health c = "OK" /\ c_health_alarm c = alarm_ok
  end.

Lemma update_health_faults : forall r a c,
  let c' := update_health r a c in
  c_faults c' = (if is_ok a then ddel r (c_faults c) else dset r a (c_faults c)) /\
  match worst (map snd (c_faults c')) with
  | Some w => c_health c' = a_msg w /\ c_health_alarm c' = w
  | None => c_health c' = "OK" /\ c_health_alarm c' = alarm_ok
  end.
Proof.
  intros r a c; unfold update_health. simpl.
  destruct (worst _) eqn:E; simpl; rewrite E; auto.
Qed.

Lemma reports_faults : forall h c, c_faults c = [] -> c_health c = "OK" -> c_health_alarm c = alarm_ok ->
  faults_ok h (reports h c).
Proof.
  intros h c Hc Hh Ha. induction h as [|[r a] h IH] using rev_ind.
  - split; [|split]; simpl; rewrite Hc; simpl; auto. constructor.
  - unfold reports in *. rewrite fold_left_app. simpl.
    set (c1 := fold_left _ h c) in *. destruct IH as (H1 & H2 & H3).
    destruct (update_health_faults r a c1) as [Hf Hw].
    split; [|split].
    + rewrite Hf. destruct (is_ok a); [now apply ddel_nodup | now apply dset_nodup].
    + intros p. rewrite Hf, latest_app. simpl.
      destruct (is_ok a) eqn:Eo.
      * rewrite dget_ddel by auto. destruct (String.eqb p r); [now rewrite Eo | apply H2].
      * rewrite dget_dset. destruct (String.eqb p r); [now rewrite Eo | apply H2].
    + exact Hw.
Qed.

Lemma health_spec : forall h c, c_faults c = [] -> c_health c = "OK" -> c_health_alarm c = alarm_ok ->
  let c' := reports h c in
  ((forall p a, latest p h = Some a -> is_ok a = true) ->
     c_health c' = "OK" /\ c_health_alarm c' = alarm_ok) /\
  ((exists p a, latest p h = Some a /\ is_ok a = false) ->
     exists p a, latest p h = Some a /\ is_ok a = false /\
       c_health c' = a_msg a /\ c_health_alarm c' = a /\
       forall q b, latest q h = Some b -> sev_value (a_sev b) <= sev_value (a_sev a)).
Proof.
  intros h c Hc Hh Ha c'. pose proof (reports_faults h c Hc Hh Ha) as (H1 & H2 & H3).
  fold c' in H1, H2, H3. pose proof (worst_spec (map snd (c_faults c'))) as Hw. split.
  - intros Hall. destruct (c_faults c') as [|[p a] r] eqn:E; [exact H3|].
    exfalso. assert (Hp : dget p (c_faults c') = Some a).
    { rewrite E; simpl; now rewrite String.eqb_refl. }
    rewrite E in Hp. rewrite H2 in Hp. destruct (latest p h) eqn:El; [|discriminate].
    rewrite (Hall _ _ El) in Hp. discriminate.
  - intros (p & a & Hl & Hn).
    assert (Hp : dget p (c_faults c') = Some a) by (rewrite H2, Hl, Hn; auto).
    destruct (worst (map snd (c_faults c'))) as [w|].
    + destruct Hw as [Hw1 Hw2]. destruct H3 as [H3 H4].
      apply in_map_iff in Hw1. destruct Hw1 as ([q b] & Hb & Hi). simpl in Hb; subst b.
      apply dget_In_nodup in Hi; auto. rewrite H2 in Hi.
      destruct (latest q h) as [b|] eqn:El; [|discriminate].
      destruct (is_ok b) eqn:Eb; [discriminate|]. injection Hi as ->.
      exists q, w. repeat split; auto.
      intros q' b' Hl'. destruct (is_ok b') eqn:Eb'.
      * unfold is_ok in Eb'. destruct (a_sev b'); try discriminate; simpl; lia.
      * apply Hw2. apply in_map_iff. exists (q', b'); split; auto.
        apply dget_Some_In. rewrite H2, Hl', Eb'. auto.
    + apply map_eq_nil in Hw. rewrite Hw in Hp. discriminate.
Qed.

Lemma good_kind : forall k, good (sset k) (graph k).
Proof. intros []; [exact good_stateful | exact good_manager | exact good_runnable]. Qed.

Lemma nodes_kind : forall k, ss_possible (sset k) = nodes k.
Proof. intros []; vm_compute; reflexivity. Qed.

Lemma allowed_graph : forall k s t,
  transition_allowed (sset k) s t = Ok true <-> In (s, t) (graph k).
Proof. intros k; apply (g_edges _ _ (good_kind k)). Qed.

Lemma published_path : forall k h,
  let c := run (sset k) (ctrl_init (sset k)) h in
  path (graph k) (c_pub c) /\ exists before, c_pub c = c_state c :: before.
Proof.
  intros k h c. pose proof (reach_inv _ _ h (good_kind k)) as I. fold c in I.
  split; [apply (i_path _ _ _ I) | apply (i_hd _ _ _ I)].
Qed.

Lemma illegal_call : forall k h start stop env fail,
  let c := run (sset k) (ctrl_init (sset k)) h in
  ~ In (c_state c, start) (graph k) ->
  let r := try_stateful (sset k) start stop env fail c in
  snd r <> None /\ (c_pub (fst r) = c_pub c \/ c_pub (fst r) = "Fault" :: c_pub c).
Proof.
  intros k h start stop env fail c Hn r. eapply try_illegal_start; eauto using good_kind.
  apply reach_inv, good_kind.
Qed.

Lemma call_stays_on_graph : forall k h start stop env o,
  let c := run (sset k) (ctrl_init (sset k)) h in
  path (graph k) (c_pub (fst (try_abortable (sset k) start stop env o c))).
Proof.
  intros k h start stop env o c.
  assert (G := good_kind k). assert (I : inv (sset k) (graph k) c) by (apply reach_inv; auto).
  assert (HE : forall e c, inv (sset k) (graph k) c ->
               inv (sset k) (graph k) (fst (handle_error (sset k) e c))).
  { intros e c0 I0. unfold handle_error, go_to_error_state.
    destruct (String.eqb (c_state c0) FAULT); simpl; auto.
    pose proof (transition_inv _ _ c0 FAULT (exn_text e) G I0) as I1.
    destruct (transition (sset k) FAULT (exn_text e) c0) as [c' []]; auto. }
  unfold try_abortable.
  pose proof (transition_inv _ _ c start "" G I) as I1.
  destruct (transition (sset k) start "" c) as [c1 [e|]]; simpl in I1.
  - apply i_path with (x := sset k), HE, I1.
  - assert (I2 := run_inv _ _ env c1 G I1).
    destruct o.
    + pose proof (transition_inv _ _ (run (sset k) c1 env) stop "" G I2) as I3.
      destruct (transition (sset k) stop "" (run (sset k) c1 env)) as [c3 [e|]]; simpl in *.
      * apply i_path with (x := sset k), HE, I3.
      * apply (i_path _ _ _ I3).
    + apply i_path with (x := sset k), HE, I2.
    + apply (i_path _ _ _ I2).
Qed.

Lemma disabled_only_resets : forall k h t newer older,
  c_pub (run (sset k) (ctrl_init (sset k)) h) = newer ++ t :: "Disabled" :: older ->
  t = "Resetting".
Proof.
  intros k h t newer older E.
  pose proof (published_path k h) as [Hp _]. rewrite E in Hp. apply path_edge in Hp.
  eapply g_disabled; eauto using good_kind.
Qed.

Lemma failing_call : forall k h start stop env m,
  let c := run (sset k) (ctrl_init (sset k)) h in
  In (c_state c, start) (graph k) ->
  let during := run (sset k) (fst (transition (sset k) start "" c)) env in
  let r := try_abortable (sset k) start stop env (FAILED m) c in
  (c_state during <> "Disabled" ->
   c_state (fst r) = "Fault" /\ snd r = Some (EWork m) /\
   (c_state during <> "Fault" ->
      c_state_alarm (fst r) = alarm_major m /\
      dget self_key (c_faults (fst r)) = Some (alarm_major m)) /\
   snd (transition (sset k) "Resetting" "" (fst r)) = None /\
   snd (transition (sset k) "Disabling" "" (fst r)) = None) /\
  (c_state during = "Disabled" -> fst r = during /\ snd r <> None).
Proof.
  intros k h start stop env m c Hin during r.
  assert (G := good_kind k). assert (I : inv (sset k) (graph k) c) by (apply reach_inv; auto).
  pose proof (try_failing_work _ _ start stop env m c G I Hin) as [H1 H2].
  assert (E : r = try_stateful (sset k) start stop env (Some m) c) by reflexivity.
  fold during in H1, H2. rewrite <- E in H1, H2. clearbody r. split; auto.
  intros Hd. destruct (H1 Hd) as (Ha & Hb & Hc). split; auto. split; auto. split; auto.
  assert (Ir : inv (sset k) (graph k) (fst r)).
  { rewrite E. unfold try_stateful.
    pose proof (transition_cases _ _ c start "" G I) as H.
    pose proof (transition_inv _ _ c start "" G I) as I1. fold during in I1.
    destruct H as [(_ & Hn & _)|(H & _)]; [|contradiction].
    destruct (transition (sset k) start "" c) as [c1 o] eqn:T; simpl in *; subst o.
    assert (I2 := run_inv _ _ env c1 G I1).
    unfold handle_error, go_to_error_state.
    destruct (String.eqb _ FAULT); simpl; auto.
    pose proof (transition_inv _ _ (run (sset k) c1 env) FAULT m G I2) as I3.
    destruct (transition (sset k) FAULT m _) as [c' []]; auto. }
  eapply fault_recoverable; eauto.
Qed.

Lemma writeable_after_transition : forall k h t m h2 f l,
  let c := run (sset k) (ctrl_init (sset k)) h in
  declared (nodes k) f h = Some l ->
  snd (transition (sset k) t m c) = None ->
  (forall o, In o h2 -> touches f o = false) ->
  let c' := run (sset k) (fst (transition (sset k) t m c)) h2 in
  exists b, dget f (c_wr c') = Some b /\ (b = true <-> In (c_state c') l).
Proof.
  intros k h t m h2 f l c Hd Ht Hh c'.
  assert (G := good_kind k). assert (I : inv (sset k) (graph k) c) by (apply reach_inv; auto).
  assert (Hc : cw_ok (sset k) f (Some l) c).
  { rewrite <- Hd, <- nodes_kind. eapply reach_cw_ok; eauto. }
  assert (Hs := transition_settles _ _ f l c t m G I Hc Ht).
  assert (I1 := transition_inv _ _ c t m G I).
  destruct (run_settled _ _ f l h2 _ G I1 Hh Hs) as [_ Hw]. fold c' in Hw.
  exists (smem (c_state c') l). split; auto. apply smem_In.
Qed.

Lemma transition_succeeds : forall k h t m,
  let c := run (sset k) (ctrl_init (sset k)) h in
  (In (c_state c, t) (graph k) -> snd (transition (sset k) t m c) = None) /\
  (~ In (c_state c, t) (graph k) -> transition (sset k) t m c = (c, Some EType)).
Proof.
  intros k h t m c. assert (G := good_kind k).
  assert (I : inv (sset k) (graph k) c) by (apply reach_inv; auto).
  destruct (transition_cases _ _ c t m G I) as [(Hi & Hn & _)|(Hn & H1 & H2)]; split; intros; auto; try contradiction.
  destruct (transition (sset k) t m c); simpl in *; subst; auto.
Qed.

Lemma alarm_by_state : forall k h,
  let c := run (sset k) (ctrl_init (sset k)) h in
  (c_state c = "Disabled" -> c_state_alarm c = alarm_invalid "Disabled") /\
  (c_state c = "Fault" -> exists m, c_state_alarm c = alarm_major m) /\
  (c_state c <> "Disabled" -> c_state c <> "Fault" -> c_state_alarm c = alarm_ok).
Proof.
  intros k h c. assert (I : inv (sset k) (graph k) c) by (apply reach_inv, good_kind).
  destruct (i_alarm _ _ _ I) as [[H1 H2]|[[H1 H2]|(H1 & H2 & H3)]];
    unfold DISABLED, FAULT in *; repeat split; intros; auto; try congruence.
Qed.
