(** The invariant behind C93: all interleavings of a considerate use. *)
From Coq Require Import String Bool Arith Lia List.
From Verif Require Import Base States_Model Thr_Model Thr_Spec.
Import ListNotations.
Local Open Scope list_scope.

(** ** The invariant *)

Definition clean (r : option (list bool)) : Prop :=
  match r with Some l => ~ In true l | None => True end.
Fixpoint trues (l : list bool) : nat :=
  match l with [] => 0 | true :: r => S (trues r) | false :: r => trues r end.
Definition once (r : option (list bool)) : Prop :=
  match r with Some l => trues l <= 1 | None => True end.

Definition begins (m : mpc) : Prop :=
  match m with CValid | CBegin _ | RStart | RBegin _ | XBegin => True | _ => False end.

Definition runs (m : mpc) : Prop :=
  match m with RGap _ _ | RHook _ _ _ _ | RPost _ | REnd _ => True | _ => False end.

Definition inactive (m : mpc) (r : option (list bool)) : Prop :=
  match m with
  | MIdle => True
  | CValid | CBegin _ | RStart | RBegin _ | XBegin => True
  | RWait _ => clean r
  | _ => False
  end.

Definition busy (p : ipc) : option kind :=
  match p with
  | IGet k | IWait k _ | IIgnore k | IHook k _ | IGap _ k | ISeek _ k _ | IEnd k => Some k
  | _ => None
  end.
Definition waiting (p : ipc) : Prop :=
  match p with IGet _ | IWait _ _ => True | _ => False end.
Definition acting (p : ipc) : Prop :=
  match p with IIgnore _ | IHook _ _ | IGap _ _ | ISeek _ _ _ | IEnd _ => True | _ => False end.
Definition told (p : ipc) : Prop :=
  match p with IHook _ true | IGap _ _ | ISeek _ _ _ | IEnd _ => True | _ => False end.
Definition disabling (p : ipc) : Prop :=
  match p with DStop | DFalse | DHook | DEnd => True | _ => False end.

(** The states in which the thread of configure, run or reset may be where it is. *)
Definition where_ok (m : mpc) (r : option (list bool)) (x : bstate) : Prop :=
  match m with
  | CReset | CFresh | CGap _ | CHook _ _ | CQueue | CEnd | CAborted =>
      match x with Configuring | Aborting | Fault | Disabling | Disabled => True | _ => False end
  | XHook | XEnd =>
      match x with Resetting | Fault | Disabling | Disabled => True | _ => False end
  | RGap _ _ | RHook _ _ _ _ | RPost _ | REnd _ | RAborted _ =>
      match x with
      | Running | PostRun | Seeking | Aborting | Fault | Disabling | Disabled => True
      | _ => False
      end
  | RWait _ =>
      clean r \/
      match x with
      | Running | Seeking | Aborting | Fault | Disabling | Disabled => True
      | _ => False
      end
  | CValid | CBegin _ | RStart | RBegin _ | XBegin =>
      match x with Paused | Running | PostRun | Configuring | Resetting => False | _ => True end
  | MIdle => True
  end.

Definition stopping (c : option nat) : Prop := match c with Some (S _) => True | _ => False end.
Definition goes (m : mpc) : Prop :=
  match m with RGap _ _ | RHook _ _ _ _ | RPost _ | REnd _ | RAborted _ | RWait _ => True | _ => False end.
Definition aborts (m : mpc) : Prop := match m with RAborted _ => True | _ => False end.
Definition late (p : ipc) : Prop :=
  match p with IHook _ _ | IGap _ _ | ISeek _ _ _ | IEnd _ => True | _ => False end.
(** Part of a pause that is to end in Paused, or of a resume. *)
Definition pauses (p : ipc) : Prop :=
  match p with
  | SBegin | SPut => True
  | IBegin k | IGet k | IWait k _ | IIgnore k | IHook k _ | IGap _ k | ISeek _ k _ | IEnd k =>
      match k with KPause Paused => True | _ => False end
  | _ => False
  end.
Definition fins (p : ipc) : Prop :=
  match p with
  | IBegin k | IGet k | IWait k _ | IIgnore k | IHook k _ | IGap _ k | ISeek _ k _ | IEnd k =>
      match k with KPause Paused | KPause Armed | KAbort => True | _ => False end
  | _ => True
  end.
Definition shut (l : list bool) : Prop := match l with false :: _ => True | _ => False end.

Definition cactive (m : mpc) : Prop :=
  match m with
  | CReset | CFresh | CGap _ | CHook _ _ | CQueue | CEnd | CAborted | XHook | XEnd => True
  | _ => False
  end.
(** What a pause or an abort has made sure of before its hooks run. *)
Definition still (k : kind) (m : mpc) (r : option (list bool)) (c : option nat) : Prop :=
  inactive m r /\ match k with KPause _ => clean r /\ c <> None | KAbort => True end.

(** What the rest of a run knows: whether it is the last, and the shutter. *)
Definition run_ok (m : mpc) (mr : bool) (ps : list bool) : Prop :=
  match m with
  | RBegin l | RPost l | RAborted l | RWait l => l = true -> mr = false
  | RGap h l => (l = true -> mr = false) /\
                match h with ReportForRun | PostRunArmed => l = false | _ => True end
  | RHook h l _ d =>
      (l = true -> mr = false) /\
      match h with
      | ReportForRun | PostRunArmed => l = false
      | PostRunReady => d = true -> shut ps
      | _ => True
      end
  | REnd l => l = true -> mr = false /\ shut ps
  | _ => True
  end.


Definition FB (b : ipc) : Prop := b = IIdle.
Definition FState (p : ipc) (x : bstate) (m : mpc) : Prop :=
  match busy p with
  | Some k => x = start_of k \/ (x = Fault /\ ~ begins m)
  | None => x <> Seeking /\ x <> Aborting
  end.
Definition FCtx0 (p : ipc) (c : option nat) : Prop := late p -> ~ stopping c.
Definition FIntr (p : ipc) : Prop :=
  fins p /\ match p with IAborted | ISeek _ _ true => False | _ => True end.
Definition FAct (p : ipc) (m : mpc) (r : option (list bool)) (c : option nat) : Prop :=
  match p with
  | IIgnore k | IHook k _ | IGap _ k | ISeek _ k _ | IEnd k => still k m r c
  | _ => True
  end.
Definition FNq (a : option nat) (n : nat) (it : list nat) : Prop :=
  (forall q, In q it -> q < n) /\ (forall q, a = Some q -> q < n).
Definition FItem (p : ipc) (a : option nat) (it : list nat) (m : mpc) (r : option (list bool)) (c : option nat) : Prop :=
  match p with
  | IGet k => forall q, a = Some q -> In q it -> still k m r c
  | IWait k q => a = Some q /\ (In q it -> still k m r c)
  | _ => True
  end.
Definition FStop (p : ipc) (m : mpc) (r : option (list bool)) (c : option nat) : Prop :=
  waiting p -> match m with
               | RGap _ _ | RHook _ _ _ _ | RPost _ | REnd _ => stopping c
               | RWait _ => clean r \/ stopping c
               | _ => True
               end.
Definition FCtx (m : mpc) (c : option nat) : Prop :=
  match m with
  | RGap _ _ | RHook _ _ _ _ | RPost _ | REnd _ | RAborted _ | RWait _
  | CGap _ | CHook _ _ | CQueue | CEnd => c <> None
  | _ => True
  end.
Definition FRq (m : mpc) (r : option (list bool)) : Prop :=
  match m with
  | RGap _ _ | RHook _ _ _ _ | RPost _ | REnd _ | RAborted _ | CEnd => clean r
  | RWait _ => once r
  | _ => True
  end.
Definition FRest (x : bstate) (r : option (list bool)) (c : option nat) : Prop :=
  match x with Armed | Paused | Finished => clean r /\ c <> None | _ => True end.
Definition FBegin (p : ipc) (m : mpc) (x : bstate) : Prop :=
  begins m -> ~ pauses p /\ (p = PRead -> x = Armed \/ x = Finished).
Definition FConf (p : ipc) (m : mpc) : Prop :=
  cactive m -> busy p = None \/ busy p = Some KAbort.
Definition FSput (p : ipc) (m : mpc) (r : option (list bool)) (x : bstate) : Prop :=
  p = SPut -> inactive m r /\ clean r /\ (x = Running \/ x = Fault).
Definition FDis (p : ipc) (x : bstate) (m : mpc) : Prop :=
  disabling p -> x = Disabling \/ (x = Fault /\ ~ begins m).
Definition FTold (p : ipc) (ps : list bool) : Prop := told p -> shut ps.
Definition FClosed (x : bstate) (ps : list bool) : Prop :=
  match x with Paused | Aborted | Finished => shut ps | _ => True end.

Record Inv (s : sys) : Prop := {
  i_b : FB (ib s);
  i_where : where_ok (main s) (rq s) (st s);
  i_state : FState (ia s) (st s) (main s);
  i_intr : FIntr (ia s);
  i_ctx0 : FCtx0 (ia s) (ctx s);
  i_act : FAct (ia s) (main s) (rq s) (ctx s);
  i_nq : FNq (aq s) (nq s) (items s);
  i_item : FItem (ia s) (aq s) (items s) (main s) (rq s) (ctx s);
  i_stop : FStop (ia s) (main s) (rq s) (ctx s);
  i_ctx : FCtx (main s) (ctx s);
  i_rq : FRq (main s) (rq s);
  i_rest : FRest (st s) (rq s) (ctx s);
  i_begin : FBegin (ia s) (main s) (st s);
  i_conf : FConf (ia s) (main s);
  i_sput : FSput (ia s) (main s) (rq s) (st s);
  i_dis : FDis (ia s) (st s) (main s);
  i_run : run_ok (main s) (more s) (puts s);
  i_told : FTold (ia s) (puts s);
  i_closed : FClosed (st s) (puts s)
}.
Lemma clean_app : forall r, clean (Some r) -> clean (Some (r ++ [false])).
Proof. cbn. intros r H I. apply in_app_or in I. destruct I as [I|[I|[]]]; [auto|discriminate]. Qed.
Lemma clean_app_inv : forall r, clean (Some (r ++ [false])) -> clean (Some r).
Proof. cbn. intros r H I. apply H, in_or_app. now left. Qed.
Lemma trues_app : forall a b, trues (a ++ b) = trues a + trues b.
Proof. induction a as [|[] a IH]; intros; cbn; rewrite ?IH; auto. Qed.
Lemma trues_clean : forall r, ~ In true r -> trues r = 0.
Proof. induction r as [|[] r IH]; cbn; intros H; auto. exfalso. auto. Qed.
Lemma clean_trues : forall r, trues r = 0 -> ~ In true r.
Proof. induction r as [|[] r IH]; cbn; intros H I; try discriminate; auto. destruct I; [discriminate|now apply IH]. Qed.
Lemma take_in : forall q l r x, take q l = Some r -> In x r -> In x l.
Proof.
  induction l as [|y l IH]; cbn; intros r x T I; [discriminate|].
  destruct (Nat.eqb y q); [injection T as <-; now right|].
  destruct (take q l) as [r'|]; [|discriminate]. injection T as <-.
  destruct I as [->|I]; [now left|right; eauto].
Qed.
Lemma take_has : forall q l r, take q l = Some r -> In q l.
Proof.
  induction l as [|y l IH]; cbn; intros r T; [discriminate|].
  destruct (Nat.eqb y q) eqn:E; [left; now apply Nat.eqb_eq|].
  destruct (take q l) as [r'|]; [|discriminate]. right. eauto.
Qed.


Ltac hd t := match t with ?f _ => hd f | _ => constr:(t) end.
Ltac flds := cbn [st ctx aq nq items rq more puts main ia ib] in *.

Lemma inv_fresh : Inv fresh.
Proof. constructor; flds; try exact I; red; cbn; intuition (try discriminate). Qed.

Ltac boot s Hi :=
  destruct s as [x c a n it r mr ps m p b];
  destruct Hi as [Hb Hwh Hst Hin Hc0 Hac Hnq Hit Hsp Hcx Hrq Hre Hbe Hcf Hsu Hdi Hru Hto Hcs];
  flds.

Ltac unf := unfold set_main, set_st, set_ctx, set_rq, set_more, set_items, add_put, new_aq,
                   set_intr, intr, stop_all, put_rq in *; flds.

(** A field of the invariant that follows from the same field before. *)
Ltac same :=
  try exact I;
  try match goal with H : ?P |- ?Q =>
    let a := hd P in let b := hd Q in constr_eq a b;
    solve [exact H | exact I | clear - H; unfold a in *; cbn in *; tauto
          | clear - H; unfold a in *; cbn in *; intuition (try congruence; try discriminate)]
  end.
Ltac ctor := constructor; flds; same.

Lemma rq_err : forall r, clean r -> clean (match r with Some l => Some (l ++ [false]) | None => None end).
Proof. intros [r|]; [apply clean_app|auto]. Qed.
Lemma once_err : forall r, once r -> once (match r with Some l => Some (l ++ [false]) | None => None end).
Proof. intros [r|]; cbn; [rewrite trues_app; cbn; lia|auto]. Qed.
Lemma inactive_err : forall m r, inactive m r -> inactive m (match r with Some l => Some (l ++ [false]) | None => None end).
Proof. destruct m; cbn; auto using rq_err. Qed.
Lemma still_err : forall k m r c, still k m r c -> still k m (match r with Some l => Some (l ++ [false]) | None => None end) c.
Proof.
  intros k m r c [A B]. split; [now apply inactive_err|]. destruct k; auto.
  destruct B. split; auto using rq_err.
Qed.

Lemma put_false_inv : forall s, Inv s -> Inv (put_rq false s).
Proof.
  intros s Hi. boot s Hi. unfold put_rq; cbn [rq].
  destruct r as [r|]; [|constructor; assumption].
  unf. ctor.
  - destruct m; try assumption. destruct Hwh as [C|C]; [left; now apply clean_app|now right].
  - destruct p; try exact I; apply (still_err _ m (Some r)), Hac.
  - destruct p; try exact I; cbn in *.
    + intros q A B. apply (still_err _ m (Some r)). eauto.
    + destruct Hit as [A B]. split; auto. intros C. apply (still_err _ m (Some r)). eauto.
  - intros W. specialize (Hsp W). destruct m; auto. destruct Hsp as [C|C]; [left; now apply clean_app|now right].
  - destruct m; try exact I; try apply clean_app, Hrq. apply (once_err (Some r)), Hrq.
  - destruct x; try exact I; (destruct Hre as [A B]; split; [now apply clean_app|exact B]).
  - intros A. destruct (Hsu A) as (B & C & D). split; [now apply (inactive_err m (Some r))|].
    split; auto. now apply clean_app.
Qed.

(** The state after an error. *)
Definition fault (x : bstate) : bstate := if allowed x Fault then Fault else x.

Lemma error_is : forall s, error s = set_st (fault (st s)) (put_rq false s).
Proof.
  intros s. unfold error, fault. destruct s as [x c a n it r mr ps m p b]. unfold put_rq; cbn [rq].
  destruct r; cbn [set_rq st rq]; destruct (allowed x Fault); reflexivity.
Qed.

Lemma fault_cases : forall x, fault x = Fault \/ (fault x = Disabled /\ x = Disabled).
Proof. destruct x; cbn; auto. Qed.

Lemma still_idle : forall k m r c, still k m r c -> still k MIdle r c.
Proof. intros k m r c [A B]. split; [exact I|exact B]. Qed.

Lemma fault_main : forall s, Inv s -> Inv (set_main MIdle (set_st (fault (st s)) s)).
Proof.
  intros s Hi. boot s Hi. unf.
  assert (F := fault_cases x).
  ctor.
  - unfold FState in *. destruct F as [-> |[-> ->]].
    + destruct (busy p); [right; split; [auto|cbn; tauto]|split; discriminate].
    + destruct (busy p) as [k|]; [|exact Hst]. destruct Hst as [E|[E _]]; [destruct k|]; discriminate E.
  - destruct p; try exact I; eapply still_idle, Hac.
  - destruct p; try exact I; cbn in *; [intros q A B; eapply still_idle; eauto|].
    destruct Hit as [A B]; split; auto; intros C; eapply still_idle; eauto.
  - destruct F as [-> |[-> ->]]; exact I.
  - intros E. destruct (Hsu E) as (A & B & [-> | ->]); cbn; auto.
  - intros E. destruct (Hdi E) as [-> |[-> _]]; cbn; auto.
  - destruct F as [-> |[-> ->]]; exact I.
Qed.

Lemma fault_intr : forall s, Inv s -> Inv (set_intr false IIdle (set_st (fault (st s)) s)).
Proof.
  intros s Hi. boot s Hi. unf.
  assert (F := fault_cases x).
  ctor.
  - destruct F as [-> |[-> ->]]; [|exact Hwh]. destruct m; cbn in *; auto.
  - red. cbn. destruct F as [-> |[-> ->]]; split; discriminate.
  - destruct F as [-> |[-> ->]]; exact I.
  - destruct F as [-> |[-> ->]]; exact I.
Qed.

Lemma error_main : forall s, Inv s -> Inv (set_main MIdle (error s)).
Proof.
  intros s H. rewrite error_is.
  assert (E : st s = st (put_rq false s)) by (unfold put_rq; destruct (rq s); reflexivity).
  rewrite E. apply fault_main, put_false_inv, H.
Qed.
Lemma error_intr : forall s, Inv s -> Inv (set_intr false IIdle (error s)).
Proof.
  intros s H. rewrite error_is.
  assert (E : st s = st (put_rq false s)) by (unfold put_rq; destruct (rq s); reflexivity).
  rewrite E. apply fault_intr, put_false_inv, H.
Qed.

Lemma error_again : forall s, set_main MIdle (error (set_main MIdle s)) = set_main MIdle (error s).
Proof.
  intros s. rewrite !error_is. destruct s as [x c a n it r mr ps m p b]. unfold put_rq; cbn [rq set_main].
  destruct r; reflexivity.
Qed.

(** With the thread of pause or abort in a known place. *)
Ltac deep1 p := let k := fresh "k" in let z := fresh "z" in let d := fresh "d" in
    destruct p as [| |k|k|k z|k|k d|d k|d k z|k| | | | | | | | |]; try destruct k; cbn in *;
    solve [tauto | intuition (try congruence; try discriminate; eauto) | firstorder (try congruence)].
Ltac deep p :=
  match goal with
  | H2 : FState _ _ _, H3 : where_ok _ _ _, H4 : FConf _ _ |- FState _ _ _ =>
    clear - H2 H3 H4; unfold FState, FConf in *; deep1 p
  | H2 : FState _ _ _, H3 : where_ok _ _ _, H4 : FConf _ _ |- FConf _ _ =>
    clear - H2 H3 H4; unfold FState, FConf in *; deep1 p
  | H2 : FState _ _ _, H3 : where_ok _ _ _, H4 : FConf _ _ |- where_ok _ _ _ =>
    clear - H2 H3 H4; unfold FState, FConf in *; deep1 p
  | H1 : ?P, H2 : FState _ _ _, H3 : where_ok _ _ _, H4 : FConf _ _ |- ?Q =>
    let a := hd P in let b := hd Q in constr_eq a b;
    clear - H1 H2 H3 H4; unfold a, FState, FConf, still in *; deep1 p
  end.

Lemma mstep_inv : forall ch s s', Inv s -> mstep ch s = Some s' -> Inv s'.
Proof.
  intros ch s s' Hi H. unfold mstep in H.
  destruct (main s) as [|  |orig| | |h|h sp| | | | |l|h l|h l sp d|l|l|l|l| | |] eqn:M;
    destruct ch as [b0| | | |]; try discriminate H.
  all: try (destruct sp); try (destruct d); try discriminate H; try (injection H as <-);
       try solve [apply error_main, Hi].
  - boot s Hi. subst m. unf. ctor; deep p.
  - boot s Hi. subst m. unf. ctor; deep p.
  - (* CBegin *) destruct (allowed (st s) Configuring) eqn:A; [|apply error_main, Hi].
    assert (O : (match orig with Finished => CReset | _ => CFresh end) = CReset \/
                (match orig with Finished => CReset | _ => CFresh end) = CFresh) by (destruct orig; auto).
    boot s Hi. subst m. unf. destruct x; try discriminate A; destruct O as [-> | ->]; ctor; deep p.
  - (* CReset *) boot s Hi. subst m. unf. ctor; deep p.
  - (* CFresh *) boot s Hi. subst m. unf. ctor; try deep p. destruct x; cbn in *; try tauto; intuition discriminate.
  - (* CGap *) boot s Hi. subst m. unf. ctor; deep p.
  - (* CHook *) boot s Hi. subst m. unf. destruct h; ctor; deep p.
  - boot s Hi. subst m. unf. destruct h; ctor; deep p.
  - boot s Hi. subst m. unf. ctor; deep p.
  - (* CQueue *) boot s Hi. subst m. unf. ctor; try deep p. destruct x; cbn in *; try tauto; intuition discriminate.
  - (* CEnd *) unfold abortable. destruct (ctx s) as [[|w]|] eqn:C.
    + destruct (allowed (st s) Armed) eqn:A; [|apply error_main, Hi].
      boot s Hi. subst m c. unf. destruct x; try discriminate A; ctor; try deep p.
      * red. split; [exact Hrq|discriminate].
    + boot s Hi. subst m c. unf. ctor; try deep p. destruct x; cbn in *; try tauto; intuition discriminate.
    + boot s Hi. subst m c. contradiction Hcx. reflexivity.
  - (* CAborted *) unfold put_aq. destruct (aq s) as [q|] eqn:Q; boot s Hi; subst m a; unf; ctor; try deep p.
  - (* RStart *) boot s Hi. subst m. unf. ctor; try deep p. cbn. destruct mr; auto; discriminate.
  - (* RBegin *) destruct (allowed (st s) Running) eqn:A; [|apply error_main, Hi].
    boot s Hi. subst m. unf. destruct x; try discriminate A; ctor; try deep p.
    + apply Hre.
    + apply Hre.
  - (* RGap *) boot s Hi. subst m. unf. destruct h; ctor; deep p.
  - (* RHook goes on *) boot s Hi. subst m. unf. destruct h; ctor; try deep p.
  - boot s Hi. subst m. unf. destruct h; ctor; try deep p.
  - (* the shutter *) boot s Hi. subst m. unf. ctor; try deep p.
    + destruct h; cbn in *; try tauto.
    + intros T. unfold FAct, still in Hac. destruct p as [| |k|k|k z|k|k d|d k|d k z|k| | | | | | | | |]; try destruct d; cbn in *; tauto.
    + destruct x; cbn in *; tauto.
  - boot s Hi. subst m. unf. ctor; try deep p.
    + destruct h; cbn in *; try tauto.
    + intros T. unfold FAct, still in Hac. destruct p as [| |k|k|k z|k|k d|d k|d k z|k| | | | | | | | |]; try destruct d; cbn in *; tauto.
    + destruct x; cbn in *; tauto.
  - (* aborted *) boot s Hi. subst m. unf. destruct h; ctor; try deep p.
  - boot s Hi. subst m. unf. destruct h; ctor; try deep p.
  - (* RPost *) unfold abortable. destruct (ctx s) as [[|w]|] eqn:C.
    + destruct (allowed (st s) PostRun) eqn:A; [|apply error_main, Hi].
      boot s Hi. subst m c. unf. destruct x; try discriminate A; destruct mr; ctor; try deep p.
      destruct l; cbn in *; intuition discriminate.
    + boot s Hi. subst m c. unf. ctor; try deep p; try solve [destruct x; cbn in *; intuition discriminate].
    + boot s Hi. subst m c. contradiction Hcx. reflexivity.
  - (* REnd *) unfold abortable. destruct (ctx s) as [[|w]|] eqn:C.
    + destruct (allowed (st s) (if l then Finished else Armed)) eqn:A; [|apply error_main, Hi].
      boot s Hi. subst m c. unf.
      assert (X : x <> Seeking).
      { intros ->. clear - Hst Hsp Hac. unfold FState, FStop, FAct, still in *.
        destruct p; cbn in *; intuition discriminate. }
      destruct x; destruct l; try discriminate A; try (contradiction X; reflexivity); ctor; try deep p;
      try solve [split; [exact Hrq|discriminate]].
      cbn in *. apply Hru. reflexivity.
    + boot s Hi. subst m c. unf. ctor; try deep p.
      destruct x; cbn in *; intuition discriminate.
    + boot s Hi. subst m c. contradiction Hcx. reflexivity.
  - (* RAborted *) unfold put_aq. destruct (aq s) as [q|] eqn:Q; [|apply error_main, Hi].
    cbn [set_items rq]. destruct (rq s) as [r0|] eqn:R.
    + boot s Hi. subst m a r. unf. ctor; try deep p.
      * left. exact Hrq.
      * assert (Y : forall k, still k (RWait l) (Some r0) c).
        { intros k. split; [exact Hrq|]. destruct k; [split; [exact Hrq|exact Hcx]|exact I]. }
        clear - Hit Y. destruct p; try exact I; cbn in *; [auto|]. destruct Hit as [E _]. split; auto.
      * intros _. left. exact Hrq.
      * cbn. rewrite trues_clean by exact Hrq. lia.
    + rewrite <- error_again. apply error_main.
      boot s Hi. subst m a r. unf. ctor; try deep p.
      clear - Hit Hcx. assert (Y : forall k, still k MIdle None c).
      { intros k. split; [exact I|]. destruct k; [split; [exact I|exact Hcx]|exact I]. }
      destruct p; try exact I; cbn in *; [auto|]. destruct Hit as [E _]. split; auto.
  - (* RWait *) destruct (rq s) as [[|[] r0]|] eqn:R; try discriminate H; injection H as <-.
    + boot s Hi. subst m r. unf. ctor; try deep p.
      * clear - Hwh. destruct Hwh as [C|C]; [exfalso; apply C; now left|]. destruct x; cbn in *; tauto.
      * cbn in *. apply clean_trues. lia.
      * clear - Hre. destruct x; try exact I; (destruct Hre as [C _]; exfalso; apply C; now left).
    + boot s Hi. subst m r. unf. ctor; try deep p.
      clear - Hre. destruct x; try exact I; (destruct Hre as [C D]; split; [|exact D]; intros N; apply C; now right).
  - (* XBegin *) destruct (allowed (st s) Resetting) eqn:A; [|apply error_main, Hi].
    boot s Hi. subst m. unf. destruct x; try discriminate A; ctor; try deep p.
    intros ->. contradiction (proj1 (Hbe I) I).
  - (* XHook *) boot s Hi. subst m. unf. ctor; try deep p.
  - (* XEnd *) destruct (allowed (st s) Ready) eqn:A; [|apply error_main, Hi].
    boot s Hi. subst m. unf. destruct x; try discriminate A; ctor; try deep p.
Qed.


Lemma stop_inactive : forall m r, inactive (stop_main m) r <-> inactive m r.
Proof. destruct m; cbn; tauto. Qed.
Lemma stop_begins : forall m, begins (stop_main m) <-> begins m.
Proof. destruct m; cbn; tauto. Qed.

Lemma stop_inv : forall s, Inv s -> ~ late (ia s) -> Inv (stop_all s).
Proof.
  intros s Hi L. boot s Hi. unfold stop_all; flds. rewrite Hb.
  assert (P : stop_intr p = p) by (destruct p; try reflexivity; cbn in L; tauto). rewrite P.
  assert (ST : forall k, still k m r c -> still k (stop_main m) r (match c with Some n0 => Some (S n0) | None => None end)).
  { intros k [A B]. split; [now apply stop_inactive|]. destruct k; auto. destruct B as [B C]. split; auto.
    destruct c; [discriminate|contradiction C; reflexivity]. }
  ctor.
  - destruct m; exact Hwh.
  - unfold FState in *. destruct (busy p); auto. now rewrite stop_begins.
  - intros Q. contradiction.
  - destruct p; try exact I; apply ST, Hac.
  - destruct p; try exact I; cbn in *; [intros; apply ST; eauto|]. destruct Hit. split; auto.
  - intros W. specialize (Hsp W). destruct m; cbn in *; destruct c as [[|]|]; cbn in *; tauto.
  - destruct m; cbn in *; destruct c as [[|]|]; cbn in *; congruence.
  - destruct m; exact Hrq.
  - destruct x; try exact I; (destruct Hre as [A B]; split; auto; destruct c; congruence).
  - unfold FBegin in *. now rewrite stop_begins.
  - unfold FConf in *. destruct m; exact Hcf.
  - unfold FSput in *. now rewrite stop_inactive.
  - unfold FDis in *. now rewrite stop_begins.
  - destruct m; exact Hru.
Qed.

Lemma rest_still : forall s k, Inv s -> resting (st s) = true -> allowed (st s) (start_of k) = true ->
  still k (main s) (rq s) (ctx s).
Proof.
  intros s k Hi R A. boot s Hi. split.
  - clear - Hwh R. destruct x; try discriminate R; destruct m; cbn in *; tauto.
  - destruct k; [|exact I]. destruct x; try discriminate R; try discriminate A; exact Hre.
Qed.

Lemma istep_inv : forall ch s s', Inv s -> polite (Intr false ch) s = true ->
  istep false ch s = Some s' -> Inv s'.
Proof.
  intros ch s s' Hi Po H. unfold istep in H. cbn [intr] in H. cbn [polite] in Po.
  destruct (ia s) as [| |k|k|k q|k|k d|sk k|sk k z|k| | | | | | | | |] eqn:M;
    destruct ch as [b0| | | |]; try discriminate H; try discriminate Po.
  all: try (destruct d); try (destruct z); try (destruct sk); try discriminate H;
       try solve [injection H as <-; apply error_intr, Hi].
  - (* PRead *) injection H as <-. boot s Hi. subst p. unf. destruct x; try destruct b0; ctor.
  - (* IBegin *) injection H as <-. cbn [new_aq st].
    destruct (allowed (st s) (start_of k)) eqn:A.
    2: { apply error_intr. boot s Hi. subst p. unf. ctor.
         destruct Hnq as [N1 N2]. split; intros q I; [apply Nat.lt_lt_succ_r; auto|injection I as <-; lia]. }
    assert (T : Inv (stop_all (new_aq s))).
    { apply stop_inv; [|cbn; rewrite M; auto]. boot s Hi. subst p. unf. ctor.
      destruct Hnq as [N1 N2]. split; intros q I; [apply Nat.lt_lt_succ_r; auto|injection I as <-; lia]. }
    assert (N : forall q, aq (stop_all (new_aq s)) = Some q -> ~ In q (items (stop_all (new_aq s)))).
    { cbn. intros q Q I. injection Q as <-. apply Hi in I. lia. }
    assert (C : ctx (stop_all (new_aq s)) <> None -> stopping (ctx (stop_all (new_aq s)))).
    { cbn. destruct (ctx s); cbn; [auto|congruence]. }
    assert (M' : ia (stop_all (new_aq s)) = IBegin k) by (cbn; now rewrite M).
    change (Inv (set_intr false (if resting (st s) then IIgnore k else IGet k)
                   (set_st (start_of k) (stop_all (new_aq s))))).
    change (st s) with (st (stop_all (new_aq s))) in *.
    set (t := stop_all (new_aq s)) in *. clearbody t. clear s Hi M Po.
    destruct (resting (st t)) eqn:R.
    + assert (S := rest_still t k T R A).
      boot t T. subst p. unf. ctor.
      * clear - Hwh A. destruct k, x; try discriminate A; destruct m; cbn in *; tauto.
      * exact S.
      * destruct k; exact I.
      * clear - S. intros Q. destruct S as [Z _]. destruct m; cbn in *; contradiction.
      * destruct k; exact I.
    + boot t T. subst p. unf. ctor.
      * clear - Hwh A. destruct k, x; try discriminate A; destruct m; cbn in *; tauto.
      * intros q Q Z. contradiction (N q Q Z).
      * intros _. clear - C Hcx. destruct m; try exact I; try (apply C, Hcx). right. apply C, Hcx.
      * destruct k; exact I.
      * clear - Hwh A. intros Z. destruct k; [|now right]. exfalso.
        destruct x; try discriminate A; destruct m; cbn in *; contradiction.
      * destruct k; exact I.
  - (* IGet *) destruct (aq s) as [q|] eqn:Q; [|discriminate H]. injection H as <-.
    boot s Hi. subst p a. unf. ctor. split; [reflexivity|]. now apply Hit.
  - (* IWait *) destruct (take q (items s)) as [it'|] eqn:T; [|discriminate H]. injection H as <-.
    boot s Hi. subst p. unf. ctor.
    + apply Hit, (take_has _ _ _ T).
    + destruct Hnq as [N1 N2]. split; auto. intros z I. eapply N1, take_in; eauto.
  - (* IIgnore *) injection H as <-. destruct (ctx s) as [c0|] eqn:C; boot s Hi; subst p c; unf; ctor.
    + destruct Hac as [A B]. split; auto. destruct k; auto. split; [apply B|discriminate].
    + destruct m; try exact I; discriminate.
    + destruct x; try exact I; (split; [apply Hre|discriminate]).
  - (* IHook *) injection H as <-.
    boot s Hi. subst p. unf. destruct k; ctor.
  - (* put *) injection H as <-.
    boot s Hi. subst p. unf. ctor.
    + destruct Hac as [B _]. destruct m; cbn in *; tauto.
    + destruct x; exact I.
  - (* IGap *) injection H as <-.
    boot s Hi. subst p. unf. ctor.
  - injection H as <-.
    boot s Hi. subst p. unf. ctor.
  - (* ISeek *) injection H as <-.
    boot s Hi. subst p. destruct Hin as [_ []].
  - injection H as <-.
    boot s Hi. subst p. destruct Hin as [_ []].
  - injection H as <-.
    boot s Hi. subst p. unf. ctor.
    unfold main_idle in Po; cbn [main more] in Po.
    destruct Hac as [B _]. destruct m; cbn in *; try tauto; destruct b0, mr; try discriminate Po; auto.
  - injection H as <-.
    boot s Hi. subst p. unf. ctor.
  - boot s Hi. subst p. destruct Hin as [_ []].
  - boot s Hi. subst p. destruct Hin as [_ []].
  - (* IEnd *) injection H as <-. unfold abortable.
    assert (G : forall s, Inv s -> ia s = IEnd k -> allowed (st s) (end_of k) = true ->
                Inv (match k with KAbort => set_intr false IFalse | _ => set_intr false IIdle end
                       (set_st (end_of k) s))).
    { clear. intros s Hi M A. boot s Hi. subst p.
      assert (X : x = start_of k).
      { destruct Hst as [E|[E _]]; [exact E|]. subst x. destruct Hin as [F _].
        destruct k as [[]|]; cbn in *; try contradiction; discriminate. }
      subst x. destruct Hin as [F _]. destruct k as [e|].
      - unf. destruct Hac as (Y & R & Z). destruct e; cbn in F; try contradiction F; cbn [end_of]; ctor.
        + clear - Y. destruct m; cbn in *; tauto.
        + split; exact I.
        + now split.
        + clear - Y Hbe. destruct m; cbn in *; try tauto; exfalso; apply (proj1 (Hbe I) I).
        + split; exact I.
        + now split.
        + apply Hto. exact I.
      - unf. destruct Hac as (Y & _). cbn [end_of]. ctor.
        + clear - Y. destruct m; cbn in *; tauto.
        + split; exact I.
        + apply Hto. exact I. }
    destruct (ctx s) as [[|w]|] eqn:C.
    + destruct (allowed (st s) (end_of k)) eqn:A; [|apply error_intr, Hi]. now apply G.
    + exfalso. boot s Hi. subst p c. apply (Hc0 I I).
    + destruct (allowed (st s) (end_of k)) eqn:A; [|apply error_intr, Hi]. now apply G.
  - (* IAborted *) boot s Hi. subst p. destruct Hin as [_ []].
  - (* IFalse *) injection H as <-. apply put_false_inv in Hi.
    assert (E : ia (put_rq false s) = IFalse) by (unfold put_rq; destruct (rq s); exact M).
    set (t := put_rq false s) in *. clearbody t. boot t Hi. subst p. unf. ctor.
  - (* SBegin *) injection H as <-. destruct (allowed (st s) Running) eqn:A.
    + boot s Hi. subst p. unf.
      assert (X : x = Armed \/ x = Paused) by (destruct x; try discriminate A; auto).
      assert (R : clean r) by (destruct X; subst x; apply Hre).
      assert (B : ~ begins m) by (intros B; apply (proj1 (Hbe B) I)).
      assert (Y : inactive m r).
      { clear - X Hwh R. destruct X; subst x; destruct m; cbn in *; tauto. }
      ctor.
      * clear - Y B. destruct m; cbn in *; tauto.
      * intros _. auto.
      all: match goal with |- ?G => idtac G end.
    + boot s Hi. subst p. unf. ctor.
  - (* SPut *) injection H as <-. boot s Hi. subst p. unfold put_rq; cbn [rq].
    destruct (Hsu eq_refl) as (Y & R & X).
    assert (T : forall r0, r = Some r0 -> where_ok m (Some (r0 ++ [true])) x /\ FRq m (Some (r0 ++ [true])) /\
                FRest x (Some (r0 ++ [true])) c).
    { intros r0 ->. repeat split.
      - clear - X Hwh. destruct X; subst x; destruct m; cbn in *; tauto.
      - clear - Y R. destruct m; cbn in *; try tauto. rewrite trues_app, (trues_clean _ R). cbn. lia.
      - destruct X; subst x; exact I. }
    destruct r as [r|]; unf; [destruct (T r eq_refl) as (T1 & T2 & T3)|]; ctor; auto.
  - (* DBegin *) injection H as <-. destruct (allowed (st s) Disabling) eqn:A; [|apply error_intr, Hi].
    boot s Hi. subst p. unf. ctor.
    destruct m; cbn in *; auto.
  - (* DStop *) injection H as <-. assert (T : Inv (stop_all s)) by (apply stop_inv; [exact Hi|now rewrite M]).
    assert (M' : ia (stop_all s) = DStop) by (cbn; now rewrite M).
    change (Inv (set_intr false DFalse (stop_all s))).
    set (t := stop_all s) in *. clearbody t. clear s Hi M Po. boot t T. subst p. unf. ctor.
  - injection H as <-. apply put_false_inv in Hi.
    assert (E : ia (put_rq false s) = DFalse) by (unfold put_rq; destruct (rq s); exact M).
    set (t := put_rq false s) in *. clearbody t. boot t Hi. subst p. unf. ctor.
  - injection H as <-. boot s Hi. subst p. unf. ctor.
  - injection H as <-. destruct (allowed (st s) Disabled) eqn:A; [|apply error_intr, Hi].
    boot s Hi. subst p. unf. ctor.
    destruct m; cbn in *; auto.
Qed.

Lemma call_main_inv : forall s m, Inv s -> main s = MIdle -> ia s = IIdle ->
  (m = CValid /\ writeable CallConfigure (st s) = true \/
   m = RStart /\ writeable CallRun (st s) = true \/
   m = XBegin /\ writeable CallReset (st s) = true) -> Inv (set_main m s).
Proof.
  intros s m0 Hi M P W. boot s Hi. subst m p. unf.
  destruct W as [[-> W]|[[-> W]|[-> W]]]; ctor; try (destruct x; try discriminate W; exact I); try (split; cbn; tauto || discriminate).
Qed.

Lemma call_intr_inv : forall s p, Inv s -> ia s = IIdle ->
  (p = PRead /\ writeable (CallPause false) (st s) = true \/
   p = IBegin KAbort \/
   p = SBegin /\ writeable (CallResume false) (st s) = true \/
   p = DBegin) -> Inv (set_intr false p s).
Proof.
  intros s p0 Hi P W. boot s Hi. subst p. unf.
  destruct W as [[-> W]|[-> |[[-> W]| ->]]]; ctor.
  - intros B. split; [cbn; tauto|]. intros _. clear - B Hwh W.
    destruct x; try discriminate W; auto; destruct m; cbn in *; tauto.
  - intros B. exfalso. clear - B Hwh W. destruct x; try discriminate W; destruct m; cbn in *; tauto.
Qed.

Lemma step_inv : forall e s s', Inv s -> polite e s = true -> step e s = Some s' -> Inv s'.
Proof.
  intros e s s' Hi Po H. destruct e as [| | |i|i|i|i|c|i c]; cbn [step] in H.
  - destruct (writeable CallConfigure (st s)) eqn:W; [|discriminate H].
    unfold main_idle in H. destruct (main s) eqn:M; try discriminate H. injection H as <-.
    cbn in Po. unfold intr_idle, intr in Po. destruct (ia s) eqn:P; try discriminate Po.
    apply call_main_inv; auto.
  - destruct (writeable CallRun (st s)) eqn:W; [|discriminate H].
    unfold main_idle in H. destruct (main s) eqn:M; try discriminate H. injection H as <-.
    cbn in Po. unfold intr_idle, intr in Po. destruct (ia s) eqn:P; try discriminate Po.
    apply call_main_inv; auto.
  - destruct (writeable CallReset (st s)) eqn:W; [|discriminate H].
    unfold main_idle in H. destruct (main s) eqn:M; try discriminate H. injection H as <-.
    cbn in Po. unfold intr_idle, intr in Po. destruct (ia s) eqn:P; try discriminate Po.
    apply call_main_inv; auto.
  - destruct i; [discriminate Po|]. destruct (writeable (CallPause false) (st s)) eqn:W; [|discriminate H].
    unfold intr_idle, intr in H. destruct (ia s) eqn:P; try discriminate H. injection H as <-.
    apply (call_intr_inv s PRead); auto.
  - destruct i; [discriminate Po|]. destruct (writeable (CallAbort false) (st s)) eqn:W; [|discriminate H].
    unfold intr_idle, intr in H. destruct (ia s) eqn:P; try discriminate H. injection H as <-.
    apply (call_intr_inv s (IBegin KAbort)); auto.
  - destruct i; [discriminate Po|]. destruct (writeable (CallResume false) (st s)) eqn:W; [|discriminate H].
    unfold intr_idle, intr in H. destruct (ia s) eqn:P; try discriminate H. injection H as <-.
    apply (call_intr_inv s SBegin); auto.
  - destruct i; [discriminate Po|]. destruct (writeable (CallDisable false) (st s)) eqn:W; [|discriminate H].
    unfold intr_idle, intr in H. destruct (ia s) eqn:P; try discriminate H. injection H as <-.
    apply (call_intr_inv s DBegin); auto.
  - exact (mstep_inv c s s' Hi H).
  - destruct i; [|exact (istep_inv c s s' Hi Po H)].
    unfold istep, intr in H. rewrite (i_b s Hi) in H. destruct c; discriminate H.
Qed.

Lemma exec_inv : forall es s s', Inv s -> exec polite s es = Some s' -> Inv s'.
Proof.
  induction es as [|e es IH]; cbn; intros s s' Hi H; [now injection H as <-|].
  destruct (polite e s) eqn:P; [|discriminate]. destruct (step e s) as [t|] eqn:S; [|discriminate].
  eapply IH; [|exact H]. eapply step_inv; eauto.
Qed.
