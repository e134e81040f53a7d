(** A pause or an abort that waits for the run or the configure it stopped is
    not left waiting: the rest of C93. *)
From Coq Require Import String Bool Arith Lia List.
From Verif Require Import Base States_Model Thr_Model Thr_Spec Thr_Proofs.
Import ListNotations.
Local Open Scope list_scope.

(** ** Specification *)

(** A pause decides where it will end (runnablecontroller.py:681-692) before it
    takes the lock (625): no run may end in between. *)
Definition prompt (e : event) (s : sys) : bool :=
  polite e s &&
  match e, ia s, st s with
  | Intr false _, IBegin (KPause Paused), (Armed | Finished) => false
  | _, _, _ => true
  end.

(** ** The invariant *)

Definition nf (r : option (list bool)) : Prop := match r with Some l => ~ In false l | None => True end.
Definition acts (m : mpc) : Prop :=
  match m with RGap _ _ | RHook _ _ _ _ | RPost _ | REnd _ | RAborted _ => True | _ => False end.
Definition confs (m : mpc) : Prop :=
  match m with CReset | CFresh | CGap _ | CHook _ _ | CQueue | CEnd | CAborted => True | _ => False end.
Definition waits (m : mpc) : Prop := match m with RWait _ => True | _ => False end.
Definition rests (m : mpc) (r : option (list bool)) : Prop :=
  match m with MIdle => True | RWait _ => clean r | _ => False end.

Definition LNf (m : mpc) (r : option (list bool)) (x : bstate) : Prop :=
  match x with
  | Armed | Finished | Running | PostRun | Paused | Seeking => nf r
  | Aborting => goes m -> nf r
  | Configuring => m = CEnd -> nf r
  | _ => True
  end.
Definition LFalse (p : ipc) (x : bstate) (m : mpc) : Prop :=
  p = IFalse -> match x with Aborted | Fault | Resetting => True | Ready => m = MIdle | _ => False end.
Definition LWait (m : mpc) (r : option (list bool)) (x : bstate) : Prop :=
  waits m -> r <> None /\ match x with Ready | Resetting | Configuring => False | _ => True end.
Definition LPaused (p : ipc) (m : mpc) (x : bstate) : Prop :=
  (x = Paused -> waits m) /\ (p = SBegin -> x = Paused) /\ (p = SPut -> x = Running -> waits m) /\
  (busy p = Some (KPause Paused) -> x = Seeking -> goes m).
Definition LLive (p : ipc) (m : mpc) (r : option (list bool)) (x : bstate) : Prop :=
  match x with
  | Configuring => confs m
  | Running => acts m \/ (waits m /\ (p = SPut \/ ~ clean r))
  | PostRun => acts m
  | _ => True
  end.
Definition hit (m : mpc) : Prop :=
  match m with CAborted | CHook _ true | RHook _ _ true _ | RAborted _ => True | _ => False end.
Definition LStop (m : mpc) (c : option nat) (x : bstate) : Prop :=
  match x with
  | Armed | Finished | Paused | Running | PostRun => ~ stopping c /\ ~ hit m
  | Configuring => ~ hit m /\ match m with CReset | CFresh => True | _ => ~ stopping c end
  | _ => True
  end.
Definition LAns (p : ipc) (a : option nat) (it : list nat) (m : mpc) (r : option (list bool)) (x : bstate) : Prop :=
  match p with
  | IGet k | IWait k _ =>
      a <> None /\
      (x = start_of k -> ~ begins m /\ (rests m r -> exists q, a = Some q /\ In q it))
  | _ => True
  end.

Record Live (s : sys) : Prop := {
  l_nf : LNf (main s) (rq s) (st s);
  l_false : LFalse (ia s) (st s) (main s);
  l_wait : LWait (main s) (rq s) (st s);
  l_paused : LPaused (ia s) (main s) (st s);
  l_live : LLive (ia s) (main s) (rq s) (st s);
  l_stop : LStop (main s) (ctx s) (st s);
  l_ans : LAns (ia s) (aq s) (items s) (main s) (rq s) (st s)
}.

Lemma live_fresh : Live fresh.
Proof. constructor; flds; unfold LNf, LFalse, LWait, LPaused, LLive, LStop, LAns; cbn; intuition discriminate. Qed.

Ltac bootl s Hl :=
  destruct s as [x c a n it r mr ps m p b];
  destruct Hl as [Lnf Lfa Lwa Lpa Lli Lst Lan]; flds.

Ltac lsolve := cbn in *; try tauto; try solve [intuition (try congruence; try discriminate; eauto)].

Lemma live_fault : forall x c a n it r mr ps p b, p <> SBegin -> (waiting p -> a <> None) -> (p = IFalse -> x <> Disabled) ->
  Live (mkSys (fault x) c a n it r mr ps MIdle p b).
Proof.
  intros x c a n it r mr ps p b S W D. assert (F := fault_cases x).
  destruct F as [-> |[-> ->]]; constructor; flds; unfold LNf, LFalse, LWait, LPaused, LLive, LStop, LAns in *.
  all: destruct p as [| |k|k|k z|k|k d|d k|d k z|k| | | | | | | | |]; try destruct k; lsolve.
Qed.

Lemma live_error_main : forall s, Live s -> ~ waits (main s) -> Live (set_main MIdle (error s)).
Proof.
  intros s Hl Nw. rewrite error_is. bootl s Hl. unfold put_rq; cbn [rq st].
  assert (S : p <> SBegin). { intros ->. destruct Lpa as (P1 & P2 & _). exact (Nw (P1 (P2 eq_refl))). }
  assert (W : waiting p -> a <> None). { clear - Lan. unfold LAns in Lan. destruct p; cbn; tauto. }
  assert (D : p = IFalse -> x <> Disabled). { intros ->. specialize (Lfa eq_refl). destruct x; congruence || contradiction. }
  destruct r; unf; now apply live_fault.
Qed.

Lemma live_error_intr : forall s, Inv s -> Live s -> Live (set_intr false IIdle (error s)).
Proof.
  intros s Hi Hl. rewrite error_is.
  destruct s as [x c a n it r mr ps m p b]. destruct Hi as [Hb Hwh Hst Hin Hc0 Hac Hnq Hit Hsp Hcx Hrq Hre Hbe Hcf Hsu Hdi Hru Hto Hcs].
  destruct Hl as [Lnf Lfa Lwa Lpa Lli Lst Lan]. flds.
  unfold put_rq; cbn [rq st]. assert (F := fault_cases x).
  assert (Z : forall r', (r <> None -> r' <> None) -> Live (mkSys (fault x) c a n it r' mr ps m IIdle b)).
  { intros r' Nn. destruct F as [-> |[-> ->]]; constructor; flds; unfold LNf, LFalse, LWait, LPaused, LLive, LStop, LAns in *; lsolve. }
  destruct r; unf; apply Z; congruence.
Qed.

Ltac dst y := try (is_var y; destruct y).
Ltac ez := cbn in *; solve [tauto | intuition (try congruence; try discriminate; eauto)].
Ltac lfield :=
  match goal with
    A1 : LNf _ _ _, A2 : LFalse _ _ _, A3 : LWait _ _ _, A4 : LPaused _ _ _, A5 : LLive _ _ _ _, A7 : LStop _ _ _, A6 : LAns _ _ _ _ _ _,
    B1 : FState _ _ _, B2 : FBegin _ _ _, B3 : FStop _ _ _ _, B4 : FConf _ _, B6 : where_ok _ _ _,
    B7 : FRq _ _, B8 : FRest _ _ _, B9 : FSput _ _ _ _ |- ?G =>
    lazymatch G with
    | LNf _ _ ?y => clear - A1 B6 B7; unfold LNf, FRq in *; dst y; ez
    | LFalse _ ?y _ => clear - A2 B6; unfold LFalse in *; dst y; ez
    | LWait _ _ ?y => clear - A3 B6; unfold LWait in *; dst y; ez
    | LPaused ?q _ ?y => clear - A4 B1 B2 B9 B6; unfold LPaused, FState, FBegin, FSput in *;
         destruct A4 as (P1 & P2 & P3 & P4); (split; [|split; [|split]]);
         [clear - P1 B6; dst y; ez
         |clear - P1 P2 B2; intros Q; try discriminate Q; try subst q; ez
         |clear - P3 B9; intros Q; try discriminate Q; try subst q; dst y; ez
         |clear - P4 B1 B2; intros P5 P6; try discriminate P5; try discriminate P6; try specialize (P4 P5); subst; try discriminate; ez]
    | LLive _ _ _ ?y => clear - A5 A7 B6; unfold LLive, LStop in *; dst y; ez
    | LStop _ _ ?y => clear - A7 B6; unfold LStop in *; dst y; ez
    | LAns ?q _ _ _ _ ?y => first [exact I | exact A6 | is_var q]; try exact I; try exact A6; clear - A6 A1 B1 B2 B3 B4 B6 B7; unfold LAns, LNf, FRq, FState, FBegin, FStop, FConf in *;
         destruct q as [| |k|k|k z|k|k d|d k|d k z|k| | | | | | | | |]; try exact I;
         (destruct A6 as [N1 N2]; split; [first [exact N1|discriminate]|]; intros E; try specialize (N2 E);
          try (is_var y; subst y); destruct k as [[]|]; try discriminate E; ez)
    end
  end.

Ltac bl s Hi Hl := boot s Hi; destruct Hl as [Lnf Lfa Lwa Lpa Lli Lst Lan]; flds.

Lemma live_main : forall ch s s', Inv s -> Live s -> mstep ch s = Some s' -> Live s'.
Proof.
  intros ch s s' Hi Hl H. unfold mstep in H.
  destruct (main s) as [|  |orig| | |h|h sp| | | | |l|h l|h l sp d|l|l|l|l| | |] eqn:M;
    destruct ch as [b0| | | |]; try discriminate H.
  all: try (destruct sp); try (destruct d); try discriminate H; try (injection H as <-);
       try solve [apply live_error_main; [exact Hl|rewrite M; cbn; tauto]].
  Ltac er Hi Hl M := apply live_error_main; [exact Hl|rewrite M; cbn; tauto].
  - bl s Hi Hl. subst m. unf. constructor; flds; try lfield.
  - bl s Hi Hl. subst m. unf. constructor; flds; try lfield.
  - (* CBegin *) destruct (allowed (st s) Configuring) eqn:A; [|er Hi Hl M].
    assert (O : (match orig with Finished => CReset | _ => CFresh end) = CReset \/
                (match orig with Finished => CReset | _ => CFresh end) = CFresh) by (destruct orig; auto).
    bl s Hi Hl. subst m. unf. destruct x; try discriminate A; destruct O as [-> | ->]; constructor; flds; try lfield.
  - (* CReset *) bl s Hi Hl. subst m. unf. constructor; flds; try lfield.
  - (* CFresh *) bl s Hi Hl. subst m. unf. constructor; flds; try lfield.
  - (* CGap *) bl s Hi Hl. subst m. unf. constructor; flds; try lfield.
  - (* CHook *) bl s Hi Hl. subst m. unf. destruct h; constructor; flds; try lfield.
  - bl s Hi Hl. subst m. unf. destruct h; constructor; flds; try lfield.
  - bl s Hi Hl. subst m. unf. constructor; flds; try lfield.
  - (* CQueue *) bl s Hi Hl. subst m. unf. constructor; flds; try lfield.
  - (* CEnd *) unfold abortable. destruct (ctx s) as [[|w]|] eqn:C.
    + destruct (allowed (st s) Armed) eqn:A; [|er Hi Hl M].
      bl s Hi Hl. subst m c. unf. destruct x; try discriminate A; constructor; flds; try lfield.
    + bl s Hi Hl. subst m c. unf. constructor; flds; try lfield.
    + bl s Hi Hl. subst m c. contradiction Hcx. reflexivity.
  - (* CAborted *) unfold put_aq. destruct (aq s) as [q|] eqn:Q; bl s Hi Hl; subst m a; unf; constructor; flds; try lfield.
  - (* RStart *) bl s Hi Hl. subst m. unf. constructor; flds; try lfield.
  - (* RBegin *) destruct (allowed (st s) Running) eqn:A; [|er Hi Hl M].
    bl s Hi Hl. subst m. unf. destruct x; try discriminate A; constructor; flds; try lfield.
  - (* RGap *) bl s Hi Hl. subst m. unf. constructor; flds; try lfield.
  - (* RHook goes on *) bl s Hi Hl. subst m. unf. destruct h; constructor; flds; try lfield.
  - bl s Hi Hl. subst m. unf. destruct h; constructor; flds; try lfield.
  - (* the shutter *) bl s Hi Hl. subst m. unf. constructor; flds; try lfield.
  - bl s Hi Hl. subst m. unf. constructor; flds; try lfield.
  - (* aborted *) bl s Hi Hl. subst m. unf. constructor; flds; try lfield.
  - bl s Hi Hl. subst m. unf. constructor; flds; try lfield.
  - (* RPost *) unfold abortable. destruct (ctx s) as [[|w]|] eqn:C.
    + destruct (allowed (st s) PostRun) eqn:A; [|er Hi Hl M].
      bl s Hi Hl. subst m c. unf. destruct x; try discriminate A; constructor; flds; try lfield.
    + bl s Hi Hl. subst m c. unf. constructor; flds; try lfield.
    + bl s Hi Hl. subst m c. contradiction Hcx. reflexivity.
  - (* REnd *) unfold abortable. destruct (ctx s) as [[|w]|] eqn:C.
    + destruct (allowed (st s) (if l then Finished else Armed)) eqn:A; [|er Hi Hl M].
      bl s Hi Hl. subst m c. unf.
      assert (X : x <> Seeking).
      { intros ->. clear - Hst Hsp Hac. unfold FState, FStop, FAct, still in *.
        destruct p; cbn in *; intuition discriminate. }
      destruct x; destruct l; try discriminate A; try (contradiction X; reflexivity); constructor; flds; try lfield.
    + bl s Hi Hl. subst m c. unf. constructor; flds; try lfield.
    + bl s Hi Hl. subst m c. contradiction Hcx. reflexivity.
  - (* RAborted *) unfold put_aq. destruct (aq s) as [q|] eqn:Q; [|er Hi Hl M].
    cbn [set_items rq]. destruct (rq s) as [r0|] eqn:R.
    + bl s Hi Hl. subst m a r. unf. constructor; flds; try lfield.
    + rewrite error_is. bl s Hi Hl. subst m a r. unf. apply live_fault; [|discriminate|].
      2: { intros ->. specialize (Lfa eq_refl). destruct x; congruence || contradiction. }
      intros ->. destruct Lpa as (P1 & P2 & _). exact (P1 (P2 eq_refl)).
  - (* RWait *) destruct (rq s) as [[|[] r0]|] eqn:R; try discriminate H; injection H as <-.
    + bl s Hi Hl. subst m r. unf. constructor; flds; try lfield.
    + bl s Hi Hl. subst m r. unf.
      assert (X : match x with Armed | Finished | Running | PostRun | Paused | Seeking | Aborting => False | _ => True end).
      { clear - Lnf. unfold LNf in Lnf. destruct x; try exact I; cbn in Lnf; try apply (Lnf I); try apply Lnf; now left. }
      destruct x; try contradiction X; clear X; constructor; flds; try lfield.
  - (* XBegin *) destruct (allowed (st s) Resetting) eqn:A; [|er Hi Hl M].
    bl s Hi Hl. subst m. unf. destruct x; try discriminate A; constructor; flds; try lfield.
  - (* XHook *) bl s Hi Hl. subst m. unf. constructor; flds; try lfield.
  - (* XEnd *) destruct (allowed (st s) Ready) eqn:A; [|er Hi Hl M].
    bl s Hi Hl. subst m. unf. destruct x; try discriminate A; constructor; flds; try lfield.
Qed.

Lemma nf_app : forall l, ~ In false l -> ~ In false (l ++ [true]).
Proof. intros l H I. apply in_app_or in I. destruct I as [I|[I|[]]]; [auto|discriminate]. Qed.

Lemma live_put_false : forall s, Live s -> match st s with Aborted | Fault | Resetting | Ready | Disabling => True | _ => False end ->
  Live (put_rq false s).
Proof.
  intros s Hl X. bootl s Hl. unfold put_rq; cbn [rq]. destruct r as [r|]; [|constructor; assumption]. unf.
  constructor; flds; unfold LNf, LFalse, LWait, LPaused, LLive, LStop in *.
  1-6: clear - X Lnf Lfa Lwa Lpa Lli Lst; destruct x; try contradiction; lsolve.
  clear - Lan X. unfold LAns in *. destruct p; try exact I; (destruct Lan as [A B]; split; [exact A|]; intros E; subst x; destruct k; contradiction).
Qed.

Lemma live_intr : forall ch s s', Inv s -> Live s -> prompt (Intr false ch) s = true ->
  istep false ch s = Some s' -> Live s'.
Proof.
  intros ch s s' Hi Hl Po H. unfold prompt in Po. apply andb_true_iff in Po as [Po Pr]. unfold istep in H. cbn [intr] in H. cbn [polite] in Po.
  destruct (ia s) as [| |k|k|k q|k|k d|sk k|sk k z|k| | | | | | | | |] eqn:M;
    destruct ch as [b0| | | |]; try discriminate H; try discriminate Po.
  all: try (destruct d); try (destruct z); try (destruct sk); try discriminate H;
       try solve [injection H as <-; apply live_error_intr; assumption].
  - (* PRead *) injection H as <-. bl s Hi Hl. subst p. unf. destruct x; try destruct b0; constructor; flds; try lfield.
  - (* IBegin *) injection H as <-. cbn [new_aq st].
    destruct (allowed (st s) (start_of k)) eqn:A.
    2: { bl s Hi Hl. subst p. rewrite error_is. unfold put_rq; cbn [rq new_aq].
         assert (F := fault_cases x). destruct r; unf; destruct F as [-> |[-> ->]]; constructor; flds;
         unfold LNf, LFalse, LWait, LPaused, LLive, LStop, LAns in *; lsolve. }
    bl s Hi Hl. subst p. unf. rewrite Hb. cbn [stop_intr].
    assert (W : forall m, waits (stop_main m) <-> waits m) by (intros []; cbn; tauto).
    assert (G : forall m, goes (stop_main m) <-> goes m) by (intros []; cbn; tauto).
    destruct (resting x) eqn:R; constructor; flds.
    + unfold LNf, LWait in *. clear - Lnf A R Lwa Hwh. destruct k, x; try discriminate A; try discriminate R; cbn in *; try tauto.
      destruct m; cbn in *; tauto.
    + red. discriminate.
    + clear - Lwa W. unfold LWait in *. rewrite W. intros Q. destruct (Lwa Q). split; [assumption|]. destruct k; exact I.
    + unfold LPaused in *. destruct Lpa as (P1 & _). repeat split; try (destruct k; discriminate).
      cbn [busy]. intros E _. injection E as ->. rewrite G. cbn in Pr. destruct x; try discriminate A; try discriminate R; try discriminate Pr.
      specialize (P1 eq_refl). destruct m; cbn in *; tauto.
    + red. destruct k; exact I.
    + red. destruct k; exact I.
    + exact I.
    + unfold LNf, LLive in *. clear - Lnf A R Lli Hwh. destruct k, x; try discriminate A; try discriminate R; cbn in *; try tauto.
      destruct m; cbn in *; tauto.
    + red. discriminate.
    + clear - Lwa W. unfold LWait in *. rewrite W. intros Q. destruct (Lwa Q). split; [assumption|]. destruct k; exact I.
    + unfold LPaused in *. destruct Lpa as (P1 & _). repeat split; try (destruct k; discriminate).
      cbn [busy]. intros E _. injection E as ->. rewrite G. clear - Lli A R. destruct x; try discriminate A; try discriminate R;
      destruct m; cbn in *; tauto.
    + red. destruct k; exact I.
    + red. destruct k; exact I.
    + red. split; [discriminate|]. intros _. rewrite stop_begins. split.
      * clear - Lli A R Hst. unfold FState in Hst. cbn in Hst. destruct k, x; try discriminate A; try discriminate R; destruct m; cbn in *; try tauto; intuition discriminate.
      * intros Q. exfalso. clear - Q Lli A R Hst. unfold FState in Hst. cbn in Hst.
        destruct k, x; try discriminate A; try discriminate R; destruct m; cbn in *; intuition discriminate.
  - (* IGet *) destruct (aq s) as [q|] eqn:Q; [|discriminate H]. injection H as <-.
    bl s Hi Hl. subst p a. unf. constructor; flds; try lfield.
  - (* IWait *) destruct (take q (items s)) as [it'|] eqn:T; [|discriminate H]. injection H as <-.
    bl s Hi Hl. subst p. unf. constructor; flds; try lfield.
  - (* IIgnore *) injection H as <-. destruct (ctx s) as [c0|] eqn:C; bl s Hi Hl; subst p c; unf; constructor; flds; try lfield.
    clear - Lst. unfold LStop in *. destruct x; destruct m; lsolve.
  - (* IHook *) injection H as <-. bl s Hi Hl. subst p. unf. destruct k; constructor; flds; try lfield.
  - (* put *) injection H as <-. bl s Hi Hl. subst p. unf. constructor; flds; try lfield.
  - (* IGap *) injection H as <-. bl s Hi Hl. subst p. unf. constructor; flds; try lfield.
  - injection H as <-. bl s Hi Hl. subst p. unf. constructor; flds; try lfield.
  - bl s Hi Hl. subst p. destruct Hin as [_ []].
  - bl s Hi Hl. subst p. destruct Hin as [_ []].
  - injection H as <-. bl s Hi Hl. subst p. unf. constructor; flds; try lfield.
  - injection H as <-. bl s Hi Hl. subst p. unf. constructor; flds; try lfield.
  - bl s Hi Hl. subst p. destruct Hin as [_ []].
  - bl s Hi Hl. subst p. destruct Hin as [_ []].
  - (* IEnd *) injection H as <-. unfold abortable.
    assert (G : forall s, Inv s -> Live s -> ia s = IEnd k -> allowed (st s) (end_of k) = true ->
                Live (match k with KAbort => set_intr false IFalse | _ => set_intr false IIdle end
                       (set_st (end_of k) s))).
    { clear. intros s Hi Hl M A. bl s Hi Hl. subst p.
      assert (X : x = start_of k).
      { destruct Hst as [E|[E _]]; [exact E|]. subst x. destruct Hin as [F _].
        destruct k as [[]|]; cbn in *; try contradiction; discriminate. }
      subst x. destruct Hin as [F _].
      assert (N : ~ hit m). { destruct Hac as [Y _]. clear - Y. destruct m; cbn in *; tauto. }
      assert (C : ~ stopping c) by (apply Hc0; exact I).
      destruct k as [e|].
      - unf. destruct Hac as (Y & R & Z). destruct e; cbn in F; try contradiction F; cbn [end_of start_of] in *; constructor; flds; try lfield.
        all: try solve [red; auto].
        all: clear - Lpa Y; destruct Lpa as (P1 & P2 & P3 & P4); red; repeat split; try discriminate;
          intros _; specialize (P4 eq_refl eq_refl); destruct m; cbn in *; tauto.
      - unf. destruct Hac as (Y & _). cbn [end_of start_of] in *. constructor; flds; try lfield. }
    destruct (ctx s) as [[|w]|] eqn:C.
    + destruct (allowed (st s) (end_of k)) eqn:A; [|apply live_error_intr; assumption]. now apply G.
    + exfalso. boot s Hi. subst p c. apply (Hc0 I I).
    + destruct (allowed (st s) (end_of k)) eqn:A; [|apply live_error_intr; assumption]. now apply G.
  - (* IAborted *) bl s Hi Hl. subst p. destruct Hin as [_ []].
  - (* IFalse *) injection H as <-.
    assert (Hl' : Live (put_rq false s)).
    { apply live_put_false; [exact Hl|]. destruct Hl as [_ F _ _ _ _ _]. specialize (F M). destruct (st s); tauto. }
    assert (E : ia (put_rq false s) = IFalse) by (unfold put_rq; destruct (rq s); exact M).
    apply put_false_inv in Hi. set (t := put_rq false s) in *. clearbody t. bl t Hi Hl'. subst p. unf. constructor; flds; try lfield.
  - (* SBegin *) injection H as <-. bl s Hi Hl. subst p. unf.
    assert (X : x = Paused) by (apply Lpa; reflexivity). subst x. cbn [allowed].
    assert (Wm : waits m) by (destruct Lpa as (P1 & _); apply P1; reflexivity).
    constructor; flds; try lfield; try solve [unfold LNf, LWait, LStop, LPaused, LLive in *; cbn; intuition discriminate].
  - (* SPut *) injection H as <-. bl s Hi Hl. subst p. unfold put_rq; cbn [rq].
    destruct (Hsu eq_refl) as (Y & R & X).
    destruct r as [r|]; unf.
    + destruct X; subst x; constructor; flds; try lfield.
      * unfold LNf in *. now apply nf_app.
      * red. destruct Lpa as (_ & _ & P & _). right. split; [auto|]. right. cbn. intros Q. apply Q, in_or_app. right. now left.
    + destruct X; subst x; constructor; flds; try lfield.
      destruct Lpa as (_ & _ & P & _). exfalso. apply (Lwa (P eq_refl eq_refl)). reflexivity.
  - (* DBegin *) injection H as <-. destruct (allowed (st s) Disabling) eqn:A; [|apply live_error_intr; assumption].
    bl s Hi Hl. subst p. unf. destruct x; try discriminate A; constructor; flds; try lfield.
  - (* DStop *) injection H as <-. bl s Hi Hl. subst p. unfold stop_all; unf.
    assert (X := Hdi I). assert (W : forall m, waits (stop_main m) <-> waits m) by (intros []; cbn; tauto).
    destruct X as [-> |[-> B]]; constructor; flds; unfold LNf, LFalse, LWait, LPaused, LLive, LStop, LAns in *; rewrite ?W; cbn; intuition discriminate.
  - injection H as <-. assert (Hl' : Live (put_rq false s)).
    { apply live_put_false; [exact Hl|]. destruct Hi. rewrite M in i_dis. destruct (i_dis I) as [E|[E _]]; rewrite E; exact I. }
    assert (E : ia (put_rq false s) = DFalse) by (unfold put_rq; destruct (rq s); exact M).
    apply put_false_inv in Hi. set (t := put_rq false s) in *. clearbody t. bl t Hi Hl'. subst p. unf. constructor; flds; try lfield.
  - injection H as <-. bl s Hi Hl. subst p. unf. constructor; flds; try lfield.
  - injection H as <-. destruct (allowed (st s) Disabled) eqn:A; [|apply live_error_intr; assumption].
    bl s Hi Hl. subst p. unf. destruct x; try discriminate A; constructor; flds; try lfield.
Qed.

Lemma live_step : forall e s s', Inv s -> Live s -> prompt e s = true -> step e s = Some s' -> Live s'.
Proof.
  intros e s s' Hi Hl Po H. assert (Po' := Po). unfold prompt in Po'. apply andb_true_iff in Po' as [Po' _].
  destruct e as [| | |i|i|i|i|ch|i ch]; cbn [step] in H.
  1-3: cbn in Po'; unfold intr_idle, intr in Po'; destruct (writeable _ _ && main_idle s) eqn:W in H; [|discriminate H]; injection H as <-;
    apply andb_true_iff in W as [W I0]; unfold main_idle in I0; bl s Hi Hl; destruct m; try discriminate I0; destruct p; try discriminate Po'; unf;
    destruct x; try discriminate W; constructor; flds; unfold LNf, LFalse, LWait, LPaused, LLive, LStop, LAns in *; lsolve.
  1-4: destruct i; [discriminate Po'|]; destruct (writeable _ _ && intr_idle false s) eqn:W in H; [|discriminate H]; injection H as <-;
    apply andb_true_iff in W as [W I0]; unfold intr_idle, intr in I0; bl s Hi Hl; destruct p; try discriminate I0; unf;
    constructor; flds; try lfield.
  1: destruct x; try discriminate W; lfield.
  - exact (live_main ch s s' Hi Hl H).
  - destruct i; [|now apply (live_intr ch s s')].
    exfalso. destruct Hi as [Hb _ _ _ _ _ _ _ _ _ _ _ _ _ _ _ _ _ _]. unfold istep in H. cbn [intr] in H. rewrite Hb in H. destruct ch; discriminate H.
Qed.

Lemma live_exec : forall es s s', Inv s -> Live s -> exec prompt s es = Some s' -> Inv s' /\ Live s'.
Proof.
  induction es as [|e es IH]; cbn; intros s s' Hi Hl E; [injection E as <-; auto|].
  destruct (prompt e s) eqn:P; [|discriminate]. destruct (step e s) as [s1|] eqn:T; [|discriminate].
  apply (IH s1); [|now apply (live_step e s)|exact E].
  unfold prompt in P. apply andb_true_iff in P as [P _]. now apply (step_inv e s).
Qed.

(** ** How long a wait lasts *)

Definition steps_left (m : mpc) (r : option (list bool)) : nat :=
  match m with
  | CReset => 13 | CFresh => 12
  | CGap PreConfigure => 11 | CHook PreConfigure _ => 10
  | CGap ReportForConfigure => 9 | CHook ReportForConfigure _ => 8
  | CGap Configure => 7 | CHook Configure _ => 6
  | CGap PostConfigure => 5 | CHook PostConfigure _ => 4
  | CQueue => 3 | CEnd => 2 | CAborted => 1
  | RGap PreRun _ => 16 | RHook PreRun _ _ false => 15 | RHook PreRun _ _ true => 14
  | RGap RunIt _ => 13 | RHook RunIt _ _ false => 12 | RHook RunIt _ _ true => 11
  | RPost _ => 10
  | RGap ReportForRun _ => 9 | RHook ReportForRun _ _ false => 8 | RHook ReportForRun _ _ true => 7
  | RGap PostRunArmed _ | RGap PostRunReady _ => 6
  | RHook PostRunArmed _ _ false | RHook PostRunReady _ _ false => 5
  | RHook PostRunArmed _ _ true | RHook PostRunReady _ _ true => 4
  | REnd _ => 3 | RAborted _ => 2
  | RWait _ => match r with Some (true :: _) => 17 | _ => 0 end
  | _ => 0
  end.

Lemma error_st : forall s y, (y = Seeking \/ y = Aborting) -> st (error s) <> y.
Proof.
  intros s y Y. rewrite error_is. cbn. destruct (fault_cases (st s)) as [-> |[-> _]]; destruct Y; subst; discriminate.
Qed.

Lemma start_cases : forall k, start_of k = Seeking \/ start_of k = Aborting.
Proof. destruct k; auto. Qed.

Lemma mstep_intr : forall c s s', mstep c s = Some s' -> ia s' = ia s.
Proof.
  assert (E : forall s, ia (error s) = ia s).
  { intros s. rewrite error_is. cbn. unfold put_rq. destruct (rq s); reflexivity. }
  intros c s s' H. unfold mstep in H.
  destruct (main s) as [|  |orig| | |h|h sp| | | | |l|h l|h l sp d|l|l|l|l| | |]; destruct c; try discriminate H;
    try (destruct sp); try (destruct d); try discriminate H; try (injection H as <-); try reflexivity; try solve [cbn; apply E].
  all: unfold abortable, put_aq.
  - destruct (allowed _ _); cbn; auto.
  - destruct (ctx s) as [[|]|]; cbn; auto; destruct (allowed _ _); cbn; auto.
  - destruct (aq s); reflexivity.
  - destruct (allowed _ _); cbn; auto.
  - destruct h; reflexivity.
  - destruct h; reflexivity.
  - destruct (ctx s) as [[|]|]; cbn; auto; destruct (allowed _ _); cbn; auto.
  - destruct (ctx s) as [[|]|]; cbn; auto; destruct (allowed _ _); cbn; auto.
  - destruct (aq s); cbn; auto. destruct (rq s); cbn; [reflexivity|]. now rewrite E.
  - destruct (rq s) as [[|[]]|]; try discriminate H; injection H as <-; reflexivity.
  - destruct (allowed _ _); cbn; auto.
  - destruct (allowed _ _); cbn; auto.
Qed.

(** The thread that was stopped gets nearer to its end at each of its steps. *)
Lemma nearer : forall c s s' k q, Inv s -> Live s -> ia s = IWait k q -> mstep c s = Some s' ->
  st s' = start_of k -> st s = start_of k /\ steps_left (main s') (rq s') < steps_left (main s) (rq s).
Proof.
  intros c s s' k q Hi Hl P H X. assert (K := start_cases k).
  assert (W : waiting (ia s)) by (rewrite P; exact I).
  unfold mstep in H.
  destruct (main s) as [|  |orig| | |h|h sp| | | | |l|h l|h l sp d|l|l|l|l| | |] eqn:M; destruct c; try discriminate H;
    try (destruct sp); try (destruct d); try discriminate H; try (injection H as <-);
    try solve [exfalso; revert X; cbn; rewrite error_is; cbn; destruct (fault_cases (st s)) as [-> |[-> _]]; destruct K as [-> | ->]; discriminate].
  Ltac noerr X s K := exfalso; revert X; cbn; rewrite ?error_is; cbn; destruct (fault_cases (st s)) as [-> |[-> _]]; destruct K as [-> | ->]; discriminate.
  (* not begun *)
  1-2: exfalso; cbn in X; destruct Hl as [_ _ _ _ _ _ Lan]; rewrite P, M in Lan; destruct Lan as [_ B]; apply (proj1 (B X)); exact I.
  - destruct (allowed _ _) eqn:A; cbn in X; [destruct K; congruence|noerr X s K].
  - cbn in *. split; [exact X|auto].
  - cbn in *. split; [exact X|auto].
  - cbn in *. split; [exact X|]. destruct h; lia.
  - cbn in *. split; [exact X|]. destruct h; cbn; lia.
  - cbn in *. split; [exact X|]. destruct h; cbn; lia.
  - cbn in *. split; [exact X|]. destruct h; cbn; lia.
  - cbn in *. split; [exact X|]. lia.
  - (* CEnd *) unfold abortable in *. destruct (ctx s) as [[|w]|] eqn:C; cbn in X |- *.
    1,3: destruct (allowed (st s) Armed); cbn in X; [destruct K; congruence|noerr X s K].
    split; [exact X|]. lia.
  - (* CAborted *) unfold put_aq in *. destruct (aq s); cbn in *; (split; [exact X|lia]).
  - exfalso. cbn in X. destruct Hl as [_ _ _ _ _ _ Lan]. rewrite P, M in Lan. destruct Lan as [_ B]. apply (proj1 (B X)). exact I.
  - destruct (allowed _ _) eqn:A; cbn in X; [destruct K; congruence|noerr X s K].
  - cbn in *. split; [exact X|]. destruct h; cbn; lia.
  - destruct h; cbn in *; (split; [exact X|lia]).
  - destruct h; cbn in *; (split; [exact X|lia]).
  - destruct h; cbn in *; (split; [exact X|lia]).
  - destruct h; cbn in *; (split; [exact X|lia]).
  - destruct h; cbn in *; (split; [exact X|lia]).
  - destruct h; cbn in *; (split; [exact X|lia]).
  - (* RPost *) unfold abortable in *. destruct (ctx s) as [[|w]|] eqn:C; cbn in X |- *.
    1,3: destruct (allowed (st s) PostRun); cbn in X; [destruct K; congruence|noerr X s K].
    split; [exact X|]. lia.
  - (* REnd *) unfold abortable in *. destruct (ctx s) as [[|w]|] eqn:C; cbn in X |- *.
    1,3: exfalso; destruct Hi as [_ _ _ _ _ _ _ _ Hsp _ _ _ _ _ _ _ _ _ _]; specialize (Hsp W); rewrite M, C in Hsp; exact Hsp.
    split; [exact X|]. lia.
  - (* RAborted *) unfold put_aq in *. destruct (aq s) as [a0|]; [|noerr X s K].
    cbn [set_items rq] in *. destruct (rq s) as [r0|] eqn:R; [|noerr X s K].
    cbn in *. split; [exact X|]. destruct Hi as [_ _ _ _ _ _ _ _ _ _ Hrq _ _ _ _ _ _ _ _]. rewrite M, R in Hrq. cbn in Hrq.
    rewrite R. destruct r0 as [|[] r0]; [lia|exfalso; apply Hrq; now left|lia].
  - (* RWait *) destruct (rq s) as [[|[] r0]|] eqn:R; try discriminate H; injection H as <-; cbn in *; (split; [exact X|]); [lia|].
    exfalso. destruct Hl as [Lnf _ _ _ _ _ _]. rewrite M, R, X in Lnf. destruct K as [E|E]; rewrite E in Lnf; cbn in Lnf; [|specialize (Lnf I)]; apply Lnf; now left.
  - exfalso. cbn in X. destruct (allowed _ _); cbn in X; [destruct K; congruence|noerr X s K].
  - exfalso. cbn in X. destruct Hi as [_ Hwh _ _ _ _ _ _ _ _ _ _ _ _ _ _ _ _ _]. rewrite M, X in Hwh. destruct K as [E|E]; rewrite E in Hwh; exact Hwh.
  - exfalso. cbn in X. destruct (allowed _ _); cbn in X; [destruct K; congruence|noerr X s K].
Qed.

(** A pause or an abort that waits is answered: whatever happens, the thread that
    it stopped makes at most 17 steps before it cannot go on, and then the wait
    is over.  (Unless it ends in Fault: [Thr_Props.C93_early_abort_refuted].) *)
Theorem C93_answered : forall es s k q cs s', exec prompt fresh es = Some s -> ia s = IWait k q ->
  exec prompt s (map Main cs) = Some s' -> st s' = start_of k ->
  length cs <= 17 /\
  ((forall c, step (Main c) s' = None) ->
   exists s'', step (Intr false (Next true)) s' = Some s'' /\ ia s'' = IIgnore k).
Proof.
  intros es s k q cs s' E P F X. destruct (live_exec es fresh s inv_fresh live_fresh E) as [Hi Hl]. clear E es.
  assert (N : length cs + steps_left (main s') (rq s') <= steps_left (main s) (rq s) /\ ia s' = IWait k q /\ st s = start_of k).
  { revert s P F Hi Hl. induction cs as [|c cs IH]; cbn; intros s P F Hi Hl; [injection F as <-; auto|].
    destruct (prompt (Main c) s) eqn:Pr; [|discriminate]. destruct (mstep c s) as [s1|] eqn:T; [|discriminate].
    assert (I1 : Inv s1) by exact (mstep_inv c s s1 Hi T). assert (L1 : Live s1) by exact (live_main c s s1 Hi Hl T).
    assert (P1 : ia s1 = IWait k q) by (rewrite (mstep_intr c s s1 T); exact P).
    destruct (IH s1 P1 F I1 L1) as (A & B & C). destruct (nearer c s s1 k q Hi Hl P T C) as [D G]. repeat split; auto. lia. }
  destruct N as (N1 & N2 & N3).
  destruct (live_exec (map Main cs) s s' Hi Hl F) as [Hi' Hl']. split.
  - assert (steps_left (main s) (rq s) <= 17); [|lia].
    clear. destruct (main s); cbn; try lia; try (destruct h; try destruct did; lia). destruct (rq s) as [[|[]]|]; lia.
  - intros St. assert (R : rests (main s') (rq s')).
    { clear - St Hl' Hi' X N2. cbn [step] in St. unfold mstep in St.
      destruct (main s') as [|  |orig| | |h|h sp| | | | |l|h l|h l sp d|l|l|l|l| | |] eqn:M; cbn; try exact I;
        try (specialize (St (Next true)); cbn in St; discriminate St).
      - destruct sp; specialize (St (Next true)); discriminate St.
      - specialize (St (if d then Next true else Put)). destruct d, sp; discriminate St.
      - specialize (St (Next true)). cbn in St. destruct (rq s') as [[|[] r0]|]; cbn; try discriminate St; tauto. }
    destruct Hl' as [_ _ _ _ _ _ Lan]. rewrite N2 in Lan. destruct Lan as [_ Lan]. destruct (Lan X) as [_ A].
    destruct (A R) as (q' & A1 & A2). destruct Hi' as [_ _ _ _ _ _ _ Hit _ _ _ _ _ _ _ _ _ _ _]. rewrite N2 in Hit.
    destruct Hit as [A3 _]. assert (q' = q) by congruence. subst q'.
    cbn [step]. unfold istep. cbn [intr]. rewrite N2.
    assert (T : exists r, take q (items s') = Some r).
    { clear - A2. induction (items s') as [|y l IH]; [destruct A2|]. cbn. destruct (Nat.eqb y q) eqn:E; [eauto|].
      destruct A2 as [->|A2]; [rewrite Nat.eqb_refl in E; discriminate|]. destruct (IH A2) as [r ->]. eauto. }
    destruct T as [r ->]. eexists. split; [reflexivity|]. reflexivity.
Qed.
Print Assumptions C93_answered.

(** ** Examples *)

Notation M := (Main (Next false)).
Notation A := (Intr false (Next false)).
Definition configured : list event := [CallConfigure; M; M; M; M; M; M; M; M; M; M; M; M; M].
Definition under_way : list event := [CallRun; M; M; M; Main Put; M; M].

(** A pause and an abort of a run, and an abort of a configure, are answered. *)
Example C93_answered_ex :
  (exists s s', exec prompt fresh (configured ++ under_way ++ [CallPause false; A; A; A]) = Some s /\
     ia s = IWait (KPause Paused) 0 /\ exec prompt s (map Main [Aborts; Next false]) = Some s' /\ st s' = Seeking /\
     main s' = RWait true) /\
  (exists s s', exec prompt fresh (configured ++ under_way ++ [CallAbort false; A; A]) = Some s /\
     ia s = IWait KAbort 0 /\ exec prompt s (map Main (repeat (Next false) 3)) = Some s' /\ st s' = Aborting /\
     main s' = RWait true) /\
  (exists s s', exec prompt fresh [CallConfigure; M; M; M; M; CallAbort false; A; A] = Some s /\
     ia s = IWait KAbort 0 /\ exec prompt s (map Main [Aborts; Next false]) = Some s' /\ st s' = Aborting /\
     main s' = MIdle).
Proof.
  split; [|split]; eexists; eexists; (split; [vm_compute; reflexivity|]); (split; [reflexivity|]);
    (split; [vm_compute; reflexivity|]); split; reflexivity.
Qed.

(** A pause that looks at the state just before the run ends leaves the block
    Paused with no run; resume() makes it Running with nothing running, and an
    abort then waits for nobody. *)
Definition crossing : list event :=
  configured ++ under_way ++
  [CallPause false; A; M; M; M; Main Put; M; M; A; A; Intr false Put; A; A; A; A; A; A].
Theorem C93_alone_refuted :
  (exists s, exec polite fresh crossing = Some s /\ st s = Paused /\ main s = MIdle /\ ia s = IIdle) /\
  (exists s, exec polite fresh (crossing ++ [CallResume false; A; A]) = Some s /\
     st s = Running /\ running s = [] /\ main s = MIdle /\ ia s = IIdle /\
     writeable CallRun (st s) = false /\ writeable CallReset (st s) = false) /\
  (exists s q, exec polite fresh (crossing ++ [CallResume false; A; A; CallAbort false; A; A]) = Some s /\
     ia s = IWait KAbort q /\ st s = Aborting /\ (forall c, step (Main c) s = None) /\
     forall b, step (Intr false (Next b)) s = None).
Proof.
  split; [|split].
  - eexists. split; [vm_compute; reflexivity|]. repeat split.
  - eexists. split; [vm_compute; reflexivity|]. repeat split.
  - eexists. eexists. split; [vm_compute; reflexivity|]. repeat split.
Qed.
Print Assumptions C93_alone_refuted.
