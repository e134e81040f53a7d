(* C12: hooks. *)
From Coq Require Import Bool Arith Lia List.
From Verif Require Import Ctx_Model Ctx_Proofs Hook_Model Hook_Spec Hook_Proofs.
Import ListNotations.

(* Starting: exactly the hooks whose parts have a function for them are run, in order *)
Theorem C12_started hs : (forall h, In h hs -> ~ demands_more h) -> start_hooks hs = (filter wanted hs, false).
Proof.
  induction hs as [|h r IH]; intros H; [reflexivity|]. cbn [start_hooks filter]. unfold on_hook, wanted at 1.
  rewrite (IH (fun x Hx => H x (or_intror Hx))).
  destruct (nget (h_class h) (h_hooked h)) as [[f args]|] eqn:E; [|reflexivity].
  destruct (forallb (fun a => nin a (h_supplied h)) args) eqn:Ef; [reflexivity|]. exfalso.
  apply (H h (or_introl eq_refl)). exists f, args.
  assert (G : exists a, In a args /\ nin a (h_supplied h) = false).
  { clear E. induction args as [|x l IHl]; [discriminate|]. cbn [forallb] in Ef. destruct (nin x (h_supplied h)) eqn:Ex.
    - destruct (IHl Ef) as (a & A & B). exists a. split; [now right|exact B].
    - exists x. split; [now left|exact Ex]. }
  destruct G as (a & A & B). exists a. split; [exact E|]. split; [exact A|]. rewrite <- nin_In. congruence.
Qed.
Print Assumptions C12_started.
(* One demands what is not supplied: the caller is told, but the ones before it go on running,
   waited for by nobody *)
Theorem C12_bad_start before h after : (forall x, In x before -> ~ demands_more x) -> demands_more h ->
  start_hooks (before ++ h :: after) = (filter wanted before, true).
Proof.
  intros Hb Hh. induction before as [|x r IH]; cbn [app start_hooks filter].
  - unfold on_hook. destruct Hh as (f & args & a & E & Ha & Hn). rewrite E.
    destruct (forallb (fun a => nin a (h_supplied h)) args) eqn:Ef; [|reflexivity]. exfalso. apply Hn, nin_In.
    rewrite forallb_forall in Ef. auto.
  - rewrite (IH (fun y Hy => Hb y (or_intror Hy))). pose proof (C12_started [x]) as G.
    assert (Hx : forall y, In y [x] -> ~ demands_more y) by (intros y [<-|[]]; apply Hb; now left). specialize (G Hx).
    cbn [start_hooks filter] in G. destruct (on_hook x) as [[f|]|]; destruct (wanted x); try discriminate; reflexivity.
Qed.
Print Assumptions C12_bad_start.
(* A part runs the function registered last for a hook *)
Theorem C12_registered regs cls : nget cls (fold_left (fun d r => register (fst (fst r)) (snd (fst r)) (snd r) d) regs []) =
  fold_left (fun f r => if nin cls (fst (fst r)) then Some (snd (fst r), snd r) else f) regs None.
Proof.
  assert (G : forall hks f a d, nget cls (register hks f a d) = if nin cls hks then Some (f, a) else nget cls d).
  { intros hks f a. unfold register. induction hks as [|x l IH]; intros d; cbn [fold_left nin existsb]; [reflexivity|].
    rewrite IH. change (existsb (Nat.eqb cls) l) with (nin cls l). destruct (Nat.eqb_spec cls x) as [->|N]; cbn [orb].
    - rewrite nget_nset_same. now destruct (nin x l).
    - rewrite nget_nset_other by exact N. reflexivity. }
  rewrite <- (eq_refl : nget cls (@nil (nat * (nat * list nat))) = None). generalize (@nil (nat * (nat * list nat))).
  induction regs as [|r l IH]; intros d; cbn [fold_left]; [reflexivity|]. rewrite IH, G. reflexivity.
Qed.
Print Assumptions C12_registered.

Section Waiting.
Context (sp : list hook) (Hid : NoDup (map h_id sp)) (Hnm : NoDup (map h_name sp)).

Lemma first_error_app t h e q : (forall x, In x t -> fine true (snd x)) -> is_exn e = true ->
  first_error ((t ++ [(h, e)]) ++ q) e.
Proof.
  intros Ht He. exists t, h, q. split; [now rewrite <- app_assoc|]. split.
  - intros x Hx. now apply (Ht x Hx).
  - intros v ->. discriminate.
Qed.

(* The caller gets what every hook returned, by the name of its part; all have ended, none with
   an error, none was told to stop *)
Theorem C12_returns ops d : let w := fst (vrun sp true (v_init sp) ops) in let ev := snd (vrun sp true (v_init sp) ops) in
  v_place w = Done (Returned d) ->
  d = map (fun h => (h_name h, nget (h_id h) (finished_of ev))) sp /\
  (forall h, In h sp -> exists v, In (h_id h, Value v) (finished_of ev)) /\
  (forall h, In h sp -> exited w (h_id h) = true) /\ stopped_of ev = [].
Proof.
  intros w ev Hp. pose proof (vinv_run sp true Hid Hnm ops) as I. fold w ev in I.
  destruct I as [It Iw Ii Io (t & HF & Hl & Hln & HI)]. rewrite Hp in HI. inversion HI as [| | |t0 Ht Hle Hs| |]; subst.
  assert (Hall : forall h, In h sp -> exists r, In (h_id h, r) t).
  { intros h Hh. assert (Hin : In (h_id h) (map fst t)).
    { destruct (in_dec Nat.eq_dec (h_id h) (map fst t)) as [A|A]; [exact A|]. exfalso.
      assert (B : In (h_id h) (v_left w)) by (apply Hl; split; [now apply in_map|exact A]). rewrite Hle in B. destruct B. }
    apply in_map_iff in Hin as ([k r] & E & Hk). cbn [fst] in E. subst k. eauto. }
  assert (Hq : forall h, In h sp -> nget (h_id h) (finished_of ev) = nget (h_id h) t).
  { intros h Hh. rewrite HF, nget_app. destruct (Hall h Hh) as (r & Hr).
    destruct (nget_key (h_id h) t) as (r' & ->); [|reflexivity]. change (h_id h) with (fst (h_id h, r)). now apply in_map. }
  split; [|split; [|split]].
  - unfold dict_of. apply map_ext_in. intros h Hh. now rewrite Hq.
  - intros h Hh. destruct (Hall h Hh) as (r & Hr). destruct (Ht _ Hr) as [Hf _]. destruct (Hf eq_refl) as (v & E). cbn [snd] in E. subst r.
    exists v. rewrite HF. apply in_or_app. now left.
  - intros h Hh. destruct (Hall h Hh) as (r & Hr). now destruct (Ht _ Hr).
  - assumption.
Qed.

(* ... or the error of the hook that was first to end with one.  If that is not an abort every
   hook was told to stop, once; if it is, none was.  All have ended *)
Theorem C12_raises ops e : let w := fst (vrun sp true (v_init sp) ops) in let ev := snd (vrun sp true (v_init sp) ops) in
  v_place w = Done (Raised e) ->
  first_error (finished_of ev) e /\ (forall h, In h sp -> exited w (h_id h) = true) /\
  (e = Abort -> stopped_of ev = []) /\ (e <> Abort -> stopped_of ev = map h_id sp).
Proof.
  intros w ev Hp. pose proof (vinv_run sp true Hid Hnm ops) as I. fold w ev in I.
  destruct I as [It Iw Ii Io (t & HF & Hl & Hln & HI)]. rewrite Hp in HI. inversion HI as [| | | |t0 h0 e0 Hck Ht He Hex Hs|]; subst.
  split; [rewrite HF; now apply first_error_app|]. split; [intros h Hh; apply Hex; now apply in_map|].
  rewrite Hs. unfold stops. split; intros H; [now subst|]. destruct e; [discriminate|congruence|reflexivity].
Qed.

(* Nobody is told to stop before an error has been looked at, and then every hook still running
   is told in the same step *)
Theorem C12_stops ops o h : let w := fst (vrun sp true (v_init sp) ops) in let ev := snd (vrun sp true (v_init sp) ops) in
  In (Stopped h) (snd (vstep sp true w o)) ->
  stopped_of ev = [] /\ stopped_of (snd (vstep sp true w o)) = map h_id sp /\
  exists e, first_error (finished_of ev) e /\ e <> Abort.
Proof.
  intros w ev Hin. pose proof (vinv_run sp true Hid Hnm ops) as I. fold w ev in I.
  destruct I as [It Iw Ii Io (t & HF & Hl & Hln & HI)]. destruct o as [x r|x| |]; cbn [vstep] in Hin |- *.
  - destruct (nget x (v_threads w)) as [[| |]|]; cbn in Hin; intuition discriminate.
  - destruct (nget x (v_threads w)) as [[| |]|]; cbn in Hin; contradiction.
  - destruct (v_place w) as [|x r|[|x l] e|oc] eqn:Ep.
    + destruct (v_queue w) as [|[x r] q]; destruct Hin.
    + destruct (exited w x) eqn:Ee; [|destruct Hin]. unfold got in *. destruct (is_exn r && true) eqn:Er; [|destruct Hin].
      rewrite andb_true_r in Er. cbn [snd] in Hin |- *. inversion HI as [|t0 h0 r0 Ht Hd Hs| | | |]; subst. split; [exact Hs|].
      assert (Hna : r <> Abort) by (intros ->; destruct Hin).
      split.
      * destruct r; [discriminate|congruence|]. clear. induction sp; cbn; [reflexivity|]. now f_equal.
      * exists r. split; [|exact Hna]. rewrite HF. apply first_error_app; [|exact Er]. intros y Hy. now destruct (Ht y Hy).
    + destruct Hin.
    + destruct (exited w x); destruct Hin.
    + destruct Hin.
  - destruct (v_place w) as [|x r|[|x l] e|oc]; try destruct (exited w x); destruct Hin.
Qed.

(* A timeout is only raised while a hook that was waited for has not ended *)
Theorem C12_timeout ops o : let w := fst (vrun sp true (v_init sp) ops) in
  v_place w <> Done TimedOut -> v_place (fst (vstep sp true w o)) = Done TimedOut ->
  exists h, In h sp /\ exited w (h_id h) = false.
Proof.
  intros w Hn H. pose proof (vinv_run sp true Hid Hnm ops) as I. fold w in I.
  destruct I as [It Iw Ii Io (t & HF & Hl & Hln & HI)]. destruct o as [x r|x| |]; cbn [vstep] in H.
  - destruct (nget x (v_threads w)) as [[| |]|]; cbn in H; contradiction.
  - destruct (nget x (v_threads w)) as [[| |]|]; cbn in H; contradiction.
  - exfalso. destruct (v_place w) as [|x r|[|x l] e|oc] eqn:Ep.
    + destruct (v_queue w) as [|[x r] q]; cbn [fst v_place] in H; congruence.
    + destruct (exited w x); [|cbn [fst] in H; congruence]. unfold got in H. destruct (is_exn r && true); [discriminate|].
      cbn [fst v_place] in H. destruct (v_left w); discriminate.
    + discriminate.
    + destruct (exited w x); [discriminate|cbn [fst] in H; congruence].
    + cbn [fst] in H. congruence.
  - assert (G : forall x, In x (map h_id sp) -> exited w x = false -> exists h, In h sp /\ exited w (h_id h) = false).
    { intros x Hx He. apply in_map_iff in Hx as (h & <- & Hh). eauto. }
    destruct (v_place w) as [|x r|[|x l] e|oc] eqn:Ep; try (cbn [fst] in H; congruence).
    + destruct (exited w x) eqn:Ee; [cbn [fst] in H; congruence|]. apply (G x); [|exact Ee]. apply Ii. inversion HI; subst.
      rewrite HF, !map_app, !in_app_iff. cbn. auto.
    + destruct (exited w x) eqn:Ee; [cbn [fst] in H; congruence|]. apply (G x); [|exact Ee]. inversion HI; subst.
      match goal with K : map h_id sp = _ |- _ => rewrite K end. apply in_or_app. right. now left.
Qed.

(* Once every hook has ended the caller gets its answer without anything else happening *)
Theorem C12_answers ops : (forall h, In h sp -> exited (fst (vrun sp true (v_init sp) ops)) (h_id h) = true) ->
  exists n o, v_place (fst (vrun sp true (v_init sp) (ops ++ repeat Go n))) = Done o.
Proof.
  remember (measure sp (fst (vrun sp true (v_init sp) ops))) as m eqn:Em. revert ops Em.
  induction m as [m IH] using lt_wf_ind. intros ops Em Hex.
  assert (C : (exists o, v_place (fst (vrun sp true (v_init sp) ops)) = Done o) \/
              forall o, v_place (fst (vrun sp true (v_init sp) ops)) <> Done o).
  { destruct (v_place (fst (vrun sp true (v_init sp) ops))); [right|right|right|left; eauto]; intros; discriminate. }
  destruct C as [[o C]|C].
  - exists 0, o. cbn [repeat]. now rewrite app_nil_r.
  - destruct (go_decreases sp true _ _ (vinv_run sp true Hid Hnm ops)) as [Hlt Hth]; [|exact C|].
    { intros h Hh. apply in_map_iff in Hh as (x & <- & Hx). auto. }
    destruct (IH (measure sp (fst (vrun sp true (v_init sp) (ops ++ [Go]))))) with (ops := ops ++ [Go]) as (n & o & Hn).
    + rewrite vrun_snoc. cbn [fst]. lia.
    + reflexivity.
    + intros h Hh. rewrite vrun_snoc. cbn [fst]. unfold exited. rewrite Hth. now apply Hex.
    + exists (S n), o. cbn [repeat]. rewrite <- app_assoc in Hn. exact Hn.
Qed.
End Waiting.
Print Assumptions C12_returns.
Print Assumptions C12_raises.
Print Assumptions C12_stops.
Print Assumptions C12_timeout.
Print Assumptions C12_answers.

(* The process does not look at errors: it gets every result or error, and stops nobody *)
Theorem C12_unchecked sp ops d : NoDup (map h_id sp) -> NoDup (map h_name sp) ->
  let w := fst (vrun sp false (v_init sp) ops) in let ev := snd (vrun sp false (v_init sp) ops) in
  v_place w = Done (Returned d) ->
  d = map (fun h => (h_name h, nget (h_id h) (finished_of ev))) sp /\
  (forall h, In h sp -> exists r, In (h_id h, r) (finished_of ev)) /\ stopped_of ev = [].
Proof.
  intros Hid Hnm w ev Hp. pose proof (vinv_run sp false Hid Hnm ops) as I. fold w ev in I.
  destruct I as [It Iw Ii Io (t & HF & Hl & Hln & HI)]. rewrite Hp in HI. inversion HI as [| | |t0 Ht Hle Hs| |]; subst.
  assert (Hall : forall h, In h sp -> exists r, In (h_id h, r) t).
  { intros h Hh. assert (Hin : In (h_id h) (map fst t)).
    { destruct (in_dec Nat.eq_dec (h_id h) (map fst t)) as [A|A]; [exact A|]. exfalso.
      assert (B : In (h_id h) (v_left w)) by (apply Hl; split; [now apply in_map|exact A]). rewrite Hle in B. destruct B. }
    apply in_map_iff in Hin as ([k r] & E & Hk). cbn [fst] in E. subst k. eauto. }
  split; [|split].
  - unfold dict_of. apply map_ext_in. intros h Hh. rewrite HF, nget_app. destruct (Hall h Hh) as (r & Hr).
    destruct (nget_key (h_id h) t) as (r' & ->); [|reflexivity]. change (h_id h) with (fst (h_id h, r)). now apply in_map.
  - intros h Hh. destruct (Hall h Hh) as (r & Hr). exists r. rewrite HF. apply in_or_app. now left.
  - assumption.
Qed.
Print Assumptions C12_unchecked.

(* Three parts; two have a function for hook class 0 *)
Definition exA := mkH 10 0 1 (register [0; 2] 5 [7] []) [7; 8].
Definition exB := mkH 11 0 2 (register [2] 6 [] []) [7; 8].
Definition exC := mkH 12 0 3 (register [0] 8 [8] []) [7; 8].
Example C12_ex_start : start_hooks [exA; exB; exC] = ([exA; exC], false) /\
  (forall h, In h [exA; exB; exC] -> ~ demands_more h).
Proof.
  split; [reflexivity|]. intros h Hh (f & args & a & E & Ha & Hn). apply Hn.
  destruct Hh as [<-|[<-|[<-|[]]]]; cbn in E; try discriminate; injection E as <- <-; cbn in Ha; destruct Ha as [<-|[]]; cbn; auto.
Qed.
Example C12_ex_bad : start_hooks [exA; mkH 13 0 4 (register [0] 5 [9] []) [7; 8]; exC] = ([exA], true) /\
  demands_more (mkH 13 0 4 (register [0] 5 [9] []) [7; 8]).
Proof. split; [reflexivity|]. exists 5, [9], 9. split; [reflexivity|]. cbn. intuition discriminate. Qed.
Definition ex_sp := [exA; exC].
Example C12_ex_nodup : NoDup (map h_id ex_sp) /\ NoDup (map h_name ex_sp).
Proof. split; repeat constructor; cbn; intuition discriminate. Qed.
Example C12_ex_returns : v_place (fst (vrun ex_sp true (v_init ex_sp)
  [End 12 (Value 4); Go; Exit 12; Go; Go; End 10 (Value 3); Exit 10; Go; Go])) =
  Done (Returned [(1, Some (Value 3)); (3, Some (Value 4))]).
Proof. reflexivity. Qed.
(* the first error stops both and is the one raised, though the other fails as well *)
Example C12_ex_raises : let r := vrun ex_sp true (v_init ex_sp)
    [End 12 (Fault 4); Exit 12; Go; Go; End 10 (Fault 3); Go; Exit 10; Go; Go; Go] in
  v_place (fst r) = Done (Raised (Fault 4)) /\ stopped_of (snd r) = [10; 12].
Proof. split; reflexivity. Qed.

(* A hook that has ended is told to stop all the same (its context then has a stop left on it) *)
Theorem C12_stops_finished_refuted : exists sp ops h v, NoDup (map h_id sp) /\
  let ev := snd (vrun sp true (v_init sp) ops) in
  exists a b c, ev = a ++ Finished h (Value v) :: b ++ Stopped h :: c.
Proof.
  exists ex_sp, [End 10 (Value 1); Exit 10; Go; Go; End 12 (Fault 4); Exit 12; Go; Go], 10, 1. split; [apply C12_ex_nodup|].
  exists [], [Finished 12 (Fault 4)], [Stopped 12]. reflexivity.
Qed.
Print Assumptions C12_stops_finished_refuted.
(* One part aborts on its own: the other is not told to stop, and if it does not end in time the
   caller gets a timeout instead of the abort *)
Theorem C12_lone_abort_refuted : exists sp ops, NoDup (map h_id sp) /\
  first_error (finished_of (snd (vrun sp true (v_init sp) ops))) Abort /\
  v_place (fst (vrun sp true (v_init sp) ops)) = Done TimedOut /\
  stopped_of (snd (vrun sp true (v_init sp) ops)) = [].
Proof.
  exists ex_sp, [End 12 Abort; Exit 12; Go; Go; Late]. split; [apply C12_ex_nodup|]. split; [|split; reflexivity].
  exists [], 12, []. split; [reflexivity|]. split; [intros x []|intros; discriminate].
Qed.
Print Assumptions C12_lone_abort_refuted.
