(* C74 and C75: how often a PandA is polled, and when it is polled at all. *)
From Coq Require Import Bool QArith Lqa Lia List.
From Verif Require Import PPoll_Model.
Import ListNotations.
Local Open Scope Q_scope.

(* ---- C74 ---- *)
Lemma round_spec P np now t p np' :
  poll_round P np now = (t, p, np') ->
  np' == t + P /\ p == t - (np - P)
  /\ (P * (1 # 2) <= np - now -> t == np) /\ (np - now < P * (1 # 2) -> t == now + P * (1 # 2)).
Proof.
  unfold poll_round. destruct (Qle_bool (P * (1 # 2)) (np - now)) eqn:E; cbn [negb].
  - apply Qle_bool_iff in E. intros H; injection H as <- <- <-.
    split; [ring|]. split; [ring|]. split; [intros _; ring|intros L; lra].
  - assert (L : np - now < P * (1 # 2)).
    { apply Qnot_le_lt. intros A. apply Qle_bool_iff in A. congruence. }
    intros H; injection H as <- <- <-.
    split; [ring|]. split; [ring|]. split; [intros A; lra|intros _; ring].
Qed.

Lemma loop_spec P hs : forall np now prev,
  np == prev + P ->
  (forall t p, nth_error (poll_loop P np now hs) 0 = Some (t, p) ->
     p == t - prev /\ (now - prev <= P * (1 # 2) -> t == prev + P)
     /\ (P * (1 # 2) < now - prev -> t == now + P * (1 # 2)))
  /\ (forall i t1 p1 t2 p2 h, nth_error (poll_loop P np now hs) i = Some (t1, p1) ->
        nth_error (poll_loop P np now hs) (S i) = Some (t2, p2) -> nth_error hs i = Some h ->
        p2 == t2 - t1 /\ (h <= P * (1 # 2) -> t2 == t1 + P) /\ (P * (1 # 2) < h -> t2 == t1 + h + P * (1 # 2))).
Proof.
  induction hs as [|h0 hs IH]; intros np now prev Hnp; cbn [poll_loop].
  - split; [intros t p H; discriminate|]. intros i t1 p1 t2 p2 h H; destruct i; discriminate.
  - destruct (poll_round P np now) as [[t0 p0] np0] eqn:E.
    destruct (round_spec _ _ _ _ _ _ E) as (N & D & A & B).
    destruct (IH np0 (t0 + h0) t0 N) as [IH1 IH2]. split.
    + intros t p H. cbn in H. injection H as <- <-. split; [lra|]. split; intros L.
      * rewrite A by lra. exact Hnp.
      * apply B; lra.
    + intros i t1 p1 t2 p2 h H1 H2 H3. destruct i as [|i].
      * cbn in H1, H3. injection H1 as <- <-. injection H3 as <-. cbn [nth_error] in H2.
        destruct (IH1 t2 p2 H2) as (X1 & X2 & X3). split; [exact X1|]. split; intros L.
        -- apply X2; lra.
        -- apply X3; lra.
      * cbn [nth_error] in H1, H3. change (nth_error (poll_loop P np0 (t0 + h0) hs) (S i) = Some (t2, p2)) in H2.
        eapply IH2; eauto.
Qed.

Lemma poll_len P hs : forall np now, length (poll_loop P np now hs) = length hs.
Proof.
  induction hs as [|h hs IH]; intros; cbn [poll_loop]; [reflexivity|].
  destruct (poll_round P np now) as [[t p] np']. cbn. now rewrite IH.
Qed.

(* The first poll comes a period after the start; the polls go on as long as the loop does. *)
Theorem C74_first : forall P start hs, 0 < P ->
  length (poll P start hs) = length hs /\
  forall t p, nth_error (poll P start hs) 0 = Some (t, p) -> t == start + P /\ p == P.
Proof.
  intros P start hs HP. split; [apply poll_len|]. intros t p H. unfold poll in H.
  destruct (loop_spec P hs (start + P) start start ltac:(reflexivity)) as [X _].
  destruct (X t p H) as (A & B & _). rewrite B in A by lra. split; [apply B; lra|lra].
Qed.
Print Assumptions C74_first.

(* Each poll comes a period after the one before it where the changes were handled within half a period, and
   half a period after the end of the handling where it took longer; there is no time to be made up.  The
   period found is the time between these two polls. *)
Theorem C74_next : forall P start hs i t1 p1 t2 p2 h, 0 < P ->
  nth_error (poll P start hs) i = Some (t1, p1) -> nth_error (poll P start hs) (S i) = Some (t2, p2) ->
  nth_error hs i = Some h ->
  p2 == t2 - t1 /\ (h <= P * (1 # 2) -> t2 == t1 + P) /\ (P * (1 # 2) < h -> t2 == t1 + h + P * (1 # 2)).
Proof.
  intros P start hs i t1 p1 t2 p2 h HP H1 H2 H3. unfold poll in *.
  destruct (loop_spec P hs (start + P) start start ltac:(reflexivity)) as [_ X].
  eapply X; eauto.
Qed.
Print Assumptions C74_next.

(* So that at least half of the period is left to others after each poll, and the rate is at most one poll in
   a period. *)
Theorem C74_idle : forall P start hs i t1 p1 t2 p2 h, 0 < P ->
  nth_error (poll P start hs) i = Some (t1, p1) -> nth_error (poll P start hs) (S i) = Some (t2, p2) ->
  nth_error hs i = Some h ->
  t1 + h + P * (1 # 2) <= t2 /\ t1 + P <= t2.
Proof.
  intros P start hs i t1 p1 t2 p2 h HP H1 H2 H3.
  destruct (C74_next P start hs i t1 p1 t2 p2 h HP H1 H2 H3) as (_ & A & B).
  destruct (Qlt_le_dec (P * (1 # 2)) h) as [L|L].
  - rewrite (B L). split; lra.
  - rewrite (A L). split; lra.
Qed.
Print Assumptions C74_idle.

(* polls at 0.1 s, the second of which takes 0.3 s to handle *)
Example C74_ex : map (fun x => (Qred (fst x), Qred (snd x))) (poll (1 # 10) 5 [1 # 100; 3 # 10; 1 # 50; 0])
  = [(51 # 10, 1 # 10); (26 # 5, 1 # 10); (111 # 20, 7 # 20); (113 # 20, 1 # 10)].
Proof. vm_compute. reflexivity. Qed.

(* ---- C75 ---- *)
(* Histories in which the block is not reset straight after an exception in the poll loop, but disabled first,
   and in which the making of the blocks does not fail half-way. *)
Fixpoint careful (failed : bool) (es : list lev) : bool :=
  match es with
  | [] => true
  | PollFails :: r => careful true r
  | Disable :: r => careful false r
  | Init _ m :: r => negb failed && (match m with Made | FailsAtOnce => true | _ => false end) && careful failed r
  | Reset _ m :: r => negb failed && (match m with Made | FailsAtOnce => true | _ => false end) && careful failed r
  end.

Definition inv (failed : bool) (l : life) : Prop :=
  (l_blocks l = true -> l_published l = true)
  /\ (l_spawned l = true -> l_blocks l = true /\ l_client l = true)
  /\ (failed = false -> l_alive l = l_spawned l)
  /\ (l_alive l = true -> l_spawned l = true)
  /\ (l_state l = Ready -> l_spawned l = true /\ l_alive l = true)
  /\ (l_state l = Disabled -> l_spawned l = false /\ l_client l = false)
  /\ (l_state l = Start -> l_spawned l = false).

Ltac crush := unfold inv; intuition (try congruence; try discriminate).

Lemma careful_inv es : forall failed l, careful failed es = true -> inv failed l ->
  exists failed', inv failed' (fold_left (fun l e => lstep e l) es l).
Proof.
  induction es as [|e es IH]; intros failed l C I; [exists failed; exact I|].
  cbn [fold_left]. destruct e as [c m|c m| |]; cbn [careful] in C.
  - apply andb_prop in C. destruct C as [C C3]. apply andb_prop in C. destruct C as [C1 C2].
    apply negb_true_iff in C1. subst failed. apply (IH false _ C3).
    destruct l as [st cl bl pu sp al]. unfold lstep, start_poll_loop, in_state, inv in *. cbn in *.
    destruct st; try exact I. destruct cl, c, bl, m, sp, al, pu; cbn in *; crush.
  - apply andb_prop in C. destruct C as [C C3]. apply andb_prop in C. destruct C as [C1 C2].
    apply negb_true_iff in C1. subst failed. apply (IH false _ C3).
    destruct l as [st cl bl pu sp al]. unfold lstep, start_poll_loop, in_state, inv in *. cbn in *.
    destruct st; try exact I; destruct cl, c, bl, m, sp, al, pu; cbn in *; crush.
  - destruct l as [st cl bl pu sp al]. destruct st.
    + apply (IH false _ C). unfold lstep, inv in *; cbn in *. destruct sp, al; cbn in *; crush.
    + apply (IH false _ C). unfold lstep, in_state, stop_poll_loop, inv in *; cbn in *. crush.
    + apply (IH false _ C). unfold lstep, in_state, stop_poll_loop, inv in *; cbn in *. crush.
    + apply (IH false _ C). unfold lstep, inv in *; cbn in *. destruct sp, al; cbn in *; crush.
  - apply (IH true _ C). destruct l as [st cl bl pu sp al]. unfold lstep, in_state, inv in *; cbn in *.
    destruct al; [|crush]. destruct st; cbn in *; crush.
Qed.

(* In such histories a PandA that is Ready is polled, and its blocks are there. *)
Theorem C75_polled : forall es, careful false es = true -> l_state (lrun es) = Ready ->
  l_alive (lrun es) = true /\ l_published (lrun es) = true /\ l_client (lrun es) = true.
Proof.
  intros es C R. unfold lrun in *.
  destruct (careful_inv es false life0 C) as [f I].
  - unfold inv, life0; cbn; crush.
  - unfold inv in I. destruct I as (I1 & I2 & I3 & I4 & I5 & I6 & I7).
    destruct (I5 R) as [S A]. destruct (I2 S) as [B L]. auto.
Qed.
Print Assumptions C75_polled.

(* And it can always be brought back: disable, then a reset that reaches the device. *)
Theorem C75_recovers : forall es, careful false es = true -> l_state (lrun es) <> Start ->
  l_state (lrun (es ++ [Disable; Reset true Made])) = Ready
  /\ l_alive (lrun (es ++ [Disable; Reset true Made])) = true.
Proof.
  intros es C R. unfold lrun in *. rewrite fold_left_app.
  destruct (careful_inv es false life0 C) as [f I]; [unfold inv, life0; cbn; crush|].
  destruct (fold_left (fun l e => lstep e l) es life0) as [st cl bl pu sp al]. cbn in R.
  unfold inv in I; cbn in I.
  destruct st; [contradiction| | |]; cbn; unfold lstep, start_poll_loop, stop_poll_loop, in_state; cbn;
    destruct cl, bl, sp, al; cbn in *; crush.
Qed.
Print Assumptions C75_recovers.

(* While it is Disabled nothing is sent to the device. *)
Theorem C75_disabled : forall es, careful false es = true -> l_state (lrun es) = Disabled ->
  l_alive (lrun es) = false /\ l_client (lrun es) = false.
Proof.
  intros es C R. unfold lrun in *.
  destruct (careful_inv es false life0 C) as [f I].
  - unfold inv, life0; cbn; crush.
  - unfold inv in I. destruct I as (I1 & I2 & I3 & I4 & I5 & I6 & I7).
    destruct (I6 R) as [S L]. split; [|exact L]. destruct (l_alive _) eqn:E; [|reflexivity].
    rewrite I4 in S by reflexivity. discriminate.
Qed.
Print Assumptions C75_disabled.

Example C75_ex : careful false [Init false Made; Reset true FailsAtOnce; Reset true Made; PollFails; Disable;
                                Reset true Made] = true
  /\ lrun [Init false Made; Reset true FailsAtOnce; Reset true Made; PollFails; Disable; Reset true Made]
     = mkL Ready true true true true true.
Proof. split; vm_compute; reflexivity. Qed.

(* Reset straight after an exception in the poll loop makes the block Ready, but it is never polled again:
   the loop is not started as _poll_spawned is not None. *)
Theorem C75_reset_refuted : exists es, l_state (lrun es) = Ready /\ l_alive (lrun es) = false
  /\ es = [Init true Made; PollFails; Reset true Made].
Proof. eexists; repeat split; vm_compute; reflexivity. Qed.
Print Assumptions C75_reset_refuted.

(* Where a block can not be made at the first start, a reset makes the PandA Ready with its blocks not in the
   process. *)
Theorem C75_blocks_refuted : exists es, l_state (lrun es) = Ready /\ l_published (lrun es) = false
  /\ es = [Init true FailsAtBlock; Reset true Made].
Proof. eexists; repeat split; vm_compute; reflexivity. Qed.
Print Assumptions C75_blocks_refuted.
