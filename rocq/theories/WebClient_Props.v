(* C36: the websocket client. *)
From Coq Require Import String Bool Arith Lia List.
From Verif Require Import Web_Model Web_Spec.
Import ListNotations.
Local Open Scope list_scope.

Section facts.
  Context {R : Type}.
  Implicit Types (os : list (cop R)) (c : client R) (es : list (cev R)) (d : list (nat * R)).

  Lemma lget_In k r d : lget k d = Some r -> In (k, r) d.
  Proof.
    induction d as [|[a b] t IH]; cbn [lget]; [discriminate|]. destruct (Nat.eqb_spec k a) as [->|N].
    - intros E. injection E as ->. now left.
    - right. now apply IH.
  Qed.
  Lemma lget_None k d : lget k d = None <-> ~ In k (map fst d).
  Proof.
    induction d as [|[a b] t IH]; cbn [lget map fst]; [split; [intros _ []|reflexivity]|].
    destruct (Nat.eqb_spec k a) as [->|N].
    - split; [discriminate|]. intros H. exfalso. apply H. now left.
    - rewrite IH. split; [intros H [X|X]; [congruence|tauto]|]. intros H X. apply H. now right.
  Qed.
  Lemma lpop_In k d x : In x (lpop k d) -> In x d.
  Proof.
    induction d as [|[a b] t IH]; cbn [lpop]; [intros []|]. destruct (Nat.eqb k a); [now right|].
    intros [X|X]; [now left|right; now apply IH].
  Qed.
  Lemma lpop_keys k d x : In x (map fst (lpop k d)) -> In x (map fst d).
  Proof. rewrite !in_map_iff. intros (y & E & I). exists y. split; [exact E|now apply (lpop_In k)]. Qed.
  Lemma lpop_nodup k d : NoDup (map fst d) -> NoDup (map fst (lpop k d)).
  Proof.
    induction d as [|[a b] t IH]; cbn [lpop map fst]; [intros H; exact H|]. intros H. inversion H as [|? ? N D]; subst.
    destruct (Nat.eqb k a); [exact D|]. cbn [map fst]. constructor; [|now apply IH]. intros X. now apply N, (lpop_keys k).
  Qed.
  Lemma lget_lpop k d k' : NoDup (map fst d) -> lget k' (lpop k d) = if Nat.eqb k' k then None else lget k' d.
  Proof.
    induction d as [|[a b] t IH]; cbn [lpop map fst lget]; [now destruct (Nat.eqb k' k)|]. intros H. inversion H as [|? ? N D]; subst.
    destruct (Nat.eqb_spec k a) as [->|E].
    - destruct (Nat.eqb_spec k' a) as [e|]; [|reflexivity]. rewrite e. now apply lget_None.
    - cbn [lget]. rewrite (IH D). destruct (Nat.eqb_spec k' a) as [e|]; [|reflexivity]. destruct (Nat.eqb_spec k' k); [congruence|reflexivity].
  Qed.
  Lemma lget_snoc k r d k' : ~ In k (map fst d) -> lget k' (d ++ [(k, r)]) = if Nat.eqb k' k then Some r else lget k' d.
  Proof.
    induction d as [|[a b] t IH]; cbn [app lget map fst]; intros N; [reflexivity|].
    rewrite IH by (intros X; apply N; now right). destruct (Nat.eqb_spec k' a) as [e|]; [|reflexivity].
    destruct (Nat.eqb_spec k' k) as [e'|]; [|reflexivity]. exfalso. apply N. left. congruence.
  Qed.

  Lemma sends_app os os2 : sends (os ++ os2) = sends os ++ sends os2.
  Proof. induction os as [|o t IH]; cbn [app sends]; [reflexivity|]. destruct o; cbn [app]; now rewrite IH. Qed.
  Lemma sent_as_app os os2 id r : sent_as os id r -> sent_as (os ++ os2) id r.
  Proof.
    intros (n & E & H). exists n. split; [exact E|]. rewrite sends_app, nth_error_app1; [exact H|].
    apply nth_error_Some. congruence.
  Qed.
  Lemma sent_as_fun os id r r' : sent_as os id r -> sent_as os id r' -> r = r'.
  Proof. intros (n & -> & H) (m & E & H'). assert (m = n) as -> by lia. congruence. Qed.
  Lemma sent_as_new os r : sent_as (os ++ [Send r]) (S (length (sends os))) r.
  Proof. exists (length (sends os)). split; [reflexivity|]. rewrite sends_app, nth_error_app2 by lia. now rewrite Nat.sub_diag. Qed.
  Lemma sent_as_le os id r : sent_as os id r -> 1 <= id <= length (sends os).
  Proof. intros (n & -> & H). assert (n < length (sends os)) by (apply nth_error_Some; congruence). lia. Qed.

  Definition mentions (e : cev R) (id : nat) (r : R) : Prop :=
    e = Written id r \/ e = Unwritten id r \/ (exists resp, e = Handed r resp /\ resp_id resp = id) \/ e = Disconnected r id.
  Lemma ended_app id es es2 : ended id (es ++ es2) = ended id es + ended id es2.
  Proof. unfold ended. now rewrite filter_app, app_length. Qed.

  Definition pend c (id : nat) : nat := match lget id (cl_lookup c) with Some _ => 1 | None => 0 end.
  Record inv os c es : Prop := mkInv {
    i_next : cl_next c = S (length (sends os));
    i_nodup : NoDup (map fst (cl_lookup c));
    i_sent : forall id r, In (id, r) (cl_lookup c) -> sent_as os id r;
    i_events : forall e id r, In e es -> mentions e id r -> sent_as os id r;
    i_count : forall id, ended id es + pend c id = if (1 <=? id) && (id <=? length (sends os)) then 1 else 0 }.

  Lemma inv_same os c c' es o : inv os c es -> cl_next c' = cl_next c -> cl_lookup c' = cl_lookup c ->
    sends [o] = [] -> inv (os ++ [o]) c' es.
  Proof.
    intros [A B C D E] N L S. split.
    - rewrite sends_app, S, app_nil_r. congruence.
    - now rewrite L.
    - rewrite L. intros id r I. now apply sent_as_app, C.
    - intros e id r I M. now apply sent_as_app, (D e).
    - intros id. unfold pend. rewrite L, sends_app, S, app_nil_r. apply E.
  Qed.
  Lemma inv_end os c c' es o id r e : inv os c es -> cl_next c' = cl_next c -> lget id (cl_lookup c) = Some r ->
    cl_lookup c' = lpop id (cl_lookup c) -> sends [o] = [] -> mentions e id r -> ends_b id e = true ->
    (forall id' r', mentions e id' r' -> id' = id /\ r' = r) -> (forall id', ends_b id' e = true -> id' = id) ->
    inv (os ++ [o]) c' (es ++ [e]).
  Proof.
    intros [A B C D E] N G L S M Eb U Ub. split.
    - rewrite sends_app, S, app_nil_r. congruence.
    - rewrite L. now apply lpop_nodup.
    - rewrite L. intros i r0 I. now apply sent_as_app, C, (lpop_In id).
    - intros e0 i r0 I M0. apply sent_as_app. apply in_app_or in I as [I|[<-|[]]]; [now apply (D e0)|].
      destruct (U _ _ M0) as [-> ->]. now apply C, lget_In.
    - intros i. rewrite ended_app, sends_app, S, app_nil_r, <- E. unfold pend. rewrite L, (lget_lpop id _ i B).
      unfold ended at 2. cbn [filter length]. destruct (Nat.eqb_spec i id) as [->|Ni].
      + rewrite Eb, G. cbn [length]. lia.
      + destruct (ends_b i e) eqn:X; [apply Ub in X; congruence|]. cbn [length]. lia.
  Qed.

  Lemma inv_step os c es o c' e : inv os c es -> cstep c o = Some (c', e) -> inv (os ++ [o]) c' (es ++ e).
  Proof.
    intros I H. destruct o as [r|resp| | | | | |]; cbn [cstep] in H.
    - injection H as <- <-. pose proof I as [A B C D E]. assert (Nin : ~ In (cl_next c) (map fst (cl_lookup c))).
      { intros X. apply in_map_iff in X as ((k, v) & Ek & X). cbn [fst] in Ek. apply C, sent_as_le in X. rewrite A in Ek. lia. }
      split; cbn [cl_next cl_lookup].
      + rewrite sends_app, app_length, A. cbn [sends length]. lia.
      + rewrite map_app. cbn [map fst]. clear -B Nin. revert B Nin. generalize (map fst (cl_lookup c)) as l.
        induction l as [|x t IH]; cbn [app]; intros B N; [constructor; [intros []|constructor]|].
        inversion B as [|? ? X Y]; subst. constructor; [|apply IH; [exact Y|intros Z; apply N; now right]].
        intros Z. apply in_app_or in Z as [Z|[Z|[]]]; [tauto|]. apply N. now left.
      + intros id r0 X. apply in_app_or in X as [X|[X|[]]]; [now apply sent_as_app, C|].
        assert (id = cl_next c) as -> by congruence. assert (r0 = r) as -> by congruence. rewrite A. apply sent_as_new.
      + intros e id r0 X M. apply in_app_or in X as [X|[X|[]]]; [now apply sent_as_app, (D e)|].
        assert (Y : id = cl_next c /\ r0 = r).
        { subst e. unfold mentions in M. destruct (cl_conn c); destruct M as [M|[M|[(? & M & _)|M]]]; try discriminate; split; congruence. }
        destruct Y as [-> ->]. rewrite A. apply sent_as_new.
      + intros id. rewrite ended_app, sends_app, app_length. cbn [sends length]. specialize (E id). unfold pend in *. cbn [cl_lookup].
        rewrite (lget_snoc _ r _ id Nin), A in *.
        assert (Z : ended id [if cl_conn c then Written (S (length (sends os))) r else Unwritten (S (length (sends os))) r] = 0)
          by (unfold ended; now destruct (cl_conn c)).
        rewrite Z. destruct (Nat.eqb_spec id (S (length (sends os)))) as [->|Ne].
        * assert (lget (S (length (sends os))) (cl_lookup c) = None) as X by (now apply lget_None). rewrite X in E.
          destruct (Nat.leb_spec 1 (S (length (sends os)))); [|lia].
          destruct (Nat.leb_spec (S (length (sends os))) (length (sends os) + 1)); [|lia].
          destruct (Nat.leb_spec (S (length (sends os))) (length (sends os))); [lia|]. cbn [andb] in *. lia.
        * destruct (Nat.leb_spec 1 id), (Nat.leb_spec id (length (sends os) + 1)), (Nat.leb_spec id (length (sends os))); cbn [andb] in *; lia.
    - destruct (cl_conn c); [|discriminate]. injection H as H. unfold receive in H.
      destruct (lget (resp_id resp) (cl_lookup c)) as [r|] eqn:G.
      + destruct resp as [id|id]; cbn [resp_id] in *; injection H as <- <-.
        * apply (inv_end os c _ es _ id r); try reflexivity; auto.
          -- right; right; left. exists (Final id). now split.
          -- cbn [ends_b]. apply Nat.eqb_refl.
          -- intros i r' [M|[M|[(x & M & Y)|M]]]; try discriminate. assert (x = Final id) as -> by congruence.
             cbn [resp_id] in Y. split; [congruence|congruence].
          -- intros i X. cbn [ends_b] in X. apply Nat.eqb_eq in X. congruence.
        * pose proof (inv_same os c c es (Receive (Stream id)) I eq_refl eq_refl eq_refl) as I'.
          destruct I' as [A B C D E]. split; auto.
          -- intros e i r0 X M. apply in_app_or in X as [X|[<-|[]]]; [now apply (D e)|].
             destruct M as [M|[M|[(x & M & Y)|M]]]; try discriminate. assert (x = Stream id) as -> by congruence.
             cbn [resp_id] in Y. subst i. assert (r0 = r) as -> by congruence. now apply C, lget_In.
          -- intros i. rewrite ended_app. unfold ended at 2. cbn [filter ends_b length]. rewrite Nat.add_0_r. apply E.
      + injection H as <- <-. pose proof (inv_same os c c es (Receive resp) I eq_refl eq_refl eq_refl) as I'.
        destruct I' as [A B C D E]. split; auto.
        * intros e i r0 X M. apply in_app_or in X as [X|[<-|[]]]; [now apply (D e)|].
          destruct M as [M|[M|[(x & M & Y)|M]]]; discriminate.
        * intros i. rewrite ended_app. unfold ended at 2. cbn [filter ends_b length]. rewrite Nat.add_0_r. apply E.
    - destruct (cl_conn c); [|discriminate]. injection H as <- <-. rewrite app_nil_r. now apply (inv_same os c).
    - destruct (cl_faults c); [discriminate|]. destruct (cl_loop c); [|discriminate]. injection H as <- <-. rewrite app_nil_r. now apply (inv_same os c).
    - destruct (cl_loop c) as [|id rest] eqn:L; [discriminate|]. injection H as H. unfold fault_next in H. rewrite L in H.
      destruct (lget id (cl_lookup c)) as [r|] eqn:G; injection H as <- <-.
      + apply (inv_end os c _ es _ id r); try reflexivity; auto.
        * now right; right; right.
        * cbn [ends_b]. apply Nat.eqb_refl.
        * intros i r' [M|[M|[(x & M & Y)|M]]]; try discriminate. split; congruence.
        * intros i X. cbn [ends_b] in X. apply Nat.eqb_eq in X. congruence.
      + rewrite app_nil_r. now apply (inv_same os c).
    - destruct (cl_conn c); [discriminate|]. injection H as <- <-. rewrite app_nil_r. now apply (inv_same os c).
    - destruct (cl_connecting c); [discriminate|]. destruct (cl_conn c); [discriminate|]. injection H as <- <-. rewrite app_nil_r. now apply (inv_same os c).
    - destruct (cl_tokens c); [discriminate|]. injection H as <- <-. rewrite app_nil_r. now apply (inv_same os c).
  Qed.
  Lemma inv_run os2 : forall os c es c' e, inv os c es -> crun c os2 = Some (c', e) -> inv (os ++ os2) c' (es ++ e).
  Proof.
    induction os2 as [|o t IH]; intros os c es c' e I H; cbn [crun] in H.
    - injection H as <- <-. now rewrite !app_nil_r.
    - destruct (cstep c o) as [[c1 e1]|] eqn:S; [|discriminate]. destruct (crun c1 t) as [[c2 e2]|] eqn:T; [|discriminate].
      injection H as <- <-. pose proof (IH _ _ _ _ _ (inv_step _ _ _ _ _ _ I S) T) as X. now rewrite <- !app_assoc in X.
  Qed.
  Lemma inv_new : inv [] new_client [].
  Proof.
    split; cbn.
    - reflexivity.
    - constructor.
    - intros ? ? [].
    - intros ? ? ? [].
    - intros id. destruct id; reflexivity.
  Qed.
  Lemma crun_app os c os2 : crun c (os ++ os2) =
    match crun c os with None => None
    | Some (c1, e1) => match crun c1 os2 with None => None | Some (c2, e2) => Some (c2, e1 ++ e2) end end.
  Proof.
    revert c. induction os as [|o t IH]; intros c; cbn [app crun].
    - destruct (crun c os2) as [[c2 e2]|]; reflexivity.
    - destruct (cstep c o) as [[c1 e1]|]; [|reflexivity]. rewrite IH. destruct (crun c1 t) as [[c2 e2]|]; [|reflexivity].
      destruct (crun c2 os2) as [[c3 e3]|]; [|reflexivity]. now rewrite app_assoc.
  Qed.
  Lemma new_inv os c es : crun new_client os = Some (c, es) -> inv os c es.
  Proof. intros H. exact (inv_run os [] _ [] _ _ inv_new H). Qed.
End facts.

(* Every id is fresh, and a callback is only handed responses for its own request: whatever
   is written, refused, handed over or failed under an id belongs to the request that was
   sent as number [id] *)
Theorem C36_own_id {R} (os : list (cop R)) c es :
  crun new_client os = Some (c, es) ->
  (forall id r, In (Written id r) es \/ In (Unwritten id r) es -> sent_as os id r) /\
  (forall r resp, In (Handed r resp) es -> match resp with Final id | Stream id => sent_as os id r end) /\
  (forall r id, In (Disconnected r id) es -> sent_as os id r).
Proof.
  intros H. apply new_inv in H. pose proof (i_events _ _ _ H) as E. split; [|split].
  - intros id r [I|I]; apply (E _ _ _ I); unfold mentions; auto.
  - intros r resp I. destruct resp as [id|id]; apply (E _ _ _ I); right; right; left; eexists; split; reflexivity.
  - intros r id I. apply (E _ _ _ I). unfold mentions; auto.
Qed.
Print Assumptions C36_own_id.

(* Each request sent is answered at most once: its wait is ended exactly once, or it is
   still waiting; what was never sent is never ended *)
Theorem C36_once {R} (os : list (cop R)) c es id :
  crun new_client os = Some (c, es) ->
  ended id es <= 1 /\ (ended id es = 1 -> exists r, sent_as os id r) /\
  (forall r, sent_as os id r -> (ended id es = 0 <-> In (id, r) (cl_lookup c))).
Proof.
  intros H. apply new_inv in H. pose proof (i_count _ _ _ H id) as E. unfold pend in E.
  assert (S : forall r, sent_as os id r -> (1 <=? id) && (id <=? length (sends os)) = true).
  { intros r X. apply sent_as_le in X. apply andb_true_iff. split; apply Nat.leb_le; lia. }
  split; [|split].
  - destruct ((1 <=? id) && _); lia.
  - intros X. destruct (Nat.leb_spec 1 id); cbn [andb] in E; [|lia]. destruct (Nat.leb_spec id (length (sends os))); [|lia].
    destruct (nth_error (sends os) (pred id)) as [r|] eqn:N.
    + exists r. exists (pred id). split; [lia|exact N].
    + apply nth_error_None in N. lia.
  - intros r X. rewrite (S r X) in E. split.
    + intros Z. destruct (lget id (cl_lookup c)) as [r'|] eqn:G; [|lia]. apply lget_In in G.
      now rewrite (sent_as_fun os id r r' X (i_sent _ _ _ H _ _ G)).
    + intros I. destruct (lget id (cl_lookup c)) as [r'|] eqn:G; [lia|]. apply lget_None in G. exfalso. apply G.
      apply in_map_iff. now exists (id, r).
Qed.
Print Assumptions C36_once.

(* a response with an id ends the wait of the request with that id *)
Theorem C36_answered {R} (os : list (cop R)) c es id r :
  crun new_client os = Some (c, es) -> cl_conn c = true -> sent_as os id r -> ended id es = 0 ->
  exists c', crun new_client (os ++ [Receive (Final id)]) = Some (c', es ++ [Handed r (Final id)]).
Proof.
  intros H K S E. destruct (C36_once _ _ _ id H) as (_ & _ & O). apply (O r S) in E.
  pose proof (new_inv _ _ _ H) as I. rewrite crun_app, H. cbn [crun cstep]. rewrite K. unfold receive. cbn [resp_id].
  destruct (lget id (cl_lookup c)) as [r'|] eqn:G.
  - pose proof (i_sent _ _ _ I _ _ (lget_In _ _ _ G)) as S'. rewrite <- (sent_as_fun _ _ _ _ S S'). eexists. rewrite app_nil_r. reflexivity.
  - apply lget_None in G. exfalso. apply G. apply in_map_iff. now exists (id, r).
Qed.
Print Assumptions C36_answered.

(* ---- the connection is lost ---- *)
Section lost.
  Context {R : Type}.
  Implicit Types (os : list (cop R)) (c : client R).
  Definition cut (n : nat) (c : client R) : Prop :=
    cl_conn c = false /\ NoDup (cl_loop c) /\ (forall id, In id (cl_loop c) -> In id (map fst (cl_lookup c))) /\
    (forall id, id < n -> In id (map fst (cl_lookup c)) -> In id (cl_loop c)) /\ n <= cl_next c /\ NoDup (map fst (cl_lookup c)).
  Lemma cut_step n os es c o c' e : inv os c es -> cut n c -> o <> Connected -> cstep c o = Some (c', e) -> cut n c'.
  Proof.
    intros I (K & D & L & P & N & ND) No H. destruct o as [r|resp| | | | | |]; cbn [cstep] in H; try (rewrite K in H; discriminate); try congruence.
    - injection H as <- <-. unfold cut. cbn [cl_conn cl_loop cl_lookup cl_next].
      assert (ND' : NoDup (map fst (cl_lookup c ++ [(cl_next c, r)]))).
      { pose proof (i_nodup _ _ _ (inv_step os c es (Send r) _ _ I eq_refl)) as X. exact X. }
      assert (X1 : forall id, In id (cl_loop c) -> In id (map fst (cl_lookup c ++ [(cl_next c, r)]))).
      { intros id X. rewrite map_app. apply in_or_app. left. now apply L. }
      assert (X2 : forall id, id < n -> In id (map fst (cl_lookup c ++ [(cl_next c, r)])) -> In id (cl_loop c)).
      { intros id X Y. rewrite map_app in Y. apply in_app_or in Y as [Y|[Y|[]]]; [now apply P|]. cbn [fst] in Y. lia. }
      exact (conj K (conj D (conj X1 (conj X2 (conj (le_S _ _ N) ND'))))).
    - destruct (cl_faults c); [discriminate|]. destruct (cl_loop c); [|discriminate]. injection H as <- <-.
      unfold cut. cbn [cl_conn cl_loop cl_lookup cl_next].
      exact (conj K (conj ND (conj (fun _ X => X) (conj (fun _ _ X => X) (conj N ND))))).
    - destruct (cl_loop c) as [|id rest] eqn:Lo; [discriminate|]. injection H as H. unfold fault_next in H. rewrite Lo in H.
      destruct (lget id (cl_lookup c)) as [r|] eqn:G.
      2: { apply lget_None in G. exfalso. apply G, L. now left. }
      injection H as <- <-. inversion D as [|? ? Nr Dr]; subst. unfold cut. cbn [cl_conn cl_loop cl_lookup cl_next].
      assert (Kp : forall x, In x (map fst (lpop id (cl_lookup c))) <-> x <> id /\ In x (map fst (cl_lookup c))).
      { intros x. pose proof (lget_lpop id (cl_lookup c) x ND) as X. split.
        - intros Y. split; [|now apply (lpop_keys id)]. intros ->. rewrite Nat.eqb_refl in X. apply lget_None in X. tauto.
        - intros [Y1 Y2]. destruct (Nat.eqb_spec x id); [congruence|]. destruct (in_dec Nat.eq_dec x (map fst (lpop id (cl_lookup c)))) as [Z|Z]; [exact Z|].
          exfalso. apply lget_None in Z. rewrite Z in X. symmetry in X. apply lget_None in X. tauto. }
      assert (X1 : forall x, In x rest -> In x (map fst (lpop id (cl_lookup c)))).
      { intros x X. apply Kp. split; [intros ->; tauto|]. apply L. now right. }
      assert (X2 : forall x, x < n -> In x (map fst (lpop id (cl_lookup c))) -> In x rest).
      { intros x X Y. apply Kp in Y as [Y1 Y2]. destruct (P x X Y2) as [Z|Z]; [congruence|exact Z]. }
      exact (conj K (conj Dr (conj X1 (conj X2 (conj N (lpop_nodup _ _ ND)))))).
    - rewrite K in H. injection H as <- <-. unfold cut. cbn [cl_conn cl_loop cl_lookup cl_next]. exact (conj eq_refl (conj D (conj L (conj P (conj N ND))))).
    - destruct (cl_tokens c); [discriminate|]. injection H as <- <-. unfold cut. cbn [cl_conn cl_loop cl_lookup cl_next].
      exact (conj K (conj D (conj L (conj P (conj N ND))))).
  Qed.
  Lemma cut_run n os2 : forall os c es c' e, inv os c es -> cut n c -> ~ In Connected os2 -> crun c os2 = Some (c', e) -> cut n c'.
  Proof.
    induction os2 as [|o t IH]; intros os c es c' e I K N H; cbn [crun] in H; [now injection H as <- <-|].
    destruct (cstep c o) as [[c1 e1]|] eqn:S; [|discriminate]. destruct (crun c1 t) as [[c2 e2]|] eqn:T; [|discriminate].
    injection H as <- <-. apply (IH (os ++ [o]) c1 (es ++ e1) c2 e2); [eapply inv_step; eassumption| |intros X; apply N; now right|exact T].
    apply (cut_step n os es c o c1 e1); [exact I|exact K|intros ->; apply N; now left|exact S].
  Qed.
End lost.

(* The connection is down when the fault is handled: once its loop is through, whatever else
   happened meanwhile short of connecting again, every request sent before it began has had
   exactly one answer *)
Theorem C36_none_left_pending {R} (os os2 : list (cop R)) c1 es1 c2 es2 id r :
  crun new_client os = Some (c1, es1) -> cl_conn c1 = false ->
  crun c1 (FaultBegin :: os2) = Some (c2, es2) -> ~ In Connected os2 -> cl_loop c2 = [] ->
  sent_as os id r -> ended id (es1 ++ es2) = 1.
Proof.
  intros H1 K H2 N L S. pose proof (new_inv _ _ _ H1) as I1. cbn [crun] in H2.
  destruct (cstep c1 FaultBegin) as [[c0 e0]|] eqn:B; [|discriminate]. destruct (crun c0 os2) as [[c3 e3]|] eqn:T; [|discriminate].
  injection H2 as <- <-. pose proof (inv_step _ _ _ _ _ _ I1 B) as I0.
  assert (C0 : cut (cl_next c1) c0).
  { cbn [cstep] in B. destruct (cl_faults c1); [discriminate|]. destruct (cl_loop c1); [|discriminate]. injection B as <- <-.
    unfold cut. cbn [cl_conn cl_loop cl_lookup cl_next]. pose proof (i_nodup _ _ _ I1) as ND.
    exact (conj K (conj ND (conj (fun _ X => X) (conj (fun _ _ X => X) (conj (le_n _) ND))))). }
  pose proof (cut_run (cl_next c1) os2 _ _ _ _ _ I0 C0 N T) as (_ & _ & _ & P & _ & _).
  pose proof (inv_run os2 _ _ _ _ _ I0 T) as I3. pose proof (i_count _ _ _ I3 id) as E.
  pose proof (sent_as_le _ _ _ S) as Le. unfold pend in E.
  assert (X : lget id (cl_lookup c3) = None).
  { apply lget_None. intros X. apply P in X; [rewrite L in X; destruct X|]. rewrite (i_next _ _ _ I1). lia. }
  rewrite X in E. rewrite !sends_app, !app_length in E. rewrite <- app_assoc in E.
  destruct (Nat.leb_spec 1 id); [|lia]. destruct (Nat.leb_spec id (length (sends os) + length (sends [@FaultBegin R]) + length (sends os2))); [|lia].
  cbn [andb] in E. lia.
Qed.
Print Assumptions C36_none_left_pending.

(* ... and it does get through: it takes one turn for each request that was waiting *)
Lemma loop_through {R} n : forall m (os : list (cop R)) (c : client R) es, inv os c es -> cut m c -> length (cl_loop c) = n ->
  exists c' es', crun c (repeat FaultNext n) = Some (c', es') /\ cl_loop c' = [].
Proof.
  induction n as [|n IH]; intros m os c es I K E.
  - exists c, []. split; [reflexivity|]. now destruct (cl_loop c).
  - assert (S : exists c1 e1, cstep c FaultNext = Some (c1, e1) /\ length (cl_loop c1) = n).
    { destruct K as (_ & _ & L & _). cbn [cstep]. unfold fault_next. destruct (cl_loop c) as [|id rest]; [discriminate|].
      destruct (lget id (cl_lookup c)) as [r|] eqn:G; [|apply lget_None in G; exfalso; apply G, L; now left].
      eexists _, _. split; [reflexivity|]. cbn [cl_loop length] in *. lia. }
    destruct S as (c1 & e1 & S & E1). assert (K1 : cut m c1) by (apply (cut_step m os es c FaultNext c1 e1); [exact I|exact K|discriminate|exact S]).
    destruct (IH m _ c1 _ (inv_step _ _ _ _ _ _ I S) K1 E1) as (c' & es' & H & L').
    exists c', (e1 ++ es'). split; [|exact L']. cbn [repeat crun]. rewrite S, H. reflexivity.
Qed.
Theorem C36_fault_ends {R} (os : list (cop R)) c es c0 e0 : crun new_client os = Some (c, es) -> cl_conn c = false ->
  cstep c FaultBegin = Some (c0, e0) ->
  exists c' es', crun c0 (repeat FaultNext (length (cl_lookup c))) = Some (c', es') /\ cl_loop c' = [].
Proof.
  intros H K B. pose proof (new_inv _ _ _ H) as I1. pose proof (inv_step _ _ _ _ _ _ I1 B) as I0.
  cbn [cstep] in B. destruct (cl_faults c); [discriminate|]. destruct (cl_loop c); [|discriminate]. injection B as <- <-.
  pose proof (i_nodup _ _ _ I1) as ND. apply (loop_through _ 0 _ _ _ I0).
  - unfold cut. cbn [cl_conn cl_loop cl_lookup cl_next].
    exact (conj K (conj ND (conj (fun _ X => X) (conj (fun _ _ X => X) (conj (Nat.le_0_l _) ND))))).
  - cbn [cl_loop]. apply map_length.
Qed.
Print Assumptions C36_fault_ends.

(* ---- what is left pending ---- *)
(* A request sent when the connection is down is remembered and never written; nothing is
   then under way that would answer it *)
Theorem C36_sent_while_down_refuted : exists (os : list (cop nat)) c es id r,
  crun new_client os = Some (c, es) /\ sent_as os id r /\ ended id es = 0 /\ In (Unwritten id r) es /\
  cl_faults c = 0 /\ cl_loop c = [] /\ cl_connecting c = 0 /\ cl_conn c = false.
Proof.
  exists [StartCall; Connected; StartGot; Send 100; Lost; FaultBegin; FaultNext; Send 200].
  eexists _, _, 2, 200. split; [vm_compute; reflexivity|]. split; [exists 1; split; reflexivity|].
  vm_compute. repeat split. now right; right; left.
Qed.
Print Assumptions C36_sent_while_down_refuted.
(* ... and connecting again does not send it: a request is written in the step that sends it
   or never *)
Theorem C36_written_when_sent {R} (os : list (cop R)) o c es c' e id r :
  crun new_client os = Some (c, es) -> cstep c o = Some (c', e) -> In (Written id r) e ->
  o = Send r /\ id = S (length (sends os)) /\ cl_conn c = true.
Proof.
  intros H S I. apply new_inv in H. destruct o as [r0|resp| | | | | |]; cbn [cstep] in S.
  - injection S as <- <-. destruct (cl_conn c) eqn:K; destruct I as [I|[]]; [|discriminate].
    assert (r0 = r) as -> by congruence. split; [reflexivity|]. split; [|reflexivity]. pose proof (i_next _ _ _ H). congruence.
  - destruct (cl_conn c); [|discriminate]. injection S as S. unfold receive in S. destruct (lget _ _); [destruct resp|]; injection S as <- <-; destruct I as [I|[]]; discriminate.
  - destruct (cl_conn c); [|discriminate]. injection S as <- <-. destruct I.
  - destruct (cl_faults c); [discriminate|]. destruct (cl_loop c); [|discriminate]. injection S as <- <-. destruct I.
  - destruct (cl_loop c) eqn:L; [discriminate|]. injection S as S. unfold fault_next in S. rewrite L in S. destruct (lget _ _); injection S as <- <-; [destruct I as [I|[]]; discriminate|destruct I].
  - destruct (cl_conn c); [discriminate|]. injection S as <- <-. destruct I.
  - destruct (cl_connecting c); [discriminate|]. destruct (cl_conn c); [discriminate|]. injection S as <- <-. destruct I.
  - destruct (cl_tokens c); [discriminate|]. injection S as <- <-. destruct I.
Qed.
Print Assumptions C36_written_when_sent.
(* A reset after the server was lost does not wait for the connection: the item that
   _report_fault put in the queue is still there, so the subscription to the server's blocks
   is not written, and after the connection is made it still is not *)
Theorem C36_reset_does_not_wait_refuted : exists (os : list (cop nat)) c es,
  crun new_client (os ++ [StartCall; StartGot; Send 300; Connected]) = Some (c, es) /\
  cl_conn c = true /\ In (Unwritten 2 300) es /\ ~ In (Written 2 300) es /\ ended 2 es = 0.
Proof.
  exists [StartCall; Connected; StartGot; Send 100; Lost; FaultBegin; FaultNext]. eexists _, _.
  split; [vm_compute; reflexivity|]. vm_compute. repeat split; [right; right; now left|].
  intros X; repeat destruct X as [X|X]; try discriminate; exact X.
Qed.
Print Assumptions C36_reset_does_not_wait_refuted.

(* Non-trivial case *)
Definition hist : list (cop nat) :=
  [StartCall; Connected; StartGot; Send 100; Send 200; Receive (Stream 1); Send 300; Receive (Final 2); Receive (Final 2); Lost].
Example C36_ex : exists c, crun new_client hist = Some (c,
    [Written 1 100; Written 2 200; Handed 100 (Stream 1); Written 3 300; Handed 200 (Final 2); Logged 2]) /\ cl_conn c = false /\
  exists c', crun c [FaultBegin; FaultNext; Send 400; FaultNext] = Some (c', [Disconnected 100 1; Unwritten 4 400; Disconnected 300 3]) /\ cl_loop c' = [].
Proof. eexists. split; [vm_compute; reflexivity|]. split; [reflexivity|]. eexists. split; [vm_compute; reflexivity|reflexivity]. Qed.
