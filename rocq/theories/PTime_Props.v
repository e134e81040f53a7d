(* C110: however its points are thinned out, a scan takes the time its generator asks for. *)
From Coq Require Import String Ascii Bool ZArith QArith Qabs Qround Lia Lqa List.
From Verif Require Import Base Pmac_Model Pmac_Spec Pmac_Proofs.
Import ListNotations.
Local Open Scope list_scope.
Local Open Scope nat_scope.

(* ---- specification ---- *)
Section Spec.
Variable joined : ppoint -> ppoint -> bool.
Variable gap : ppoint -> ppoint -> list (Q * (string -> Q)).
(* the turnaround after a point: none if it is joined to the next one, or if there is none *)
Definition turn_time (p : ppoint) (rest : list ppoint) : Q :=
  match rest with
  | q :: _ => if joined p q then 0%Q else qsum (map fst (gap p q))
  | [] => 0%Q
  end.
(* the time for the first n of these points: their durations and the turnarounds after them *)
Fixpoint leg_time (n : nat) (points : list ppoint) : Q :=
  match n, points with
  | S k, p :: rest => (pt_dur p + turn_time p rest + leg_time k rest)%Q
  | _, _ => 0%Q
  end.
End Spec.
(* the points of a generator from one index up to another *)
Definition between (gen : list ppoint) (a b : nat) : list ppoint := firstn (b - a) (skipn a gen).

(* ---- proofs ---- *)
Section P.
Variable axes : list (string * (string * motor)).
Variable gen : list ppoint.
Variable steps_up_to : nat.
Variables joined same : ppoint -> ppoint -> bool.
Variable gap : ppoint -> ppoint -> list (Q * (string -> Q)).
Variable trig : trigger.
Variable interval : Q.
Variables PP BATCH : nat.
Notation add := (add axes trig).
Notation leg_time := (leg_time joined gap).
Notation turn_time := (turn_time joined gap).
Notation T st := (qsum (pf_time st)).

Lemma add_time st t mode p n pts st' : add st t mode p n pts = Ok st' ->
  (T st' == T st + t)%Q /\ pf_since st' = pf_since st.
Proof.
  unfold Pmac_Model.add, add_profile_point. destruct (negb (Qle_bool t MAX_MOVE_TIME)) eqn:B.
  - assert (E4 : (4 < t)%Q).
    { apply negb_true_iff in B. destruct (Qlt_le_dec 4 t) as [H|H]; [exact H|]. apply Qle_bool_iff in H. unfold MAX_MOVE_TIME in B. congruence. }
    assert (Hn : nsplit t = pieces t) by (apply nsplit_pieces; lra).
    destruct (pf_time st) as [|x r] eqn:PT; [discriminate|]. rewrite <- PT. cbv zeta. destruct (stretch_axes _ _ _ _) as [ax|]; [|discriminate].
    destruct (last_of (pf_lookup st)) as [s|]; [|discriminate]. unfold set_point. destruct (append_axes _ _ _) as [ax'|]; [|discriminate].
    intros X. injection X as <-. cbn [pf_time pf_since]. split; [|reflexivity]. rewrite qsum_app, qsum_repeat. apply Qplus_inj_l.
    rewrite Hn. field. unfold pieces. intro C. unfold Qeq in C. cbn in C. lia.
  - unfold set_point. destruct (append_axes _ _ _) as [ax'|]; [|discriminate]. intros X. injection X as <-. cbn [pf_time pf_since].
    split; [|reflexivity]. rewrite qsum_app. cbn. ring.
Qed.
Lemma turnaround_time g n : forall st st', add_turnaround axes trig st g n = Ok st' ->
  (T st' == T st + qsum (map fst g))%Q /\ pf_since st' = pf_since st.
Proof.
  induction g as [|[t f] r IH]; intros st st'; cbn [add_turnaround].
  - intros X. injection X as <-. split; [cbn; ring|reflexivity].
  - destruct (add st t _ _ _ _) as [st1|] eqn:A; [|discriminate]. intros X. apply add_time in A as [A1 A2]. apply IH in X as [X1 X2].
    split; [|congruence]. rewrite X1, A1. cbn [map fst]. unfold qsum. cbn [fold_right]. ring.
Qed.
Lemma gap_time st p q n st' : insert_gap axes gap trig st p q n = Ok st' ->
  (T st' == T st + qsum (map fst (gap p q)))%Q /\ pf_since st' = pf_since st.
Proof.
  unfold insert_gap. destruct (add_turnaround _ _ _ _ _) as [st1|] eqn:A; [|discriminate]. apply turnaround_time in A as [A1 A2].
  unfold fix_last. destruct (fix_axes _ _ _) as [ax|]; [|discriminate]. destruct (set_last (pf_mode st1) _); [|discriminate].
  destruct (set_last (pf_prog st1) _); [|discriminate]. intros X. injection X as <-. cbn [pf_time pf_since]. auto.
Qed.
Lemma since_pos x : negb (Qle_bool x 0) = false -> (x <= 0)%Q.
Proof. intros H. apply negb_false_iff in H. now apply Qle_bool_iff. Qed.
(* a point of a sparse profile: what is not in the profile yet is remembered; once an entry has been
   added nothing is *)
Lemma sparse_point_time st p n j s st' b : add_sparse_point axes trig st p n j s = Ok (st', b) ->
  (T st' + pf_since st' == T st + pf_since st + pt_dur p)%Q /\ (b = true -> pf_since st' = 0%Q) /\ (j = false -> b = true).
Proof.
  unfold add_sparse_point. cbv zeta. set (sk := if negb (Qle_bool (pf_since st) 0) && negb j then true else j && s).
  destruct sk eqn:SK.
  - cbn [negb orb]. destruct j; cbn [negb orb].
    + intros X. injection X as <- <-. cbn [set_since pf_time pf_since]. split; [ring|]. split; discriminate.
    + destruct (add (set_since st _) _ _ _ _ _) as [st2|] eqn:A; [|discriminate]. apply add_time in A as [A1 A2]. intros X. injection X as <- <-.
      cbn [set_since pf_time pf_since] in *. split; [rewrite A1; ring|]. split; reflexivity.
  - destruct (add st _ _ _ _ _) as [st1|] eqn:A; [|discriminate]. apply add_time in A as [A1 A2]. cbn [negb orb].
    destruct (add (set_since st1 _) _ _ _ _ _) as [st2|] eqn:B; [|discriminate]. apply add_time in B as [B1 B2]. intros X. injection X as <- <-.
    cbn [set_since pf_time pf_since] in *. split; [rewrite B1, A1; field|]. split; reflexivity.
Qed.
Lemma pair_time st p n j st' : add_generator_point_pair axes trig st p n j = Ok st' ->
  (T st' == T st + pt_dur p)%Q /\ pf_since st' = pf_since st.
Proof.
  unfold add_generator_point_pair. destruct (add st _ _ _ _ _) as [st1|] eqn:A; [|discriminate]. apply add_time in A as [A1 A2].
  intros B. apply add_time in B as [B1 B2]. split; [rewrite B1, A1; field|congruence].
Qed.
(* the loops over a slice; rem: all that is left *)
Lemma sparse_loop_time points : forall i pi st tl st' pi' early,
  points <> [] -> sparse_loop axes joined same gap trig PP points i pi st = Ok (st', pi', early) ->
  pi <= pi' /\
  (T st' + pf_since st' == T st + pf_since st + leg_time (if early then S pi' - pi else pi' - pi) (points ++ tl))%Q /\
  (early = true -> pf_since st' = 0%Q /\ pf_end st' = S pi' /\ S pi' - pi < length points) /\
  (early = false -> S (pi' - pi) = length points).
Proof.
  induction points as [|p rest IH]; intros i pi st tl st' pi' early NE; [congruence|]. cbn [sparse_loop]. destruct rest as [|q rest'].
  - intros X. injection X as <- <- <-. split; [lia|]. rewrite Nat.sub_diag. cbn [PTime_Props.leg_time]. split; [ring|]. split; [discriminate|reflexivity].
  - cbv zeta. destruct (add_sparse_point _ _ _ _ _ _ _) as [[st1 added]|] eqn:A; [|discriminate]. apply sparse_point_time in A as (A1 & A2 & A3).
    destruct (if joined p q then Ok st1 else insert_gap axes gap trig st1 p q (S pi)) as [st2|] eqn:G; [|discriminate].
    assert (G' : (T st2 == T st1 + turn_time p (q :: rest' ++ tl))%Q /\ pf_since st2 = pf_since st1).
    { cbn [PTime_Props.turn_time]. destruct (joined p q); [injection G as <-; split; [ring|reflexivity]|now apply gap_time in G]. }
    destruct G' as [G1 G2].
    destruct (added && exceeds PP st2) eqn:E.
    + apply andb_true_iff in E as [-> _]. intros X. injection X as <- <- <-. split; [lia|]. cbn [set_end pf_time pf_since pf_end].
      replace (S pi - pi) with 1 by lia. cbn [PTime_Props.leg_time app]. split; [|split; [|discriminate]].
      * rewrite G1, G2. transitivity (T st1 + pf_since st1 + turn_time p (q :: rest' ++ tl))%Q; [ring|]. rewrite A1. ring.
      * intros _. rewrite G2. split; [now apply A2|]. split; [reflexivity|]. cbn. lia.
    + intros X. apply (IH _ _ _ tl) in X as (X1 & X2 & X3 & X4); [|discriminate]. split; [lia|].
      assert (N : (if early then S pi' - pi else pi' - pi) = S (if early then S pi' - S pi else pi' - S pi)) by (destruct early; lia).
      rewrite N. cbn [PTime_Props.leg_time app]. split; [|split].
      * rewrite X2, G1, G2. cbn [app]. transitivity (T st1 + pf_since st1 + turn_time p (q :: rest' ++ tl) + leg_time (if early then S pi' - S pi else pi' - S pi) (q :: rest' ++ tl))%Q; [ring|].
        rewrite A1. ring.
      * intros Y. destruct (X3 Y) as (Y1 & Y2 & Y3). split; [exact Y1|]. split; [exact Y2|]. cbn [length] in *. lia.
      * intros Y. specialize (X4 Y). cbn [length] in *. lia.
Qed.
Lemma every_loop_time points : forall pi st tl st' pi' early,
  points <> [] -> every_loop axes joined gap trig PP points pi st = Ok (st', pi', early) ->
  pi <= pi' /\
  (T st' == T st + leg_time (if early then S pi' - pi else pi' - pi) (points ++ tl))%Q /\ pf_since st' = pf_since st /\
  (early = true -> pf_end st' = S pi' /\ S pi' - pi < length points) /\
  (early = false -> S (pi' - pi) = length points).
Proof.
  induction points as [|p rest IH]; intros pi st tl st' pi' early NE; [congruence|]. cbn [every_loop]. destruct rest as [|q rest'].
  - intros X. injection X as <- <- <-. split; [lia|]. rewrite Nat.sub_diag. cbn [PTime_Props.leg_time]. split; [ring|]. split; [reflexivity|]. split; [discriminate|reflexivity].
  - cbv zeta. destruct (add_generator_point_pair _ _ _ _ _ _) as [st1|] eqn:A; [|discriminate]. apply pair_time in A as (A1 & A2).
    destruct (if joined p q then Ok st1 else insert_gap axes gap trig st1 p q (S pi)) as [st2|] eqn:G; [|discriminate].
    assert (G' : (T st2 == T st1 + turn_time p (q :: rest' ++ tl))%Q /\ pf_since st2 = pf_since st1).
    { cbn [PTime_Props.turn_time]. destruct (joined p q); [injection G as <-; split; [ring|reflexivity]|now apply gap_time in G]. }
    destruct G' as [G1 G2].
    destruct (exceeds PP st2) eqn:E.
    + intros X. injection X as <- <- <-. split; [lia|]. cbn [set_end pf_time pf_since pf_end].
      replace (S pi - pi) with 1 by lia. cbn [PTime_Props.leg_time app]. split; [|split; [congruence|split; [|discriminate]]].
      * rewrite G1, A1. ring.
      * intros _. split; [reflexivity|]. cbn. lia.
    + intros X. apply (IH _ _ tl) in X as (X1 & X2 & X3 & X4 & X5); [|discriminate]. split; [lia|].
      assert (N : (if early then S pi' - pi else pi' - pi) = S (if early then S pi' - S pi else pi' - S pi)) by (destruct early; lia).
      rewrite N. cbn [PTime_Props.leg_time app]. split; [|split; [congruence|split]].
      * rewrite X2, G1, A1. cbn [app]. ring.
      * intros Y. destruct (X4 Y) as (Y2 & Y3). split; [exact Y2|]. cbn [length] in *. lia.
      * intros Y. specialize (X5 Y). cbn [length] in *. lia.
Qed.
Lemma leg_time_add a : forall b l, (leg_time (a + b) l == leg_time a l + leg_time b (skipn a l))%Q.
Proof.
  induction a as [|a IH]; intros b l; cbn [plus PTime_Props.leg_time skipn]; [ring|]. destruct l as [|p r].
  - destruct b; cbn; ring.
  - rewrite IH. ring.
Qed.
Lemma skipn_skipn' {A} a : forall b (l : list A), skipn a (skipn b l) = skipn (b + a) l.
Proof. intros b. induction b as [|b IH]; intros l; [reflexivity|]. destruct l as [|x r]; cbn [skipn plus]; [now rewrite skipn_nil|apply IH]. Qed.
Lemma between_skip a b c : a <= b -> skipn (b - a) (between gen a c) = between gen b c.
Proof.
  intros H. unfold between. rewrite skipn_firstn_comm, skipn_skipn'. f_equal; [lia|]. f_equal. lia.
Qed.
Lemma between_length a b : b <= length gen -> length (between gen a b) = b - a.
Proof. intros H. unfold between. rewrite firstn_length, skipn_length. lia. Qed.
Lemma some_points start points : start <= steps_up_to <= length gen -> get_some_points gen steps_up_to BATCH start = Some points ->
  points <> [] /\ start < steps_up_to /\ exists tl, between gen start steps_up_to = points ++ tl /\ (start + length points = steps_up_to -> tl = []).
Proof.
  intros Hs. unfold get_some_points. destruct (Nat.eqb_spec start steps_up_to) as [E|E]; [discriminate|].
  set (up := if Nat.ltb BATCH (steps_up_to - start) then BATCH + start + 1 else steps_up_to). intros X. injection X as <-.
  assert (U : start < up <= steps_up_to). { unfold up. destruct (Nat.ltb_spec BATCH (steps_up_to - start)); lia. }
  assert (L : length (firstn (up - start) (skipn start gen)) = up - start) by (rewrite firstn_length, skipn_length; lia).
  split; [|split; [lia|]].
  - intros C. rewrite C in L. cbn in L. lia.
  - exists (skipn (up - start) (between gen start steps_up_to)). split.
    + rewrite <- (firstn_skipn (up - start) (between gen start steps_up_to)) at 1. f_equal. unfold between. rewrite firstn_firstn. f_equal. lia.
    + rewrite L. intros Q. apply length_zero_iff_nil. rewrite skipn_length, between_length by lia. lia.
Qed.
Lemma last_split (points : list ppoint) p : last_of points = Some p -> exists ini, points = ini ++ [p].
Proof.
  unfold last_of. destruct (rev points) as [|x r] eqn:R; [discriminate|]. intros X. injection X as ->. exists (rev r).
  rewrite <- (rev_involutive points), R. reflexivity.
Qed.
Lemma leg_last (ini : list ppoint) p : (leg_time (S (length ini)) (ini ++ [p]) == leg_time (length ini) (ini ++ [p]) + pt_dur p)%Q.
Proof.
  rewrite <- Nat.add_1_r, leg_time_add, skipn_app, skipn_all, Nat.sub_diag. cbn [app skipn PTime_Props.leg_time PTime_Props.turn_time]. ring.
Qed.

Lemma sparse_batches_time fuel : forall start st st' b,
  start <= steps_up_to <= length gen -> (pf_since st == 0)%Q \/ start < steps_up_to ->
  sparse_batches axes gen steps_up_to joined same gap trig PP BATCH fuel start start st = Ok (st', b) ->
  let upto := if b then steps_up_to else pf_end st' in
  start <= upto <= steps_up_to /\ (start < steps_up_to -> start < upto) /\ (pf_since st' == 0)%Q /\
  (T st' == T st + pf_since st + leg_time (upto - start) (between gen start steps_up_to))%Q.
Proof.
  induction fuel as [|f IH]; intros start st st' b Hs Z; cbn [sparse_batches]; [discriminate|].
  destruct (get_some_points _ _ _ _) as [points|] eqn:GP.
  2:{ unfold get_some_points in GP. destruct (Nat.eqb_spec start steps_up_to) as [E|E]; [|discriminate]. intros X. injection X as <- <-. cbn zeta.
      destruct Z as [Z|Z]; [|lia]. split; [lia|]. split; [lia|]. split; [exact Z|]. subst start. rewrite Nat.sub_diag. cbn [PTime_Props.leg_time]. rewrite Z. ring. }
  destruct (some_points start points Hs GP) as (NE & Lt & tl & Htl & Hnil).
  destruct (sparse_loop _ _ _ _ _ _ _ _ _ _) as [[[st1 pi] early]|] eqn:SL; [|discriminate].
  apply (sparse_loop_time _ _ _ _ tl) in SL as (S1 & S2 & S3 & S4); [|exact NE]. rewrite <- Htl in S2.
  assert (Lb : length (between gen start steps_up_to) = steps_up_to - start) by (apply between_length; lia).
  assert (Lp : length points <= steps_up_to - start) by (rewrite <- Lb, Htl, app_length; lia).
  destruct early.
  - intros X. injection X as <- <-. destruct (S3 eq_refl) as (Y1 & Y2 & Y3). cbn zeta. rewrite Y2. split; [lia|]. split; [lia|]. rewrite Y1 in *.
    split; [reflexivity|]. rewrite <- S2. ring.
  - specialize (S4 eq_refl). destruct (Nat.eqb_spec (start + length points) steps_up_to) as [E|E].
    + specialize (Hnil E). subst tl. rewrite app_nil_r in Htl. destruct (last_of points) as [p|] eqn:LP; [|discriminate].
      destruct (add_sparse_point _ _ _ _ _ _ _) as [[st2 added]|] eqn:A; [|discriminate]. apply sparse_point_time in A as (A1 & A2 & A3).
      specialize (A2 (A3 eq_refl)). apply last_split in LP as (ini & LP).
      assert (Li : pi - start = length ini) by (rewrite LP, app_length in S4; cbn in S4; lia).
      assert (N : steps_up_to - start = S (length ini)) by (rewrite LP, app_length in E; cbn in E; lia).
      assert (R : (T st2 == T st + pf_since st + leg_time (steps_up_to - start) (between gen start steps_up_to))%Q).
      { rewrite N, Htl, LP, leg_last, <- LP, <- Htl, <- Li. rewrite A2 in A1. rewrite S2 in A1. lra. }
      assert (Epi : S pi = steps_up_to) by lia.
      destruct (added && exceeds PP st2) eqn:EX.
      * intros X. injection X as <- <-. cbn zeta. cbn [set_end pf_end pf_since pf_time]. rewrite Epi. split; [lia|]. split; [lia|]. rewrite A2. split; [reflexivity|exact R].
      * rewrite (proj2 (Nat.eqb_eq _ _) Epi). intros X. injection X as <- <-. cbn zeta. split; [lia|]. split; [lia|]. rewrite A2. split; [reflexivity|exact R].
    + destruct (Nat.eqb_spec pi steps_up_to) as [E2|E2]; [lia|]. intros X.
      apply IH in X; [|lia|right; lia]. cbn zeta in *. destruct X as (X1 & X2 & X3 & X4).
      split; [lia|]. split; [lia|]. split; [exact X3|]. rewrite X4.
      set (u := if b then steps_up_to else pf_end st') in *. replace (u - start) with ((pi - start) + (u - pi)) by lia.
      rewrite leg_time_add, between_skip by lia. rewrite S2. ring.
Qed.
Lemma every_batches_time fuel : forall start st st' b,
  start <= steps_up_to <= length gen ->
  every_batches axes gen steps_up_to joined gap trig PP BATCH fuel start start st = Ok (st', b) ->
  let upto := if b then steps_up_to else pf_end st' in
  start <= upto <= steps_up_to /\ (start < steps_up_to -> start < upto) /\ pf_since st' = pf_since st /\
  (T st' == T st + leg_time (upto - start) (between gen start steps_up_to))%Q.
Proof.
  induction fuel as [|f IH]; intros start st st' b Hs; cbn [every_batches]; [discriminate|].
  destruct (get_some_points _ _ _ _) as [points|] eqn:GP.
  2:{ unfold get_some_points in GP. destruct (Nat.eqb_spec start steps_up_to) as [E|E]; [|discriminate]. intros X. injection X as <- <-. cbn zeta.
      split; [lia|]. split; [lia|]. split; [reflexivity|]. subst start. rewrite Nat.sub_diag. cbn [PTime_Props.leg_time]. ring. }
  destruct (some_points start points Hs GP) as (NE & Lt & tl & Htl & Hnil).
  destruct (every_loop _ _ _ _ _ _ _ _) as [[[st1 pi] early]|] eqn:SL; [|discriminate].
  apply (every_loop_time _ _ _ tl) in SL as (S1 & S2 & S0 & S3 & S4); [|exact NE]. rewrite <- Htl in S2.
  assert (Lb : length (between gen start steps_up_to) = steps_up_to - start) by (apply between_length; lia).
  assert (Lp : length points <= steps_up_to - start) by (rewrite <- Lb, Htl, app_length; lia).
  destruct early.
  - intros X. injection X as <- <-. destruct (S3 eq_refl) as (Y2 & Y3). cbn zeta. rewrite Y2. split; [lia|]. split; [lia|].
    split; [exact S0|]. exact S2.
  - specialize (S4 eq_refl). destruct (Nat.eqb_spec (start + length points) steps_up_to) as [E|E].
    + specialize (Hnil E). subst tl. rewrite app_nil_r in Htl. destruct (last_of points) as [p|] eqn:LP; [|discriminate].
      destruct (add_generator_point_pair _ _ _ _ _ _) as [st2|] eqn:A; [|discriminate]. apply pair_time in A as (A1 & A2).
      apply last_split in LP as (ini & LP).
      assert (Li : pi - start = length ini) by (rewrite LP, app_length in S4; cbn in S4; lia).
      assert (N : steps_up_to - start = S (length ini)) by (rewrite LP, app_length in E; cbn in E; lia).
      assert (R : (T st2 == T st + leg_time (steps_up_to - start) (between gen start steps_up_to))%Q).
      { rewrite N, Htl, LP, leg_last, <- LP, <- Htl, <- Li. rewrite S2 in A1. lra. }
      assert (Epi : S pi = steps_up_to) by lia.
      destruct (exceeds PP st2) eqn:EX.
      * intros X. injection X as <- <-. cbn zeta. cbn [set_end pf_end pf_since pf_time]. rewrite Epi. split; [lia|]. split; [lia|]. split; [congruence|exact R].
      * rewrite (proj2 (Nat.eqb_eq _ _) Epi). intros X. injection X as <- <-. cbn zeta. split; [lia|]. split; [lia|]. split; [congruence|exact R].
    + destruct (Nat.eqb_spec pi steps_up_to) as [E2|E2]; [lia|]. intros X.
      apply IH in X; [|lia]. cbn zeta in *. destruct X as (X1 & X2 & X3 & X4).
      split; [lia|]. split; [lia|]. split; [congruence|]. rewrite X4.
      set (u := if b then steps_up_to else pf_end st') in *. replace (u - start) with ((pi - start) + (u - pi)) by lia.
      rewrite leg_time_add, between_skip by lia. rewrite S2. ring.
Qed.

(* what is sent, and whether the tail off is there, is left alone while points are added *)
Definition stays (a b : prof) : Prop := pf_sent b = pf_sent a /\ pf_tail b = pf_tail a.
Lemma stays_refl a : stays a a. Proof. split; reflexivity. Qed.
Lemma stays_trans a b c : stays a b -> stays b c -> stays a c.
Proof. intros [A1 A2] [B1 B2]. split; congruence. Qed.
Lemma add_stays st t mode p n pts st' : add st t mode p n pts = Ok st' -> stays st st'.
Proof.
  unfold Pmac_Model.add, add_profile_point. destruct (negb (Qle_bool t MAX_MOVE_TIME)).
  - destruct (pf_time st) as [|x r]; [discriminate|]. cbv zeta. destruct (stretch_axes _ _ _ _) as [ax|]; [|discriminate].
    destruct (last_of (pf_lookup st)) as [s|]; [|discriminate]. unfold set_point. destruct (append_axes _ _ _) as [ax'|]; [|discriminate].
    intros X. injection X as <-. split; reflexivity.
  - unfold set_point. destruct (append_axes _ _ _) as [ax'|]; [|discriminate]. intros X. injection X as <-. split; reflexivity.
Qed.
Lemma turnaround_stays g n : forall st st', add_turnaround axes trig st g n = Ok st' -> stays st st'.
Proof.
  induction g as [|[t f] r IH]; intros st st'; cbn [add_turnaround]; [intros X; injection X as <-; apply stays_refl|].
  destruct (add st t _ _ _ _) as [st1|] eqn:A; [|discriminate]. intros X. eapply stays_trans; [eapply add_stays; eauto|eauto].
Qed.
Lemma gap_stays st p q n st' : insert_gap axes gap trig st p q n = Ok st' -> stays st st'.
Proof.
  unfold insert_gap. destruct (add_turnaround _ _ _ _ _) as [st1|] eqn:A; [|discriminate]. apply turnaround_stays in A as [A1 A2].
  unfold fix_last. destruct (fix_axes _ _ _) as [ax|]; [|discriminate]. destruct (set_last (pf_mode st1) _); [|discriminate].
  destruct (set_last (pf_prog st1) _); [|discriminate]. intros X. injection X as <-. split; cbn [pf_sent pf_tail]; auto.
Qed.
Lemma sparse_point_stays st p n j s st' b : add_sparse_point axes trig st p n j s = Ok (st', b) -> stays st st'.
Proof.
  unfold add_sparse_point. cbv zeta. set (sk := if negb (Qle_bool (pf_since st) 0) && negb j then true else j && s).
  destruct sk eqn:SK.
  - cbn [negb orb]. destruct j; cbn [negb orb]; [intros X; injection X as <- <-; split; reflexivity|].
    destruct (add (set_since st _) _ _ _ _ _) as [st2|] eqn:A; [|discriminate]. apply add_stays in A as [A1 A2]. intros X. injection X as <- <-.
    split; [exact A1|exact A2].
  - destruct (add st _ _ _ _ _) as [st1|] eqn:A; [|discriminate]. apply add_stays in A as [A1 A2]. cbn [negb orb].
    destruct (add (set_since st1 _) _ _ _ _ _) as [st2|] eqn:B; [|discriminate]. apply add_stays in B as [B1 B2]. intros X. injection X as <- <-.
    unfold stays. cbn [set_since pf_sent pf_tail] in *. split; congruence.
Qed.
Lemma pair_stays st p n j st' : add_generator_point_pair axes trig st p n j = Ok st' -> stays st st'.
Proof.
  unfold add_generator_point_pair. destruct (add st _ _ _ _ _) as [st1|] eqn:A; [|discriminate]. intros B.
  eapply stays_trans; eapply add_stays; eauto.
Qed.
Lemma gap_stays' st p q n st' : (if joined p q then Ok st else insert_gap axes gap trig st p q n) = Ok st' -> stays st st'.
Proof. destruct (joined p q); [intros X; injection X as <-; apply stays_refl|apply gap_stays]. Qed.
Lemma sparse_loop_stays points : forall i pi st st' pi' early,
  sparse_loop axes joined same gap trig PP points i pi st = Ok (st', pi', early) -> stays st st'.
Proof.
  induction points as [|p rest IH]; intros i pi st st' pi' early; cbn [sparse_loop]; [intros X; injection X as <- <- <-; apply stays_refl|].
  destruct rest as [|q rest']; [intros X; injection X as <- <- <-; apply stays_refl|]. cbv zeta.
  destruct (add_sparse_point _ _ _ _ _ _ _) as [[st1 added]|] eqn:A; [|discriminate]. apply sparse_point_stays in A.
  destruct (if joined p q then Ok st1 else insert_gap axes gap trig st1 p q (S pi)) as [st2|] eqn:G; [|discriminate]. apply gap_stays' in G.
  pose proof (stays_trans _ _ _ A G) as AG.
  destruct (added && exceeds PP st2); [intros X; injection X as <- <- <-; exact AG|]. intros X. apply IH in X. eapply stays_trans; eauto.
Qed.
Lemma every_loop_stays points : forall pi st st' pi' early,
  every_loop axes joined gap trig PP points pi st = Ok (st', pi', early) -> stays st st'.
Proof.
  induction points as [|p rest IH]; intros pi st st' pi' early; cbn [every_loop]; [intros X; injection X as <- <- <-; apply stays_refl|].
  destruct rest as [|q rest']; [intros X; injection X as <- <- <-; apply stays_refl|]. cbv zeta.
  destruct (add_generator_point_pair _ _ _ _ _ _) as [st1|] eqn:A; [|discriminate]. apply pair_stays in A.
  destruct (if joined p q then Ok st1 else insert_gap axes gap trig st1 p q (S pi)) as [st2|] eqn:G; [|discriminate]. apply gap_stays' in G.
  pose proof (stays_trans _ _ _ A G) as AG.
  destruct (exceeds PP st2); [intros X; injection X as <- <- <-; exact AG|]. intros X. apply IH in X. eapply stays_trans; eauto.
Qed.
Lemma sparse_batches_stays fuel : forall a c st st' b,
  sparse_batches axes gen steps_up_to joined same gap trig PP BATCH fuel a c st = Ok (st', b) -> stays st st'.
Proof.
  induction fuel as [|f IH]; intros a c st st' b; cbn [sparse_batches]; [discriminate|].
  destruct (get_some_points _ _ _ _) as [points|]; [|intros X; injection X as <- <-; apply stays_refl].
  destruct (sparse_loop _ _ _ _ _ _ _ _ _ _) as [[[st1 pi] early]|] eqn:SL; [|discriminate]. apply sparse_loop_stays in SL.
  destruct early; [intros X; injection X as <- <-; exact SL|].
  destruct (Nat.eqb (a + length points) steps_up_to).
  - destruct (last_of points) as [p|]; [|discriminate]. destruct (add_sparse_point _ _ _ _ _ _ _) as [[st2 added]|] eqn:A; [|discriminate].
    apply sparse_point_stays in A. pose proof (stays_trans _ _ _ SL A) as SA.
    destruct (added && exceeds PP st2); [intros X; injection X as <- <-; exact SA|].
    destruct (Nat.eqb (S pi) steps_up_to); [intros X; injection X as <- <-; exact SA|]. intros X. apply IH in X. eapply stays_trans; eauto.
  - destruct (Nat.eqb pi steps_up_to); [intros X; injection X as <- <-; exact SL|]. intros X. apply IH in X. eapply stays_trans; eauto.
Qed.
Lemma every_batches_stays fuel : forall a c st st' b,
  every_batches axes gen steps_up_to joined gap trig PP BATCH fuel a c st = Ok (st', b) -> stays st st'.
Proof.
  induction fuel as [|f IH]; intros a c st st' b; cbn [every_batches]; [discriminate|].
  destruct (get_some_points _ _ _ _) as [points|]; [|intros X; injection X as <- <-; apply stays_refl].
  destruct (every_loop _ _ _ _ _ _ _ _) as [[[st1 pi] early]|] eqn:SL; [|discriminate]. apply every_loop_stays in SL.
  destruct early; [intros X; injection X as <- <-; exact SL|].
  destruct (Nat.eqb (a + length points) steps_up_to).
  - destruct (last_of points) as [p|]; [|discriminate]. destruct (add_generator_point_pair _ _ _ _ _ _) as [st2|] eqn:A; [|discriminate].
    apply pair_stays in A. pose proof (stays_trans _ _ _ SL A) as SA.
    destruct (exceeds PP st2); [intros X; injection X as <- <-; exact SA|].
    destruct (Nat.eqb (S pi) steps_up_to); [intros X; injection X as <- <-; exact SA|]. intros X. apply IH in X. eapply stays_trans; eauto.
  - destruct (Nat.eqb pi steps_up_to); [intros X; injection X as <- <-; exact SL|]. intros X. apply IH in X. eapply stays_trans; eauto.
Qed.

Notation calculate_more := (calculate_more axes gen steps_up_to joined same gap trig interval PP BATCH).
(* the tail off takes this long *)
Definition tail_takes (t : Q) : Prop :=
  exists p pts, nth_error gen (steps_up_to - 1) = Some p /\ tail_off axes p interval = Ok (t, pts).
Lemma tail_off_time st st' : add_tail_off axes gen steps_up_to trig interval st = Ok st' ->
  exists t, tail_takes t /\ (T st' == T st + t)%Q /\ pf_end st' = steps_up_to /\ pf_tail st' = true /\ pf_sent st' = pf_sent st.
Proof.
  unfold add_tail_off. destruct (nth_error gen (steps_up_to - 1)) as [p|] eqn:N; [|discriminate].
  destruct (tail_off axes p interval) as [[t pts]|] eqn:TO; [|discriminate]. destruct (add st _ _ _ _ _) as [st1|] eqn:A; [|discriminate].
  pose proof (add_stays _ _ _ _ _ _ _ A) as [A3 A4]. apply add_time in A as [A1 A2]. intros X. injection X as <-. exists t.
  split; [exists p, pts; auto|]. cbn [set_tail set_end pf_time pf_end pf_tail pf_sent]. auto.
Qed.
Lemma tail_takes_one t t' : tail_takes t -> tail_takes t' -> t = t'.
Proof. intros (p & pts & A & B) (p' & pts' & A' & B'). congruence. Qed.
Lemma calculate_time st start st' : start <= steps_up_to <= length gen -> (pf_tail st = true -> start = steps_up_to /\ pf_end st = steps_up_to) ->
  calculate_more st start = Ok st' ->
  start <= pf_end st' <= steps_up_to /\ (start < steps_up_to -> start < pf_end st') /\ pf_sent st' = pf_sent st /\
  (pf_tail st = true -> pf_tail st' = true) /\ (pf_tail st' = true -> pf_end st' = steps_up_to) /\
  (start = steps_up_to -> pf_tail st' = true) /\
  exists t, (T st' == T st + leg_time (pf_end st' - start) (between gen start steps_up_to) + t)%Q /\
    (if pf_tail st' then if pf_tail st then t == 0 else tail_takes t else t == 0)%Q.
Proof.
  intros Hs HT. unfold Pmac_Model.calculate_more. cbv zeta. set (st0 := set_since st 0).
  set (r := if is_every trig then _ else _). destruct r as [[st1 b]|] eqn:R; [|discriminate].
  assert (Q : let upto := if b then steps_up_to else pf_end st1 in
    start <= upto <= steps_up_to /\ (start < steps_up_to -> start < upto) /\
    (T st1 == T st + leg_time (upto - start) (between gen start steps_up_to))%Q /\ stays st st1 /\
    (start = steps_up_to -> b = true /\ pf_end st1 = pf_end st)).
  { cbn zeta. unfold r in R. destruct (is_every trig).
    - pose proof (every_batches_stays _ _ _ _ _ _ R) as S. pose proof (every_batches_time _ _ _ _ _ Hs R) as (A1 & A2 & _ & A4).
      split; [exact A1|]. split; [exact A2|]. split; [exact A4|]. split; [exact S|]. intros ->. rewrite Nat.sub_diag in R.
      cbn [every_batches] in R. unfold get_some_points in R. rewrite Nat.eqb_refl in R. injection R as <- <-. split; reflexivity.
    - pose proof (sparse_batches_stays _ _ _ _ _ _ R) as S.
      assert (Z0 : (pf_since st0 == 0)%Q \/ start < steps_up_to) by (left; reflexivity).
      pose proof (sparse_batches_time _ _ _ _ _ Hs Z0 R) as (A1 & A2 & _ & A4).
      split; [exact A1|]. split; [exact A2|]. split; [rewrite A4; unfold st0; cbn [set_since pf_time pf_since]; ring|]. split; [exact S|]. intros ->. rewrite Nat.sub_diag in R.
      cbn [sparse_batches] in R. unfold get_some_points in R. rewrite Nat.eqb_refl in R. injection R as <- <-. split; reflexivity. }
  cbn zeta in Q. destruct Q as (Q1 & Q2 & Q3 & [Q4 Q5] & Q6). clear R. destruct (b && negb (pf_tail st1)) eqn:B.
  - apply andb_true_iff in B as [-> B]. apply negb_true_iff in B. rewrite Q5 in B. intros X. apply tail_off_time in X as (t & X1 & X2 & X3 & X4 & X5).
    rewrite X3, X4, B. split; [lia|]. split; [auto|]. split; [congruence|]. split; [auto|]. split; [auto|]. split; [auto|].
    exists t. split; [rewrite X2, Q3; ring|exact X1].
  - intros X. injection X as <-. destruct b; cbn [andb] in B.
    + apply negb_false_iff in B. rewrite Q5 in B. destruct (HT B) as [E1 E2]. destruct (Q6 E1) as [_ Q7]. rewrite Q5, B, Q7, E2.
      split; [lia|]. split; [lia|]. split; [exact Q4|]. split; [auto|]. split; [auto|]. split; [auto|].
      exists 0%Q. split; [rewrite Q3; ring|reflexivity].
    + split; [exact Q1|]. split; [exact Q2|]. split; [exact Q4|]. split; [congruence|]. rewrite Q5. split.
      * intros Y. destruct (HT Y) as [E1 _]. destruct (Q6 E1) as [E _]. discriminate.
      * split; [intros Y; destruct (Q6 Y); discriminate|]. exists 0%Q. split; [rewrite Q3; ring|]. destruct (pf_tail st); reflexivity.
Qed.

(* ---- the scan ---- *)
Notation on_configure := (on_configure axes gen steps_up_to joined same gap trig interval PP BATCH).
Notation update_step := (update_step axes gen steps_up_to joined same gap trig interval PP BATCH).
(* reports of how far the controller is, one after the other *)
Fixpoint reported (st : prof) (l : list nat) : result perr prof :=
  match l with
  | [] => Ok st
  | n :: r => match update_step st n with Err e => Err e | Ok st1 => reported st1 r end
  end.
(* the ticks (of a microsecond) in all that was sent *)
Definition sent_ticks (st : prof) : Q := qsum (map (fun b => inject_Z (zsum (b_ticks b))) (pf_sent st)).
Definition blocks (st : prof) : Q := inject_Z (Z.of_nat (length (pf_sent st))).
Definition account (st : prof) (x : Q) : Prop :=
  (Qabs (sent_ticks st + 1000000 * T st - 1000000 * x) <= blocks st * (1 # 2))%Q.
Lemma qsum_scale l : (qsum (map (fun t => t * 1000000) l) == 1000000 * qsum l)%Q.
Proof. unfold qsum. induction l as [|x r IH]; cbn [map fold_right]; [ring|]. rewrite IH. ring. Qed.
Lemma write_account st x : account st x -> account (write_profile_points PP st) x.
Proof.
  unfold account, sent_ticks, blocks, write_profile_points. cbn [pf_sent pf_time]. rewrite map_app, qsum_app, app_length. cbn [map length].
  intros H. pose proof (ticks_drift (firstn PP (pf_time st)) 0 ltac:(split; lra)) as D. change TICKS_PER_S with (1000000)%Q in D.
  rewrite qsum_scale in D.
  assert (S : (T st == qsum (firstn PP (pf_time st)) + qsum (skipn PP (pf_time st)))%Q) by (rewrite <- qsum_app, firstn_skipn; reflexivity).
  unfold b_ticks at 2. cbn [qsum fold_right]. rewrite Nat.add_1_r, Nat2Z.inj_succ, <- Z.add_1_r, inject_Z_plus.
  apply Qabs_Qle_condition. apply Qabs_Qle_condition in H. rewrite S in H.
  set (a := qsum (map (fun b => inject_Z (zsum (b_ticks b))) (pf_sent st))) in *. clearbody a.
  set (k := inject_Z (zsum (ticks_of 0 (firstn PP (pf_time st))))) in *. clearbody k.
  set (u := qsum (firstn PP (pf_time st))) in *. clearbody u. set (v := qsum (skipn PP (pf_time st))) in *. clearbody v.
  set (n := inject_Z (Z.of_nat (length (pf_sent st)))) in *. clearbody n. change (inject_Z 1) with 1%Q. lra.
Qed.
Lemma account_more st st' x y : account st x -> pf_sent st' = pf_sent st -> (T st' == T st + y)%Q -> account st' (x + y).
Proof.
  unfold account, sent_ticks, blocks. intros H -> E. eapply Qle_trans; [|exact H]. apply Qle_lteq. right. apply Qabs_wd. rewrite E. ring.
Qed.
Lemma account_eq st x y : (x == y)%Q -> account st x -> account st y.
Proof. unfold account. intros E H. now rewrite <- E. Qed.
(* how far a scan from start is: the points up to pf_end, and the tail off if it is there *)
Definition so_far (start : nat) (up tail : Q) (st : prof) : Prop :=
  start <= pf_end st <= steps_up_to /\ (pf_tail st = true -> pf_end st = steps_up_to /\ tail_takes tail) /\
  account st (up + leg_time (pf_end st - start) (between gen start steps_up_to) + if pf_tail st then tail else 0).
Lemma more_so_far start up st st' : steps_up_to <= length gen -> (exists tail, so_far start up tail st) ->
  calculate_generator_profile axes gen steps_up_to joined same gap trig interval PP BATCH st (pf_end st) false = Ok st' ->
  (exists tail, so_far start up tail (write_profile_points PP st')) /\ (pf_end st = steps_up_to -> pf_tail st' = true).
Proof.
  intros HL (tail & H1 & H2 & H3) X. cbn [calculate_generator_profile] in X. unfold calculate_generator_profile in X.
  apply calculate_time in X as (A1 & A2 & A3 & A4 & A5 & A6 & t & A7 & A8); [|lia|intros Y; split; apply (H2 Y)].
  split; [|exact A6].
  assert (L : (leg_time (pf_end st' - start) (between gen start steps_up_to) ==
    leg_time (pf_end st - start) (between gen start steps_up_to) + leg_time (pf_end st' - pf_end st) (between gen (pf_end st) steps_up_to))%Q).
  { replace (pf_end st' - start) with ((pf_end st - start) + (pf_end st' - pf_end st)) by lia. rewrite leg_time_add, between_skip by lia. reflexivity. }
  exists (if pf_tail st' then if pf_tail st then tail else t else tail). split; [cbn [write_profile_points pf_end]; lia|].
  split; [cbn [write_profile_points pf_end pf_tail]; intros Y; rewrite Y in *; split; [auto|destruct (pf_tail st) eqn:PT; [now apply H2|exact A8]]|].
  apply write_account. cbn [write_profile_points pf_end pf_tail].
  eapply account_eq; [|eapply account_more; [exact H3|exact A3|rewrite A7, <- Qplus_assoc; reflexivity]].
  rewrite L. destruct (pf_tail st') eqn:PT'.
  - destruct (pf_tail st) eqn:PT; [rewrite A8; ring|ring].
  - rewrite A8. destruct (pf_tail st) eqn:PT; [specialize (A4 eq_refl); discriminate|ring].
Qed.
Lemma update_so_far start up st n st' : steps_up_to <= length gen -> (exists tail, so_far start up tail st) -> update_step st n = Ok st' -> exists tail, so_far start up tail st'.
Proof.
  intros HL H. unfold Pmac_Model.update_step. cbv zeta.
  set (r1 := if (_ && _)%bool then _ else Ok st). destruct r1 as [st1|] eqn:R1; [|discriminate].
  assert (H1 : exists tail, so_far start up tail st1).
  { unfold r1 in R1. destruct (Nat.ltb (pf_end st) steps_up_to && Nat.ltb (length (pf_lookup st) - n) PP); [|injection R1 as <-; exact H].
    destruct (calculate_generator_profile _ _ _ _ _ _ _ _ _ _ _ _ _) as [s|] eqn:C; [|discriminate]. injection R1 as <-.
    eapply more_so_far; eauto. }
  clear R1 r1. destruct (Nat.eqb (pf_end st1) steps_up_to && negb (Nat.eqb (length (pf_time st1)) 0)); [|intros X; injection X as <-; exact H1].
  destruct (calculate_generator_profile _ _ _ _ _ _ _ _ _ _ _ _ _) as [s|] eqn:C; [|intros X; cbv beta iota in X; discriminate X].
  cbv beta iota. destruct (is_every trig && negb (Nat.eqb (length (pf_time (write_profile_points PP s))) 0)); [discriminate|]. intros X. injection X as <-.
  eapply more_so_far; eauto.
Qed.
Lemma configure_so_far start st : start <= steps_up_to <= length gen -> on_configure start = Ok st ->
  exists p up tail, nth_error gen start = Some p /\ run_up_time axes p interval = Ok up /\ so_far start up tail st.
Proof.
  intros HS. unfold Pmac_Model.on_configure, calculate_generator_profile. destruct (run_up _ _ _ _ _ _) as [st0|] eqn:RU; [|discriminate].
  unfold run_up in RU. destruct (nth_error gen start) as [p|] eqn:N; [|discriminate]. destruct (run_up_time axes p interval) as [up|] eqn:U; [|discriminate].
  pose proof (add_stays _ _ _ _ _ _ _ RU) as [S1 S2]. apply add_time in RU as [T1 _]. cbn [prof_init pf_sent pf_tail pf_time] in *.
  destruct (calculate_more st0 start) as [st1|] eqn:C; [|discriminate]. intros X. injection X as <-.
  apply calculate_time in C as (A1 & A2 & A3 & A4 & A5 & A6 & t & A7 & A8); [|exact HS|rewrite S2; discriminate].
  exists p, up, t. split; [reflexivity|]. split; [exact U|]. split; [exact A1|]. rewrite S2 in A8. split.
  - cbn [write_profile_points pf_tail pf_end]. intros Y. rewrite Y in A8. auto.
  - apply write_account. cbn [write_profile_points pf_end pf_tail]. unfold account, sent_ticks, blocks. rewrite A3, S1. cbn [map qsum fold_right length].
    rewrite A7, T1. cbn [qsum fold_right]. change (inject_Z (Z.of_nat 0)) with 0%Q.
    match goal with |- (Qabs ?e <= _)%Q => assert (E : (e == 0)%Q) end; [|rewrite E; change (Qabs 0) with 0%Q; lra].
    destruct (pf_tail st1); [ring|rewrite A8; ring].
Qed.

(* At any time of a scan with any triggers, however far the controller says it is: what was sent takes, with
   what is kept to be sent, the time of the run up, of each point done once, of the turnarounds after them
   and, at the end, of the tail off; within half a microsecond for each block sent *)
Theorem C110_scan_time start reports st0 st :
  start <= steps_up_to <= length gen -> on_configure start = Ok st0 -> reported st0 reports = Ok st ->
  exists p up tail, nth_error gen start = Some p /\ run_up_time axes p interval = Ok up /\
    start <= pf_end st <= steps_up_to /\ (pf_tail st = true -> pf_end st = steps_up_to /\ tail_takes tail) /\
    (Qabs (sent_ticks st + 1000000 * qsum (pf_time st) -
           1000000 * (up + leg_time (pf_end st - start) (between gen start steps_up_to) + if pf_tail st then tail else 0))
     <= blocks st * (1 # 2))%Q.
Proof.
  intros HS C R. destruct (configure_so_far start st0 HS C) as (p & up & tail & N & U & S).
  assert (F : forall l s, (exists t0, so_far start up t0 s) -> reported s l = Ok st -> exists t1, so_far start up t1 st).
  { induction l as [|n r IH]; intros s Hs Rs; cbn [reported] in Rs; [injection Rs as <-; exact Hs|].
    destruct (update_step s n) as [s1|] eqn:US; [|discriminate]. apply (IH s1); [|exact Rs]. eapply update_so_far; eauto. lia. }
  destruct (F reports st0 (ex_intro _ tail S) R) as (tail' & F1 & F2 & F3). exists p, up, tail'. auto 10.
Qed.
(* all sent: the controller was told to take that time *)
Theorem C110_whole_scan_time start reports st0 st :
  start <= steps_up_to <= length gen -> on_configure start = Ok st0 -> reported st0 reports = Ok st ->
  pf_tail st = true -> pf_time st = [] ->
  exists p up tail, nth_error gen start = Some p /\ run_up_time axes p interval = Ok up /\ tail_takes tail /\
    (Qabs (sent_ticks st - 1000000 * (up + leg_time (steps_up_to - start) (between gen start steps_up_to) + tail)) <= blocks st * (1 # 2))%Q.
Proof.
  intros HS C R HT HE. destruct (C110_scan_time start reports st0 st HS C R) as (p & up & tail & A1 & A2 & A3 & A4 & A5).
  destruct (A4 HT) as [E Tk]. exists p, up, tail. split; [exact A1|]. split; [exact A2|]. split; [exact Tk|]. rewrite HT, HE, E in A5.
  eapply Qle_trans; [|exact A5]. apply Qle_lteq. right. apply Qabs_wd. cbn [qsum fold_right]. ring.
Qed.

(* a straight row: all its points are joined with the same velocity, the last is not joined to the next point *)
Fixpoint straight (row : list ppoint) : Prop :=
  match row with
  | p :: rest => (0 < pt_dur p)%Q /\ match rest with q :: _ => joined p q = true /\ same p q = true | [] => True end /\ straight rest
  | [] => True
  end.
Notation sparse_loop := (sparse_loop axes joined same gap trig PP).
Lemma set_since_since st a b : set_since (set_since st a) b = set_since st b.
Proof. reflexivity. Qed.
Lemma skip_row ini : forall p q rest i pi st, straight (ini ++ [p]) -> joined p q = false -> (0 <= pf_since st)%Q -> (ini <> [] \/ 0 < pf_since st)%Q ->
  exists t, (t == pf_since st + qsum (map pt_dur (ini ++ [p])))%Q /\
  sparse_loop (ini ++ p :: q :: rest) i pi st =
  match add (set_since st t) t AVERAGE_PREV_TO_CURRENT END_OF_ROW (i + S (length ini)) (at_axes axes (pt_up p)) with
  | Err e => Err e
  | Ok st2 => match insert_gap axes gap trig (set_since st2 0) p q (pi + S (length ini)) with
              | Err e => Err e
              | Ok st3 => if exceeds PP st3 then Ok (set_end st3 (pi + S (length ini)), pi + length ini, true)
                          else sparse_loop (q :: rest) (i + S (length ini)) (pi + S (length ini)) st3
              end
  end.
Proof.
  induction ini as [|a ini IH]; intros p q rest i pi st St J H0 H1.
  - destruct H1 as [H1|H1]; [congruence|]. exists (pf_since st + pt_dur p)%Q. split; [cbn; ring|]. cbn [app length].
    replace (i + 1) with (S i) by lia. replace (pi + 1) with (S pi) by lia. replace (pi + 0) with pi by lia. cbn [Pmac_Model.sparse_loop]. cbv zeta. rewrite J.
    unfold add_sparse_point. cbv zeta.
    assert (B : Qle_bool (pf_since st) 0 = false). { destruct (Qle_bool (pf_since st) 0) eqn:B; [|reflexivity]. apply Qle_bool_iff in B. lra. }
    rewrite B. cbn [negb andb orb]. cbn [set_since pf_since].
    assert (B2 : Qle_bool (pf_since st + pt_dur p) 0 = false).
    { destruct St as (D & _). destruct (Qle_bool (pf_since st + pt_dur p) 0) eqn:B2; [|reflexivity]. apply Qle_bool_iff in B2. lra. }
    rewrite B2. cbn [negb]. destruct (add _ _ _ _ _ _) as [st2|]; reflexivity.
  - cbn [app] in St. destruct St as (D & Sm & St).
    assert (E : exists b tl, ini ++ p :: q :: rest = b :: tl /\ joined a b = true /\ same a b = true).
    { destruct ini as [|b r]; cbn [app] in *; [exists p, (q :: rest)|exists b, (r ++ p :: q :: rest)]; split; [reflexivity|exact Sm|reflexivity|exact Sm]. }
    destruct E as (b & tl & E & Jb & Sb).
    destruct (IH p q rest (S i) (S pi) (set_since st (pf_since st + pt_dur a)) St J) as (t & Ht & Hr); cbn [set_since pf_since]; [lra|right; lra|].
    exists t. split.
    + rewrite Ht. cbn [set_since pf_since app map]. unfold qsum. cbn [fold_right]. ring.
    + cbn [app]. rewrite E in *. cbn [Pmac_Model.sparse_loop]. cbv zeta. rewrite Jb, Sb. unfold add_sparse_point at 1. cbv zeta.
      rewrite andb_false_r. cbn [negb andb orb].
      transitivity (sparse_loop (b :: tl) (S i) (S pi) (set_since st (pf_since st + pt_dur a)%Q)); [reflexivity|]. rewrite Hr.
      rewrite set_since_since. cbn [length]. replace (S i + S (length ini)) with (i + S (S (length ini))) by lia.
      replace (S pi + S (length ini)) with (pi + S (S (length ini))) by lia. replace (S pi + length ini) with (pi + S (length ini)) by lia. reflexivity.
Qed.
(* in a sparse profile a straight row of two points or more is one entry: at the upper bound of its last point,
   with the time of all of them, as the end of a row; then comes the turnaround *)
Theorem C110_straight_row ini p q rest i pi st : ini <> [] -> straight (ini ++ [p]) -> joined p q = false -> (pf_since st == 0)%Q ->
  exists t, (t == qsum (map pt_dur (ini ++ [p])))%Q /\
  sparse_loop (ini ++ p :: q :: rest) i pi st =
  match add (set_since st t) t AVERAGE_PREV_TO_CURRENT END_OF_ROW (i + S (length ini)) (at_axes axes (pt_up p)) with
  | Err e => Err e
  | Ok st2 => match insert_gap axes gap trig (set_since st2 0) p q (pi + S (length ini)) with
              | Err e => Err e
              | Ok st3 => if exceeds PP st3 then Ok (set_end st3 (pi + S (length ini)), pi + length ini, true)
                          else sparse_loop (q :: rest) (i + S (length ini)) (pi + S (length ini)) st3
              end
  end.
Proof.
  intros N St J Z. destruct (skip_row ini p q rest i pi st St J) as (t & Ht & H); [rewrite Z; apply Qle_refl|now left|].
  exists t. split; [rewrite Ht, Z; ring|exact H].
Qed.
End P.

(* ---- concrete cases ---- *)
(* two rows of three points of one axis, half a second each, and back; the second row is not straight *)
Definition ex_axes : list (string * (string * motor)) := [("x", ("a", mkMotor 10 100 1000 (-1000) true))]%string.
Definition ex_pt (d lo mid up : Q) : ppoint := mkPt d (fun _ => mid) (fun _ => lo) (fun _ => up).
Definition ex_gen : list ppoint :=
  [ex_pt (1 # 2) 0 (1 # 2) 1; ex_pt (1 # 2) 1 (3 # 2) 2; ex_pt (1 # 2) 2 (5 # 2) 3;
   ex_pt (1 # 2) 3 (5 # 2) 2; ex_pt (1 # 2) 2 (7 # 4) (3 # 2); ex_pt (1 # 2) (3 # 2) 1 0].
Definition ex_joined (p q : ppoint) : bool := Qeq_bool (pt_up p "x") (pt_low q "x") && negb (Qeq_bool (pt_up p "x") 3).
Definition ex_same (p q : ppoint) : bool := Qeq_bool (pt_up p "x" - pt_low p "x") (pt_up q "x" - pt_low q "x").
Definition ex_gap (p q : ppoint) : list (Q * (string -> Q)) := [((1 # 10), fun _ => 4); ((1 # 5), fun _ => 3)]%Q.
Definition ex_conf t := on_configure ex_axes ex_gen 6 ex_joined ex_same ex_gap t (1 # 100) 3 2 0.
Definition ex_run t l := match ex_conf t with Ok st => reported ex_axes ex_gen 6 ex_joined ex_same ex_gap t (1 # 100) 3 2 st l | Err e => Err e end.
(* 0.2 s of run up, six points, 0.3 s of turnaround and 0.5 s of tail off: the same with gates for rows, in fewer
   entries, as with every point *)
Example C110_ex_scan :
  Qred (leg_time ex_joined ex_gap 6 (between ex_gen 0 6)) = (33 # 10)%Q /\
  match ex_run ROW_GATE [3; 6; 8; 9] with
  | Ok st => (pf_tail st, pf_end st, pf_time st) = (true, 6, []) /\ map b_ticks (pf_sent st) =
      [[200000; 1500000; 100000]; [200000; 250000; 250000]; [250000; 250000; 250000]; [250000; 500000]]%Z /\ (sent_ticks st == 4000000)%Q
  | Err _ => False
  end /\
  match ex_run EVERY_POINT [3; 6; 8; 9; 12; 14] with
  | Ok st => (pf_tail st, pf_end st, pf_time st) = (true, 6, []) /\ length (pf_lookup st) = 16 /\ (sent_ticks st == 4000000)%Q
  | Err _ => False
  end.
Proof. vm_compute. repeat split. Qed.
(* the first of its rows is straight *)
Example C110_ex_row : straight ex_joined ex_same (firstn 3 ex_gen) /\
  match nth_error ex_gen 2, nth_error ex_gen 3 with Some p, Some q => ex_joined p q = false | _, _ => False end.
Proof. vm_compute. repeat split. Qed.

Print Assumptions C110_scan_time.
Print Assumptions C110_whole_scan_time.
Print Assumptions C110_straight_row.
