(** Proofs about the turnaround. *)
From Coq Require Import String Bool ZArith QArith Qabs Qfield Lia Lqa List Sorted.
From Verif Require Import Base Pmac_Model Motion_Model Motion_Props Turn_Spec.
Import ListNotations.
Local Open Scope list_scope.
Local Open Scope Q_scope.

(** ** The combined times *)

Lemma insert_among : forall t l s, among s (uniq_insert t l) <-> t == s \/ among s l.
Proof.
  intros t l s. unfold among. induction l as [|x r IH]; cbn [uniq_insert].
  - split; [intros (y & [<-|[]] & E); auto | intros [E|(y & [] & _)]; exists t; cbn; auto].
  - destruct (Qeq_bool t x) eqn:E.
    + apply Qeq_bool_iff in E. split; [auto|]. intros [H|H]; [|exact H]. exists x. split; [left; reflexivity | lra].
    + destruct (Qle_bool t x) eqn:L.
      * split; [intros (y & [<-|Y] & H); eauto | intros [H|(y & Y & H)]; [exists t; cbn; auto | exists y; cbn in *; auto]].
      * split.
        -- intros (y & [<-|Y] & H); [right; exists x; cbn; auto|]. destruct (proj1 IH (ex_intro _ y (conj Y H))) as [K|(z & Z & K)]; [auto | right; exists z; cbn; auto].
        -- intros [H|(y & [<-|Y] & H)].
           ++ destruct (proj2 IH (or_introl H)) as (z & Z & K). exists z. cbn. auto.
           ++ exists x. cbn. auto.
           ++ destruct (proj2 IH (or_intror (ex_intro _ y (conj Y H)))) as (z & Z & K). exists z. cbn. auto.
Qed.
Lemma insert_sorted : forall t l, StronglySorted Qlt l -> StronglySorted Qlt (uniq_insert t l).
Proof.
  intros t l. induction l as [|x r IH]; intros S; cbn [uniq_insert]; [repeat constructor|].
  inversion S as [|? ? S' F]; subst. destruct (Qeq_bool t x) eqn:E; [exact S|]. apply Qeq_bool_neq in E. destruct (Qle_bool t x) eqn:L.
  - apply Qle_bool_iff in L. constructor; [exact S|]. assert (t < x) by (apply Qle_lteq in L; destruct L; [assumption | contradiction]).
    constructor; [assumption|]. eapply Forall_impl; [|exact F]. intros y Y. cbn in Y. lra.
  - apply qle_false in L. constructor; [now apply IH|]. apply Forall_forall. intros y Y.
    destruct (proj1 (insert_among t r y)) as [K|(z & Z & K)]; [exists y; split; [exact Y | reflexivity] | lra |].
    rewrite Forall_forall in F. specialize (F z Z). lra.
Qed.
Lemma sorted_all : forall l, StronglySorted Qlt (fold_right uniq_insert [] l) /\ forall s, among s (fold_right uniq_insert [] l) <-> among s l.
Proof.
  intros l. induction l as [|t r [S A]]; cbn [fold_right].
  - split; [constructor | reflexivity].
  - split; [now apply insert_sorted|]. intros s. rewrite insert_among, A. unfold among. cbn [In]. split.
    + intros [H|(y & Y & H)]; eauto.
    + intros (y & [<-|Y] & H); eauto.
Qed.

Definition times_of (arrays : list (axis * list (Q * Q))) : list Q := flat_map (fun aa => map fst (snd aa)) arrays.
Lemma profile_first : forall T l t, profile_to T l -> In t (map fst l) -> 0 <= t <= T.
Proof.
  intros T l t (S & t0 & v0 & mid & t1 & v1 & -> & Z0 & Z1) I. cbn [map fst] in *. rewrite map_app in *. cbn [map fst] in *.
  assert (L : t0 <= t1).
  { inversion S as [|? ? _ F]; subst. rewrite Forall_forall in F. apply Qlt_le_weak, F. apply in_or_app. right. left. reflexivity. }
  destruct I as [<-|I]; [lra|].
  inversion S as [|? ? S' F]; subst. rewrite Forall_forall in F. pose proof (F t I). apply in_app_or in I. destruct I as [I|[<-|[]]]; [|lra].
  assert (G : t < t1).
  { clear - S' I. induction (map fst mid) as [|y r IH]; [destruct I|]. cbn [app] in S'. inversion S' as [|? ? S'' F]; subst.
    rewrite Forall_forall in F. destruct I as [<-|I]; [apply F, in_or_app; right; left; reflexivity | now apply IH]. }
  lra.
Qed.
(** The times after the first: later than 0, in order, no other, none after [T], [T] among them. *)
Lemma combined_spec : forall arrays T, arrays <> [] -> (forall a l, In (a, l) arrays -> profile_to T l) ->
  StronglySorted Qlt (combined_times arrays) /\ (forall s, among s (combined_times arrays) <-> 0 < s /\ among s (times_of arrays)) /\
  (forall s, among s (times_of arrays) -> 0 <= s <= T) /\ among T (times_of arrays) /\ 0 < T.
Proof.
  intros arrays T N P. destruct (sorted_all (times_of arrays)) as [S A]. unfold combined_times. fold (times_of arrays).
  assert (B : forall s, among s (times_of arrays) -> 0 <= s <= T).
  { intros s (t & I & E). apply in_flat_map in I. destruct I as ([a l] & I & J). pose proof (profile_first T l t (P a l I) J). lra. }
  assert (Z : among 0 (times_of arrays) /\ among T (times_of arrays) /\ 0 < T).
  { destruct arrays as [|[a l] r]; [contradiction|]. destruct (P a l (or_introl eq_refl)) as (S' & t0 & v0 & mid & t1 & v1 & -> & Z0 & Z1).
    assert (L : t0 < t1). { cbn in S'. inversion S' as [|? ? _ F]; subst. rewrite Forall_forall in F. apply F. rewrite map_app. apply in_or_app. right. left. reflexivity. }
    split; [|split; [|lra]].
    - exists t0. split; [cbn; auto | exact Z0].
    - exists t1. split; [|exact Z1]. unfold times_of. cbn [flat_map snd]. apply in_or_app. left. cbn [map fst]. right. rewrite map_app. apply in_or_app. right. left. reflexivity. }
  destruct Z as (Z0 & ZT & T0).
  destruct (fold_right uniq_insert [] (times_of arrays)) as [|x r] eqn:E.
  { exfalso. destruct (proj2 (A 0) Z0) as (y & [] & _). }
  inversion S as [|? ? S' F]; subst. rewrite Forall_forall in F. cbn [tl].
  assert (X : x == 0).
  { destruct (proj2 (A 0) Z0) as (y & [<-|Y] & H); [exact H|]. specialize (F y Y). 
    destruct (B x) as [L _]; [apply A; exists x; split; [left|]; reflexivity|]. lra. }
  split; [exact S'|]. split; [|auto].
  intros s. split.
  - intros (y & Y & H). split; [specialize (F y Y); lra|]. apply A. exists y. split; [right; exact Y | exact H].
  - intros [L M]. destruct (proj2 (A s) M) as (y & [<-|Y] & H); [lra|]. exists y. auto.
Qed.

Lemma forall2_trans : forall l1 l2 l3, Forall2 Qeq l1 l2 -> Forall2 Qeq l2 l3 -> Forall2 Qeq l1 l3.
Proof. intros l1 l2 l3 G. revert l3. induction G as [|x y l1 l2 H G IHG]; intros r' IH; inversion IH; subst; constructor; [lra | auto]. Qed.
Lemma reached_shift : forall l s s', s == s' -> Forall2 Qeq (reached s l) (reached s' l).
Proof. intros l. induction l as [|i l IHl]; intros s s' H; cbn [reached]; constructor; [lra|]. apply IHl. lra. Qed.
Lemma reached_intervals : forall ts t, Forall2 Qeq (reached t (time_intervals t ts)) ts.
Proof.
  intros ts. induction ts as [|c r IH]; intros t; cbn [time_intervals reached]; constructor; [lra|].
  eapply forall2_trans; [apply (reached_shift _ _ c); lra | apply IH].
Qed.
Lemma intervals_pos : forall ts t, StronglySorted Qlt (t :: ts) -> Forall (fun i => 0 < i) (time_intervals t ts).
Proof.
  intros ts. induction ts as [|c r IH]; intros t S; cbn [time_intervals]; constructor.
  - inversion S as [|? ? _ F]; subst. inversion F; subst. lra.
  - apply IH. inversion S; subst; assumption.
Qed.
Lemma intervals_length : forall ts t, length (time_intervals t ts) = length ts.
Proof. intros ts. induction ts as [|c r IH]; intros t; cbn; auto. Qed.

(** ** One axis *)

Lemma close_refl : forall c t, c == t -> isclose c t = true.
Proof.
  intros c t E. unfold isclose. apply Qle_bool_iff. rewrite !qabs_eq. setoid_replace (c - t) with 0 by lra. pose proof (Qabs_nonneg t). rewrite (Qabs_pos 0) by lra. lra.
Qed.
Definition on_the_way (v0 t0 tp prev : Q) (rest : list (Q * Q)) : Prop :=
  match rest with [] => True | (t1, v1) :: _ => prev == v0 + (tp - t0) / (t1 - t0) * (v1 - v0) /\ tp < t1 end.
Lemma axis_follows : forall x, motion x -> forall ts t0 v0 rest tp since prev pos,
  follows x ((t0, v0) :: rest) -> StronglySorted Qlt (map fst ((t0, v0) :: rest)) -> t0 <= tp -> since == tp - t0 -> pos == x tp ->
  on_the_way v0 t0 tp prev rest -> StronglySorted Qlt (tp :: ts) ->
  (forall n, In n rest -> among (fst n) ts) -> (forall c, In c ts -> exists n, In n rest /\ c <= fst n) ->
  (forall c n, In c ts -> In n rest -> isclose c (fst n) = true -> c == fst n) ->
  exists ps, axis_positions ((t0, v0) :: rest) since prev pos (combine ts (time_intervals tp ts)) = Ok ps /\ Forall2 (fun p t => p == x t) ps ts.
Proof.
  intros x X ts. induction ts as [|c ts IH]; intros t0 v0 rest tp since prev pos Fo So L Si Po W St Am Up Sep; cbn [time_intervals combine axis_positions].
  { eexists. split; [reflexivity | constructor]. }
  destruct rest as [|[t1 v1] rest]. { destruct (Up c (or_introl eq_refl)) as (n & [] & _). }
  destruct W as [Wv Wt]. inversion Fo as [|? ? ? ? ? Fx Fo']; subst. inversion So as [|? ? So' Fs]; subst. cbn [map fst] in *.
  inversion St as [|? ? St' Fst]; subst. inversion Fst as [|? ? Lc Fst']; subst.
  assert (T01 : t0 < t1) by (inversion Fs; subst; assumption).
  assert (C1 : c <= t1).
  { destruct (Am (t1, v1) (or_introl eq_refl)) as (s & [<-|S] & E); cbn [fst] in E; [lra|]. inversion St' as [|? ? _ F]; subst. rewrite Forall_forall in F. specialize (F s S). lra. }
  assert (V : forall t, t0 <= t -> t <= t1 -> x t == x t0 + v0 * (t - t0) + (v1 - v0) / (t1 - t0) / 2 * ((t - t0) * (t - t0))) by exact Fx.
  destruct (isclose c t1) eqn:Cl.
  - assert (E : c == t1) by (apply (Sep c (t1, v1)); [left; reflexivity | left; reflexivity | exact Cl]). cbn [tl].
    destruct (IH t1 v1 rest c 0 v1 (pos + (prev + v1) * (c - tp) / 2)) as (ps & Hp & Fp); auto.
    + lra.
    + lra.
    + rewrite Po, (V tp) by lra. rewrite (X c t1 E), (V t1) by lra. rewrite Wv, E. field. lra.
    + destruct rest as [|[t2 v2] r]; cbn [on_the_way]; [exact I|]. inversion So' as [|? ? _ F]; subst. cbn [map fst] in F. inversion F as [|? ? T12 _]; subst. cbn [fst] in T12. split; [|lra]. rewrite E. field. lra.
    + intros n N. destruct (Am n (or_intror N)) as (s & [<-|S] & H); [|exists s; auto]. exfalso.
      inversion So' as [|? ? _ F]; subst. rewrite Forall_forall in F. specialize (F (fst n) (in_map fst _ _ N)). lra.
    + intros d D. destruct (Up d (or_intror D)) as (n & [<-|N] & H); [|eauto]. exfalso. cbn [fst] in H. inversion St' as [|? ? _ F]; subst. rewrite Forall_forall in F. specialize (F d D). lra.
    + intros d n D N. apply Sep; right; assumption.
    + rewrite Hp. eexists. split; [reflexivity|]. constructor; [|exact Fp].
      rewrite Po, (V tp) by lra. rewrite (X c t1 E), (V t1) by lra. rewrite Wv, E. field. lra.
  - assert (Ct : c < t1). { apply Qle_lteq in C1. destruct C1 as [H|H]; [exact H|]. rewrite (close_refl c t1 H) in Cl. discriminate. }
    destruct (IH t0 v0 ((t1, v1) :: rest) c (since + (c - tp)) (v0 + (since + (c - tp)) / (t1 - t0) * (v1 - v0)) (pos + (prev + (v0 + (since + (c - tp)) / (t1 - t0) * (v1 - v0))) * (c - tp) / 2)) as (ps & Hp & Fp); auto.
    + lra.
    + rewrite Si. lra.
    + rewrite Po, (V tp) by lra. rewrite (V c) by lra. rewrite Wv, Si. field. lra.
    + cbn [on_the_way]. split; [|exact Ct]. rewrite Si. setoid_replace (tp - t0 + (c - tp)) with (c - t0) by ring. reflexivity.
    + intros n N. destruct (Am n N) as (s & [<-|S] & H); [|exists s; auto]. exfalso. destruct N as [<-|N]; cbn [fst] in H; [lra|].
      inversion So' as [|? ? _ F]; subst. rewrite Forall_forall in F. specialize (F (fst n) (in_map fst _ _ N)). lra.
    + intros d D. apply Up. right. exact D.
    + intros d n D. apply Sep. right. exact D.
    + rewrite Hp. eexists. split; [reflexivity|]. constructor; [|exact Fp].
      rewrite Po, (V tp) by lra. rewrite (V c) by lra. rewrite Wv, Si. field. lra.
Qed.

(** ** There is a motion for every profile *)
Fixpoint move (nodes : list (Q * Q)) (x0 : Q) (t : Q) : Q :=
  match nodes with
  | [] => x0
  | (t0, v0) :: rest =>
      match rest with
      | [] => x0 + v0 * (t - t0)
      | (t1, v1) :: _ =>
          if Qle_bool t t1 then x0 + v0 * (t - t0) + (v1 - v0) / (t1 - t0) / 2 * ((t - t0) * (t - t0))
          else move rest (x0 + (v0 + v1) / 2 * (t1 - t0)) t
      end
  end.
Lemma qle_bool_eq : forall s t u, s == t -> Qle_bool s u = Qle_bool t u.
Proof.
  intros s t u E. destruct (Qle_bool s u) eqn:A; destruct (Qle_bool t u) eqn:B; auto.
  - apply Qle_bool_iff in A. apply qle_false in B. lra.
  - apply Qle_bool_iff in B. apply qle_false in A. lra.
Qed.
Lemma move_motion : forall nodes x0, motion (move nodes x0).
Proof.
  intros nodes. induction nodes as [|[t0 v0] rest IH]; intros x0 s t E; cbn [move]; [reflexivity|].
  destruct rest as [|[t1 v1] r]; [rewrite E; reflexivity|]. rewrite (qle_bool_eq s t t1 E). destruct (Qle_bool t t1); [rewrite E; reflexivity | now apply IH].
Qed.
Lemma move_first : forall t0 v0 rest x0 t, t == t0 -> StronglySorted Qlt (map fst ((t0, v0) :: rest)) -> move ((t0, v0) :: rest) x0 t == x0.
Proof.
  intros t0 v0 rest x0 t E S. cbn [move]. destruct rest as [|[t1 v1] r]; [rewrite E; ring|].
  cbn [map fst] in S. inversion S as [|? ? _ F]; subst. inversion F; subst.
  assert (L : Qle_bool t t1 = true) by (apply Qle_bool_iff; lra). rewrite L. setoid_replace (t - t0) with 0 by lra. ring.
Qed.
Lemma follows_ext : forall f g nodes t0, (forall t, t0 <= t -> f t == g t) -> (forall n, In n nodes -> t0 <= fst n) -> StronglySorted Qlt (map fst nodes) -> follows f nodes -> follows g nodes.
Proof.
  intros f g nodes b H B S F. induction F as [n|t0 v0 t1 v1 l X F IH]; [constructor|]. pose proof (B (t0, v0) (or_introl eq_refl)) as B0. cbn [fst] in B0. constructor.
  - intros t L0 L1. rewrite <- (H t), <- (H t0) by lra. now apply X.
  - apply IH; [intros n N; apply B; right; exact N|]. cbn [map] in S. inversion S; subst; assumption.
Qed.
Lemma move_follows : forall nodes x0, nodes <> [] -> StronglySorted Qlt (map fst nodes) -> follows (move nodes x0) nodes.
Proof.
  intros nodes. induction nodes as [|[t0 v0] rest IH]; intros x0 N S; [contradiction|]. destruct rest as [|[t1 v1] r]; [constructor|].
  pose proof S as S0. cbn [map fst] in S. inversion S as [|? ? S' F]; subst. assert (T : t0 < t1) by (inversion F; subst; assumption). constructor.
  - intros t L0 L1. rewrite (move_first t0 v0 _ x0 t0) by (reflexivity || exact S0). cbn [move]. apply Qle_bool_iff in L1. rewrite L1. reflexivity.
  - eapply (follows_ext (move ((t1, v1) :: r) (x0 + (v0 + v1) / 2 * (t1 - t0))) _ _ t1); [| |exact S'|apply IH; [discriminate | exact S']].
    + intros t L. destruct (Qle_bool t t1) eqn:E.
      * assert (Et : t == t1) by (apply Qle_bool_iff in E; lra). rewrite (move_first t1 v1 r _ t Et S').
        change (move ((t0, v0) :: (t1, v1) :: r) x0 t) with (if Qle_bool t t1 then x0 + v0 * (t - t0) + (v1 - v0) / (t1 - t0) / 2 * ((t - t0) * (t - t0)) else move ((t1, v1) :: r) (x0 + (v0 + v1) / 2 * (t1 - t0)) t).
        rewrite E, Et. field. lra.
      * change (move ((t0, v0) :: (t1, v1) :: r) x0 t) with (if Qle_bool t t1 then x0 + v0 * (t - t0) + (v1 - v0) / (t1 - t0) / 2 * ((t - t0) * (t - t0)) else move ((t1, v1) :: r) (x0 + (v0 + v1) / 2 * (t1 - t0)) t).
        rewrite E. reflexivity.
    + intros n [<-|I]; [cbn; lra|]. inversion S' as [|? ? _ F']; subst. rewrite Forall_forall in F'. apply Qlt_le_weak, F', in_map, I.
Qed.
Lemma follow_exists : forall l x0, StronglySorted Qlt (map fst l) -> l <> [] -> hd 0 (map fst l) == 0 ->
  exists x, motion x /\ follows x l /\ x 0 == x0.
Proof.
  intros l x0 S N Z. exists (move l x0). split; [apply move_motion|]. split; [now apply move_follows|].
  destruct l as [|[t0 v0] r]; [contradiction|]. apply move_first; [symmetry; exact Z | exact S].
Qed.

Lemma among_eq : forall s t l, s == t -> among s l -> among t l.
Proof. intros s t l E (y & Y & H). exists y. split; [exact Y | lra]. Qed.
Lemma all_follow : forall arrays ts T start, StronglySorted Qlt (0 :: ts) ->
  (forall a l, In (a, l) arrays -> profile_to T l) ->
  (forall a l n, In (a, l) arrays -> In n l -> 0 < fst n -> among (fst n) ts) ->
  (forall c, In c ts -> c <= T) ->
  (forall a l n c, In (a, l) arrays -> In n l -> In c ts -> isclose c (fst n) = true -> c == fst n) ->
  exists m, all_positions arrays start (combine ts (time_intervals 0 ts)) = Ok m /\
    Forall2 (fun al ap => fst ap = fst al /\ length (snd ap) = length ts /\
      forall x, motion x -> follows x (snd al) -> x 0 == start (fst (fst al)) -> Forall2 (fun p t => p == x t) (snd ap) ts) arrays m.
Proof.
  intros arrays ts T start S. induction arrays as [|[a l] r IH]; intros P Am Up Sep; cbn [all_positions].
  { eexists. split; [reflexivity | constructor]. }
  destruct (P a l (or_introl eq_refl)) as (So & t0 & v0 & mid & t1 & v1 & E & Z0 & Z1).
  destruct IH as (m & Hm & Fm).
  { intros. eapply P. right. eassumption. }
  { intros b k n I. apply (Am b k). right. exact I. }
  { exact Up. }
  { intros b k n c I. apply (Sep b k). right. exact I. }
  assert (K : forall x, motion x -> follows x l -> x 0 == start (fst a) ->
    exists ps, axis_positions l 0 v0 (start (fst a)) (combine ts (time_intervals 0 ts)) = Ok ps /\ Forall2 (fun p t => p == x t) ps ts).
  { intros x X Fx S0. rewrite E in *. apply axis_follows with (tp := 0); auto.
    - lra.
    - lra.
    - symmetry. exact S0.
    - assert (Hn : exists n rest, mid ++ [(t1, v1)] = n :: rest) by (destruct mid as [|n mid]; cbn; eauto).
      destruct Hn as ([t2 v2] & rest & Hn). rewrite Hn in *. cbn [on_the_way]. cbn [map fst] in So. inversion So as [|? ? _ Fs]; subst. inversion Fs; subst. split; [|lra].
      rewrite Z0. field. lra.
    - intros n N. apply (Am a ((t0, v0) :: mid ++ [(t1, v1)])); [left; reflexivity | right; exact N |].
      cbn [map fst] in So. inversion So as [|? ? _ Fs]; subst. rewrite Forall_forall in Fs. specialize (Fs (fst n) (in_map fst _ _ N)). lra.
    - intros c C. exists (t1, v1). split; [apply in_or_app; right; left; reflexivity|]. cbn [fst]. rewrite Z1. now apply Up.
    - intros c n C N. apply (Sep a ((t0, v0) :: mid ++ [(t1, v1)])); [left; reflexivity | right; exact N | exact C]. }
  destruct (follow_exists l (start (fst a)) So) as (x & X & Fx & S0).
  { rewrite E. discriminate. }
  { rewrite E. cbn. exact Z0. }
  destruct (K x X Fx S0) as (ps & Hp & Fp). rewrite Hm.
  assert (G : match l with [] => Err TIndex | (_, v) :: _ => match axis_positions l 0 v (start (fst a)) (combine ts (time_intervals 0 ts)) with Err e => Err e | Ok l0 => Ok ((a, l0) :: m) end end = Ok ((a, ps) :: m)).
  { rewrite E at 1. rewrite Hp. reflexivity. }
  exists ((a, ps) :: m). split; [exact G|]. constructor; [|exact Fm]. cbn [fst snd]. split; [reflexivity|]. split.
  - clear - Fp. induction Fp; cbn; congruence.
  - intros y Y Fy Sy. destruct (K y Y Fy Sy) as (ps' & Hp' & Fp'). rewrite Hp in Hp'. injection Hp' as <-. exact Fp'.
Qed.
