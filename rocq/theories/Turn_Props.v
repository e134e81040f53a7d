(** C59: what the motors do between two points that are not joined. *)
From Coq Require Import String Bool ZArith QArith Qabs Qfield Lia Lqa List Sorted.
From Verif Require Import Base Pmac_Model Motion_Model Motion_Props Turn_Spec Turn_Proofs.
Import ListNotations.
Local Open Scope list_scope.
Local Open Scope Q_scope.

(** What np.isclose sees as the same: within 1e-5 of the second, and 1e-8. *)
Definition seen_same (a b : Q) : Prop := Qabs (a - b) <= (1 # 100000000) + (1 # 100000) * Qabs b.
Lemma isclose_seen a b : isclose a b = true <-> seen_same a b.
Proof. unfold isclose, seen_same. rewrite Qle_bool_iff, !qabs_eq. reflexivity. Qed.
(** The times of the nodes are either equal or further apart than np.isclose can see. *)
Definition apart (arrays : list (axis * list (Q * Q))) : Prop :=
  forall a l n b k o, In (a, l) arrays -> In n l -> In (b, k) arrays -> In o k -> seen_same (fst n) (fst o) -> fst n == fst o.

Lemma isclose_eq : forall s s' t, s == s' -> isclose s t = isclose s' t.
Proof.
  intros s s' t E. unfold isclose. apply qle_bool_eq. rewrite !qabs_eq. rewrite E. reflexivity.
Qed.
Lemma among_times : forall arrays s, among s (times_of arrays) <-> exists a l n, In (a, l) arrays /\ In n l /\ fst n == s.
Proof.
  intros arrays s. split.
  - intros (t & I & E). apply in_flat_map in I. destruct I as ([a l] & I & J). cbn [snd] in J. apply in_map_iff in J. destruct J as (n & <- & J). exists a, l, n. auto.
  - intros (a & l & n & I & J & E). exists (fst n). split; [|exact E]. apply in_flat_map. exists (a, l). split; [exact I|]. cbn. now apply in_map.
Qed.
Lemma forall2_at : forall x ps ts l1, motion x -> Forall2 Qeq l1 ts -> Forall2 (fun p t => p == x t) ps ts -> Forall2 (fun p t => p == x t) ps l1.
Proof.
  intros x ps ts l1 X R K. revert l1 R. induction K as [|p t ps l2 H K IH]; intros l1 R; inversion R; subst; constructor; [|now apply IH].
  rewrite H. apply X. symmetry. assumption.
Qed.
Lemma calculate_ok : forall arrays start T, arrays <> [] -> (forall a l, In (a, l) arrays -> profile_to T l) -> apart arrays ->
  exists is m, calculate_profile arrays start = Ok (is, m) /\
    Forall (fun i => 0 < i) is /\ (exists f l, reached 0 is = f ++ [l] /\ l == T) /\
    (forall a l n, In (a, l) arrays -> In n l -> 0 < fst n -> among (fst n) (reached 0 is)) /\
    Forall2 (fun al ap => fst ap = fst al /\ forall x, motion x -> follows x (snd al) -> x 0 == start (fst (fst al)) ->
                                                Forall2 (fun p t => p == x t) (snd ap) (reached 0 is)) arrays m.
Proof.
  intros arrays start T N P Sep. destruct (combined_spec arrays T N P) as (S & A & B & AT & T0). set (ts := combined_times arrays) in *.
  assert (S0 : StronglySorted Qlt (0 :: ts)).
  { constructor; [exact S|]. apply Forall_forall. intros c C. destruct (proj1 (A c)) as [L _]; [exists c; split; [exact C | reflexivity] | exact L]. }
  assert (Am : forall a l n, In (a, l) arrays -> In n l -> 0 < fst n -> among (fst n) ts).
  { intros a l n I J L. apply A. split; [exact L|]. apply among_times. exists a, l, n. split; [exact I|]. split; [exact J | reflexivity]. }
  destruct (all_follow arrays ts T start S0 P Am) as (m & Hm & Fm).
  { intros c C. apply B, A. exists c. split; [exact C | reflexivity]. }
  { intros a l n c I J C H. destruct (proj1 (A c)) as [_ M]; [exists c; split; [exact C | reflexivity]|]. apply among_times in M.
    destruct M as (b & k & o & I' & J' & E). rewrite <- E. apply (Sep b k o a l n); auto. apply isclose_seen. rewrite (isclose_eq _ c); [exact H | exact E]. }
  exists (time_intervals 0 ts), m. pose proof (reached_intervals ts 0) as R. split; [|split; [|split; [|split]]].
  - unfold calculate_profile. fold ts. rewrite Hm. reflexivity.
  - now apply intervals_pos.
  - assert (TT : among T ts) by (apply A; split; [exact T0 | exact AT]).
    assert (U : forall c, among c ts -> c <= T) by (intros c C; apply B, A, C).
    assert (L : forall l, StronglySorted Qlt l -> among T l -> (forall c, among c l -> c <= T) -> forall l', Forall2 Qeq l' l -> exists f y, l' = f ++ [y] /\ y == T).
    { clear. intros l. induction l as [|c r IH]; intros S (s & I & E) U l' R; [destruct I|]. inversion R as [|y ? l'' ? Hy R']; subst.
      destruct I as [->|I].
      - destruct r as [|d r]; [inversion R'; subst; exists [], y; split; [reflexivity | lra]|]. exfalso.
        inversion S as [|? ? _ F]; subst. inversion F as [|? ? K _]; subst. specialize (U d (ex_intro _ d (conj (or_intror (or_introl eq_refl)) (Qeq_refl d)))). lra.
      - inversion S; subst. destruct (IH ltac:(assumption) ltac:(exists s; auto) ltac:(intros c' (z & Z & Ez); apply U; exists z; split; [right; exact Z | exact Ez]) l'' R') as (f & z & -> & Ez).
        exists (y :: f), z. auto. }
    exact (L ts S TT U _ R).
  - intros a l n I J K. destruct (Am a l n I J K) as (s & Hs & E). clear - R Hs E. induction R as [|y z l' l'' H R IH]; [destruct Hs|].
    destruct Hs as [->|Hs]; [exists y; split; [left; reflexivity | lra]|]. destruct (IH Hs) as (w & W & Ew). exists w. split; [right; exact W | exact Ew].
  - clearbody ts. clear - Fm R. induction Fm as [|[a l] [b k] r r' (E & _ & K) F IH]; constructor; [|exact IH]. split; [exact E|]. intros x X Fx S0. specialize (K x X Fx S0).
    cbn [snd fst] in *. eapply forall2_at; eassumption.
Qed.
(** From the velocities of each axis the points of the profile: their times take in every change of
    acceleration and end with the profile; at those times each axis is where its motion is. *)
Theorem C59_positions : forall arrays start T, arrays <> [] -> (forall a l, In (a, l) arrays -> profile_to T l) -> apart arrays ->
  exists is m, calculate_profile arrays start = Ok (is, m) /\
    Forall (fun i => 0 < i) is /\ (exists f l, reached 0 is = f ++ [l] /\ l == T) /\
    (forall a l n, In (a, l) arrays -> In n l -> 0 < fst n -> among (fst n) (reached 0 is)) /\
    Forall2 (fun al ap => fst ap = fst al /\ forall x, motion x -> follows x (snd al) -> x 0 == start (fst (fst al)) ->
                                                Forall2 (fun p t => p == x t) (snd ap) (reached 0 is)) arrays m.
Proof. exact calculate_ok. Qed.
(** There is such a motion. *)
Theorem C59_motion : forall T l x0, profile_to T l -> exists x, motion x /\ follows x l /\ x 0 == x0.
Proof.
  intros T l x0 (S & t0 & v0 & mid & t1 & v1 & -> & Z & _). apply follow_exists; [exact S | discriminate | exact Z].
Qed.

(** ** The rounds *)

Section Lib.
  Variable mvp : axis -> Q -> Q -> Q -> Q -> Q -> vprof.
  Variable need : axis -> Q -> Q -> Q -> Q.
  Variable longer : Q -> Q -> Q.
  Variable L : library mvp need longer.

  Lemma fold_max : forall ps t, let r := fold_left (fun t (ap : axis * vprof) => qmax t (vp_total (snd ap))) ps t in
    t <= r /\ (forall ap, In ap ps -> vp_total (snd ap) <= r) /\ (r == t \/ exists ap, In ap ps /\ r == vp_total (snd ap)).
  Proof.
    intros ps. induction ps as [|b ps IH]; intros t; cbn [fold_left].
    - split; [lra|]. split; [intros ap []|left; reflexivity].
    - destruct (IH (qmax t (vp_total (snd b)))) as (H1 & H2 & H3). cbn zeta in *. destruct (qmax_spec t (vp_total (snd b))) as (M1 & M2 & M3).
      set (r := fold_left _ ps _) in *. clearbody r. split; [lra|]. split.
      + intros ap [<-|I]; [lra | now apply H2].
      + destruct H3 as [H3|(ap & I & E)]; [|right; exists ap; cbn; auto]. destruct M3 as [M3|M3]; rewrite M3 in H3; [left; exact H3 | right; exists b; cbn; auto].
  Qed.
  Definition the_need (p q : ppoint) (se : (axis * Q) * (axis * Q)) : Q :=
    need (fst (fst se)) (snd (fst se)) (snd (snd se)) (gap_distance p q (fst (fst (fst se)))).
  Lemma in_profiles : forall starts ends p q mt mi ap, In ap (profiles mvp starts ends p q mt mi) <-> exists se, In se (combine starts ends) /\
    ap = (fst (fst se), mvp (fst (fst se)) (snd (fst se)) (snd (snd se)) (gap_distance p q (fst (fst (fst se)))) mt mi).
  Proof. intros. unfold profiles. rewrite in_map_iff. split; intros (se & H1 & H2); exists se; auto. Qed.
  (** What the arrays are for a common time [T]. *)
  Definition common (starts ends : list (axis * Q)) (p q : ppoint) (mi T : Q) (arrays : list (axis * list (Q * Q))) : Prop :=
    exists T', (T' == T \/ T' == longer T mi) /\
    Forall2 (fun se al => fst al = fst (fst se) /\ profile_to T' (snd al) /\ from_to (snd (fst se)) (snd (snd se)) (snd al) /\
                          covers (gap_distance p q (fst (fst (fst se)))) T' (snd al)) (combine starts ends) arrays.
  Lemma sorted_eq : forall T T' l, T == T' -> profile_to T l -> profile_to T' l.
  Proof. intros T T' l E (S & t0 & v0 & mid & t1 & v1 & H & Z & Z1). split; [exact S|]. exists t0, v0, mid, t1, v1. repeat split; auto. lra. Qed.
  Lemma covers_eq : forall d T T' l, T == T' -> covers d T l -> covers d T' l.
  Proof. intros d T T' l E C x X F. rewrite <- (X T T' E). now apply C. Qed.
  Lemma all_same : forall starts ends p q mt mi T, (forall ap, In ap (profiles mvp starts ends p q mt mi) -> vp_total (snd ap) == T) ->
    forall qz : bool, common starts ends p q mi T (map (fun ap => (fst ap, if qz then vp_quantized (snd ap) else vp_arrays (snd ap))) (profiles mvp starts ends p q mt mi)).
  Proof.
    intros starts ends p q mt mi T A qz. exists (if qz then longer T mi else T). split; [destruct qz; [right | left]; reflexivity|].
    unfold profiles in *. rewrite map_map. induction (combine starts ends) as [|se r IH]; cbn [map]; constructor.
    - cbn [fst snd]. split; [reflexivity|]. specialize (A _ (or_introl eq_refl)). cbn [snd] in A. destruct qz.
      + destruct (lib_quantized _ _ _ L (fst (fst se)) (snd (fst se)) (snd (snd se)) (gap_distance p q (fst (fst (fst se)))) mt mi) as (H1 & H2 & H3). cbn zeta in *.
        pose proof (lib_longer _ _ _ L _ _ mi A) as E. split; [eapply sorted_eq; eassumption|]. split; [exact H2 | eapply covers_eq; eassumption].
      + destruct (lib_arrays _ _ _ L (fst (fst se)) (snd (fst se)) (snd (snd se)) (gap_distance p q (fst (fst (fst se)))) mt mi) as (H1 & H2 & H3). cbn zeta in *.
        split; [eapply sorted_eq; eassumption|]. split; [exact H2 | eapply covers_eq; eassumption].
    - apply IH. intros ap I. apply A. right. exact I.
  Qed.
  (** The second round finds all profiles to have the time of the slowest. *)
  Lemma second_round : forall starts ends p q T mi, (forall se, In se (combine starts ends) -> the_need p q se <= T) ->
    exists arrays, rounds mvp 1 starts ends p q T T mi = Ok arrays /\ common starts ends p q mi T arrays.
  Proof.
    intros starts ends p q T mi A. cbn [rounds].
    assert (E : forall ap, In ap (profiles mvp starts ends p q T mi) -> vp_total (snd ap) == T).
    { intros ap I. apply in_profiles in I. destruct I as (se & I & ->). cbn [snd]. specialize (A se I). unfold the_need in A.
      destruct (lib_total _ _ _ L (fst (fst se)) (snd (fst se)) (snd (snd se)) (gap_distance p q (fst (fst (fst se)))) T mi) as (H1 & H2 & H3). cbn zeta in *. destruct H3; lra. }
    destruct (fold_max (profiles mvp starts ends p q T mi) T) as (M1 & _ & M3). cbn zeta in *. set (r := fold_left _ _ T) in *.
    assert (R : r == T). { destruct M3 as [M3|(ap & I & M3)]; [exact M3|]. rewrite M3. now apply E. }
    rewrite (close_refl r T R). eexists. split; [reflexivity|]. now apply all_same.
  Qed.
  Lemma two_rounds : forall starts ends p q mt mi, 0 <= mt -> exists arrays, rounds mvp 2 starts ends p q 0 mt mi = Ok arrays /\
    ((forall se, In se (combine starts ends) -> the_need p q se <= mt) \/ (exists se, In se (combine starts ends) /\ mt < the_need p q se /\ isclose (the_need p q se) mt = false) ->
     starts <> [] -> ends <> [] ->
     exists T, mt <= T /\ (forall se, In se (combine starts ends) -> the_need p q se <= T) /\
       (T == mt \/ exists se, In se (combine starts ends) /\ T == the_need p q se) /\ common starts ends p q mi T arrays).
  Proof.
    intros starts ends p q mt mi M. change (rounds mvp 2 starts ends p q 0 mt mi) with
      (let ps := profiles mvp starts ends p q mt mi in
       let new := fold_left (fun t ap => qmax t (vp_total (snd ap))) ps 0 in
       if isclose new mt then
          let quantize := existsb (fun ap => vp_quantize (snd ap)) ps in
          Ok (map (fun ap => (fst ap, if quantize then vp_quantized (snd ap) else vp_arrays (snd ap))) ps)
       else rounds mvp 1 starts ends p q new new mi).
    cbn zeta. destruct (fold_max (profiles mvp starts ends p q mt mi) 0) as (M1 & M2 & M3). cbn zeta in *. set (new := fold_left _ _ 0) in *. clearbody new.
    assert (Tot : forall se, In se (combine starts ends) -> let t := vp_total (mvp (fst (fst se)) (snd (fst se)) (snd (snd se)) (gap_distance p q (fst (fst (fst se)))) mt mi) in
       mt <= t /\ the_need p q se <= t /\ (t == mt \/ t == the_need p q se) /\ t <= new).
    { intros se I t. destruct (lib_total _ _ _ L (fst (fst se)) (snd (fst se)) (snd (snd se)) (gap_distance p q (fst (fst (fst se)))) mt mi) as (H1 & H2 & H3). cbn zeta in *. fold t in H1, H2, H3.
      split; [exact H1|]. split; [exact H2|]. split; [exact H3|]. apply (M2 (fst (fst se), mvp (fst (fst se)) (snd (fst se)) (snd (snd se)) (gap_distance p q (fst (fst (fst se)))) mt mi)). apply in_profiles. exists se. auto. }
    destruct (isclose new mt) eqn:C.
    - eexists. split; [reflexivity|]. intros [A|(se & I & A & B)] N1 N2.
      + exists mt. split; [lra|]. split; [exact A|]. split; [left; reflexivity|]. apply all_same. intros ap I. apply in_profiles in I. destruct I as (se & I & ->). cbn [snd].
        specialize (A se I). destruct (Tot se I) as (H1 & H2 & H3 & _). destruct H3; lra.
      + exfalso. destruct (Tot se I) as (H1 & H2 & _ & H4). unfold isclose in *. apply Qle_bool_iff in C. apply qle_false in B. rewrite !qabs_eq in *.
        rewrite Qabs_pos in C by lra. rewrite (Qabs_pos (the_need p q se - mt)) in B by lra. lra.
    - assert (A : forall se, In se (combine starts ends) -> the_need p q se <= new) by (intros se I; destruct (Tot se I) as (_ & H2 & _ & H4); lra).
      destruct (second_round starts ends p q new mi A) as (arrays & R & Cm). exists arrays. split; [exact R|]. intros _ N1 N2. exists new.
      assert (F : exists se, In se (combine starts ends)) by (destruct starts as [|s ?]; [contradiction|]; destruct ends as [|e ?]; [contradiction|]; exists (s, e); left; reflexivity).
      destruct F as (se & I). destruct (Tot se I) as (H1 & _ & _ & H4). split; [lra|]. split; [exact A|]. split; [|exact Cm].
      destruct M3 as [M3|(ap & J & M3)].
      + left. lra.
      + apply in_profiles in J. destruct J as (se' & J & ->). cbn [snd] in M3. destruct (Tot se' J) as (_ & _ & [K|K] & _); [left | right; exists se'; split; [exact J|]]; lra.
  Qed.
End Lib.

(** ** The gap *)

Lemma velocities_spec : forall axes p entry l, point_velocities axes p entry = Ok l -> Forall2 (fun a av => fst av = a /\ point_velocity a p entry = Ok (snd av)) axes l.
Proof.
  intros axes. induction axes as [|a r IH]; intros p entry l H; cbn [point_velocities] in H; [injection H as <-; constructor|].
  destruct (point_velocity a p entry) as [v|e] eqn:V; [|discriminate]. destruct (point_velocities r p entry) as [k|e] eqn:K; [|discriminate].
  injection H as <-. constructor; [auto | now apply IH].
Qed.
(** Never more than two rounds. *)
Theorem C59_two_rounds : forall mvp need longer axes p q mt mi, library mvp need longer -> 0 <= mt -> profile_between_points mvp axes p q mt mi <> Err TValue.
Proof.
  intros mvp need longer axes p q mt mi L M H. unfold profile_between_points in H.
  assert (NV : forall r entry, point_velocities axes r entry <> Err TValue).
  { intros r entry. clear H. induction axes as [|a ax IH]; cbn [point_velocities]; [discriminate|]. destruct (point_velocity a r entry); [|discriminate]. destruct (point_velocities ax r entry); [discriminate | exact IH]. }
  destruct (point_velocities axes p true) as [s|e] eqn:S; [|injection H as ->; exact (NV _ _ S)].
  destruct (point_velocities axes q false) as [e|e] eqn:E; [|injection H as ->; exact (NV _ _ E)].
  destruct (two_rounds mvp need longer L s e p q mt mi M) as (arrays & R & _). rewrite R in H. discriminate.
Qed.

(** The minimal time of the gap for an axis, from the velocity over the point left to that over the
    point gone to. *)
Definition needs (need : axis -> Q -> Q -> Q -> Q) (p q : ppoint) (a : axis) (t : Q) : Prop :=
  exists v1 v2, point_velocity a p true = Ok v1 /\ point_velocity a q false = Ok v2 /\ t = need a v1 v2 (gap_distance p q (fst a)).
(** The time asked for is enough for all, or clearly not enough for one. *)
Definition decided (need : axis -> Q -> Q -> Q -> Q) (axes : list axis) (p q : ppoint) (mt : Q) : Prop :=
  (forall a t, In a axes -> needs need p q a t -> t <= mt) \/ (exists a t, In a axes /\ needs need p q a t /\ mt < t /\ ~ seen_same t mt).

Lemma pair_up : forall axes s e (P R : axis -> Q -> Prop), Forall2 (fun a av => fst av = a /\ P a (snd av)) axes s -> Forall2 (fun a av => fst av = a /\ R a (snd av)) axes e ->
  Forall2 (fun a se => fst (fst se) = a /\ P a (snd (fst se)) /\ R a (snd (snd se))) axes (combine s e).
Proof.
  intros axes s e P R F. revert e. induction F as [|a av axes s (E & H) F IH]; intros e G; inversion G as [|? bv ? e' (E' & H') G']; subst; cbn [combine]; constructor; [cbn; auto | now apply IH].
Qed.
Lemma forall2_in_l : forall (A B : Type) (R : A -> B -> Prop) l k a, Forall2 R l k -> In a l -> exists b, In b k /\ R a b.
Proof. intros A B R l k a F. induction F as [|x y l k H F IH]; intros I; [destruct I|]. destruct I as [<-|I]; [exists y; cbn; auto|]. destruct (IH I) as (b & J & K). exists b. cbn. auto. Qed.
Lemma forall2_in_r : forall (A B : Type) (R : A -> B -> Prop) l k b, Forall2 R l k -> In b k -> exists a, In a l /\ R a b.
Proof. intros A B R l k b F. induction F as [|x y l k H F IH]; intros I; [destruct I|]. destruct I as [<-|I]; [exists x; cbn; auto|]. destruct (IH I) as (a & J & K). exists a. cbn. auto. Qed.
Lemma forall2_comp : forall (A B C : Type) (R : A -> B -> Prop) (S : B -> C -> Prop) l k m, Forall2 R l k -> Forall2 S k m -> Forall2 (fun a c => exists b, R a b /\ S b c) l m.
Proof. intros A B C R S l k m F. revert m. induction F as [|x y l k H F IH]; intros m G; inversion G; subst; constructor; eauto. Qed.
Lemma forall2_impl : forall (A B : Type) (R S : A -> B -> Prop) l k, (forall a b, R a b -> S a b) -> Forall2 R l k -> Forall2 S l k.
Proof. intros A B R S l k H F. induction F; constructor; auto. Qed.
Lemma forall2_with_in : forall (A B : Type) (R : A -> B -> Prop) l k, Forall2 R l k -> Forall2 (fun a b => In a l /\ R a b) l k.
Proof. intros A B R l k F. induction F as [|x y l k H F IH]; constructor; [cbn; auto|]. eapply forall2_impl; [|exact IH]. intros a b (I & K). cbn. auto. Qed.

(** What profile_between_points gives. *)
Definition gap_profiles (axes : list axis) (p q : ppoint) (T : Q) (arrays : list (axis * list (Q * Q))) : Prop :=
  Forall2 (fun a al => fst al = a /\ profile_to T (snd al) /\ covers (gap_distance p q (fst a)) T (snd al) /\
    exists v1 v2, point_velocity a p true = Ok v1 /\ point_velocity a q false = Ok v2 /\ from_to v1 v2 (snd al)) axes arrays.
(** All axes take the same time: that asked for, or what the slowest needs, or longer if that is rounded. *)
Theorem C59_same_time : forall mvp need longer axes p q mt mi arrays, library mvp need longer -> axes <> [] -> 0 <= mt -> decided need axes p q mt ->
  profile_between_points mvp axes p q mt mi = Ok arrays ->
  exists T T', mt <= T /\ (forall a t, In a axes -> needs need p q a t -> t <= T) /\ (T == mt \/ exists a t, In a axes /\ needs need p q a t /\ T == t) /\
    (T' == T \/ T' == longer T mi) /\ gap_profiles axes p q T' arrays.
Proof.
  intros mvp need longer axes p q mt mi arrays L N M D H. unfold profile_between_points in H.
  destruct (point_velocities axes p true) as [s|?] eqn:S; [|discriminate]. destruct (point_velocities axes q false) as [e|?] eqn:E; [|discriminate].
  apply velocities_spec in S. apply velocities_spec in E.
  pose proof (pair_up axes s e (fun a v => point_velocity a p true = Ok v) (fun a v => point_velocity a q false = Ok v) S E) as PU. cbn beta in PU.
  destruct (two_rounds mvp need longer L s e p q mt mi M) as (arrays' & R & K). rewrite R in H. injection H as <-.
  assert (NN : forall a t, In a axes -> needs need p q a t -> exists se, In se (combine s e) /\ the_need need p q se = t).
  { intros a t I (v1 & v2 & V1 & V2 & ->). destruct (forall2_in_l _ _ _ _ _ _ PU I) as (se & J & (E1 & E2 & E3)). exists se. split; [exact J|]. unfold the_need. rewrite E1. congruence. }
  assert (NN' : forall se, In se (combine s e) -> exists a, In a axes /\ needs need p q a (the_need need p q se)).
  { intros se J. destruct (forall2_in_r _ _ _ _ _ _ PU J) as (a & I & (E1 & E2 & E3)). exists a. split; [exact I|]. exists (snd (fst se)), (snd (snd se)). split; [exact E2|]. split; [exact E3|]. unfold the_need. rewrite E1. reflexivity. }
  destruct K as (T & T1 & T2 & T3 & T' & T4 & F).
  - destruct D as [D|(a & t & I & Nd & D1 & D2)]; [left | right].
    + intros se J. destruct (NN' se J) as (a & I & Nd). eapply D; eassumption.
    + destruct (NN a t I Nd) as (se & J & <-). exists se. split; [exact J|]. split; [exact D1|]. apply not_true_iff_false. now rewrite isclose_seen.
  - intros ->. inversion S; subst. contradiction.
  - intros ->. inversion E; subst. contradiction.
  - exists T, T'. split; [exact T1|]. split; [|split; [|split; [exact T4|]]].
    + intros a t I Nd. destruct (NN a t I Nd) as (se & J & <-). now apply T2.
    + destruct T3 as [T3|(se & J & T3)]; [left; exact T3 | right]. destruct (NN' se J) as (a & I & Nd). eauto.
    + unfold gap_profiles. eapply forall2_impl; [|exact (forall2_comp _ _ _ _ _ _ _ _ PU F)]. cbn beta. intros a al (se & (E1 & E2 & E3) & (G1 & G2 & G3 & G4)).
      destruct se as [[sa sv] [ea ev]]. cbn [fst snd] in *. subst sa. split; [exact G1|]. split; [exact G2|]. split; [exact G4|]. exists sv, ev. auto.
Qed.

(** The last position of an axis. *)
Definition ends_at (ps : list Q) (x : Q) : Prop := exists f, ps = f ++ [x].
(** The whole gap: one motion per axis, from the upper bound of the point left, in the same time, over the
    distance to the lower bound of the point gone to; each axis is sent along it, and in the end to
    that lower bound. *)
Theorem C59_gap : forall mvp need longer axes p q delay time mi arrays, library mvp need longer -> axes <> [] -> 0 <= time ->
  decided need axes p q (qmax time delay) -> profile_between_points mvp axes p q (qmax time delay) mi = Ok arrays -> apart arrays ->
  exists is m T, turnaround mvp axes p q delay time mi = Ok (is, m) /\ time <= T /\ delay <= T /\ Forall (fun i => 0 < i) is /\
    (exists ts l, reached 0 is = ts ++ [l] /\ l == T /\
      Forall2 (fun a ap => fst ap = a /\ exists f x, snd ap = f ++ [pt_low q (fst a)] /\ motion x /\ x 0 == pt_up p (fst a) /\
                 Qabs (x T - pt_low q (fst a)) <= 1 # 1000000000000 /\ Forall2 (fun y t => y == x t) f ts /\
                 exists nodes v1 v2, In (a, nodes) arrays /\ follows x nodes /\ point_velocity a p true = Ok v1 /\ point_velocity a q false = Ok v2 /\ from_to v1 v2 nodes) axes m).
Proof.
  intros mvp need longer axes p q delay time mi arrays L N M D H A. destruct (qmax_spec time delay) as (Q1 & Q2 & _).
  destruct (C59_same_time mvp need longer axes p q (qmax time delay) mi arrays L N ltac:(lra) D H) as (T & T' & T1 & _ & _ & T4 & G).
  assert (T5 : T <= T') by (destruct T4 as [T4|T4]; rewrite T4; [lra | apply (lib_longer_ge _ _ _ L)]).
  assert (Pr : forall a l, In (a, l) arrays -> profile_to T' l). { intros a l I. destruct (forall2_in_r _ _ _ _ _ _ G I) as (b & _ & (_ & P & _)). exact P. }
  destruct (calculate_ok arrays (pt_up p) T') as (is & m & C & C1 & (ts & l & C2 & C3) & _ & C5); [|exact Pr|exact A|].
  { intros ->. inversion G; subst. contradiction. }
  exists is, (map (fun al => (fst al, set_last (pt_low q (fst (fst al))) (snd al))) m), T'. split; [unfold turnaround; rewrite H, C; reflexivity|].
  split; [lra|]. split; [lra|]. split; [exact C1|]. exists ts, l. split; [exact C2|]. split; [exact C3|].
  assert (C6 := forall2_with_in _ _ _ _ _ C5). cbn beta in C6.
  assert (C7 := forall2_comp _ _ _ _ _ _ _ _ G C6). cbn beta in C7. clear - C7 C2 C3 Pr.
  induction C7 as [|a ap axes m ([b nodes] & (E & P & Cv & v1 & v2 & V1 & V2 & Ft) & (I & E2 & K)) F IH]; cbn [map]; constructor; [|exact IH].
  cbn [fst snd] in *. subst b. destruct ap as [c ps]. cbn [fst snd] in *. subst c. split; [reflexivity|].
  destruct (C59_motion T' nodes (pt_up p (fst a)) P) as (x & X & Fx & X0). specialize (K x X Fx X0). rewrite C2 in K.
  apply Forall2_app_inv_r in K. destruct K as (f & g & K1 & K2 & ->). inversion K2 as [|y ? ? ? Hy K3]; subst. inversion K3; subst.
  exists f, x. split. { unfold set_last. destruct (f ++ [y]) eqn:Ef; [destruct f; discriminate|]. rewrite <- Ef, removelast_last. reflexivity. }
  split; [exact X|]. split; [exact X0|]. split; [|split; [exact K1 | exists nodes, v1, v2; auto]].
  specialize (Cv x X Fx). unfold gap_distance in Cv. destruct (is_tiny (pt_low q (fst a) - pt_up p (fst a))) eqn:Ty.
  - unfold is_tiny in Ty. apply Qle_bool_iff in Ty. rewrite qabs_eq in Ty. setoid_replace (x T' - pt_low q (fst a)) with (- (pt_low q (fst a) - pt_up p (fst a))) by lra. rewrite Qabs_opp. exact Ty.
  - setoid_replace (x T' - pt_low q (fst a)) with 0 by lra. rewrite Qabs_pos; lra.
Qed.
(** Over points of uniform motion the gap is left and entered with the velocities of the points. *)
Theorem C59_velocities : forall a p q x0 v0 x1 w0 v1 v2, 0 < pt_dur p -> 0 < pt_dur q -> moves_so p (fst a) x0 v0 0 -> moves_so q (fst a) x1 w0 0 ->
  point_velocity a p true = Ok v1 -> point_velocity a q false = Ok v2 -> v1 == v_at v0 0 (pt_dur p) /\ v2 == v_at w0 0 0.
Proof.
  intros a p q x0 v0 x1 w0 v1 v2 D1 D2 M1 M2 V1 V2. rewrite (C58_velocity a p true v1 x0 v0 0 D1 M1 V1), (C58_velocity a q false v2 x1 w0 0 D2 M2 V2). unfold v_at. split; ring.
Qed.

(** ** A library *)
Definition hat (c : axis -> Q) (a : axis) (v1 v2 d mt mi : Q) : vprof :=
  let t := qmax mt (c a) in
  let l := [(0, v1); (t / 2, 2 * d / t - (v1 + v2) / 2); (t, v2)] in mkVp t false l l.
Lemma hat_library : forall c, (forall a, 0 < c a) -> library (hat c) (fun a _ _ _ => c a) (fun t _ => t).
Proof.
  intros c C.
  assert (G : forall a v1 v2 d mt mi, let t := vp_total (hat c a v1 v2 d mt mi) in let l := vp_arrays (hat c a v1 v2 d mt mi) in profile_to t l /\ from_to v1 v2 l /\ covers d t l).
  { intros a v1 v2 d mt mi. cbn [hat vp_total vp_arrays]. cbn zeta. destruct (qmax_spec mt (c a)) as (Q1 & Q2 & _). specialize (C a). set (t := qmax mt (c a)) in *. clearbody t.
    assert (T : 0 < t) by lra. assert (H : t / 2 == (1 # 2) * t) by field. split; [|split].
    - split; [cbn; repeat (apply SSorted_cons || apply SSorted_nil || apply Forall_cons || apply Forall_nil); rewrite ?H; lra|]. exists 0, v1, [(t / 2, 2 * d / t - (v1 + v2) / 2)], t, v2. repeat split; reflexivity.
    - exists 0, v1, [(t / 2, 2 * d / t - (v1 + v2) / 2)], t, v2. repeat split; reflexivity.
    - intros x X F. inversion F as [|? ? ? ? ? F1 F2]; subst. inversion F2 as [|? ? ? ? ? F3 F4]; subst. specialize (F1 (t / 2)). specialize (F3 t).
      rewrite F3 by (rewrite ?H; lra). rewrite F1 by (rewrite ?H; lra). field. lra. }
  constructor.
  - intros a v1 v2 d mt mi. cbn [hat vp_total]. cbn zeta. destruct (qmax_spec mt (c a)) as (Q1 & Q2 & Q3). split; [exact Q1|]. split; [exact Q2|]. destruct Q3 as [->| ->]; [left | right]; reflexivity.
  - exact G.
  - exact G.
  - intros t t' _ E. exact E.
  - intros t _. lra.
Qed.

(** Two axes that go back for the next row. *)
Definition row_end : ppoint := mkPt 1 (fun n => if String.eqb n "x" then 1 # 2 else 0) (fun _ => 0) (fun n => if String.eqb n "x" then 1 else 0).
Definition row_start : ppoint := mkPt 1 (fun n => if String.eqb n "x" then 1 # 2 else 1 # 10) (fun n => if String.eqb n "x" then 1 else 1 # 10) (fun n => if String.eqb n "x" then 0 else 1 # 10).
Definition times (a : axis) : Q := if String.eqb (fst a) "x" then 1 else 2.
Example C59_ex : match turnaround (hat times) xy row_end row_start 0 (1 # 500) MIN_INTERVAL with
  | Ok (is, [(_, x); (_, y)]) => Forall2 Qeq is [1; 1] /\ Forall2 Qeq x [3 # 2; 1] /\ Forall2 Qeq y [1 # 20; 1 # 10]
  | _ => False end.
Proof. vm_compute. repeat constructor. Qed.
Lemma times_pos : forall a, 0 < times a.
Proof. intros a. unfold times. destruct (String.eqb _ _); reflexivity. Qed.
Example C59_ex_library : library (hat times) (fun a _ _ _ => times a) (fun t _ => t).
Proof. exact (hat_library times times_pos). Qed.
Example C59_ex_decided : decided (fun a _ _ _ => times a) xy row_end row_start (qmax (1 # 500) 0).
Proof.
  right. exists ("y"%string, ("b"%string, fast_motor)), 2. split; [right; left; reflexivity|]. split.
  - eexists. eexists. split; [vm_compute; reflexivity|]. split; [vm_compute; reflexivity | reflexivity].
  - split; [vm_compute; reflexivity|]. rewrite <- isclose_seen. vm_compute. discriminate.
Qed.
Example C59_ex_apart : match profile_between_points (hat times) xy row_end row_start (qmax (1 # 500) 0) MIN_INTERVAL with
  | Ok arrays => apart arrays | Err _ => False end.
Proof.
  match goal with |- match ?r with _ => _ end => let v := eval vm_compute in r in change r with v end.
  intros a l n b k o [E|[E|[]]]; injection E as <- <-; intros [<-|[<-|[<-|[]]]] [F|[F|[]]]; injection F as <- <-; intros [<-|[<-|[<-|[]]]] H; apply isclose_seen in H; vm_compute in *; first [reflexivity | discriminate].
Qed.
(** If an axis needs hardly longer than asked for, the times differ and the gap cannot be made. *)
Definition hardly (a : axis) : Q := if String.eqb (fst a) "x" then 1 else 1000001 # 1000000.
Theorem C59_close_refuted : exists mvp need longer axes p q mt mi, library mvp need longer /\ axes <> [] /\ 0 < mt /\
  (exists arrays, profile_between_points mvp axes p q mt mi = Ok arrays) /\ turnaround mvp axes p q 0 mt mi = Err TIndex.
Proof.
  exists (hat hardly), (fun a _ _ _ => hardly a), (fun t _ => t), xy, row_end, row_start, 1, MIN_INTERVAL.
  split. { apply hat_library. intros a. unfold hardly. destruct (String.eqb _ _); reflexivity. }
  split; [discriminate|]. split; [reflexivity|]. split; [eexists|]; vm_compute; reflexivity.
Qed.
(** An axis that speeds up over the point left is taken to leave it with the velocity it had when the
    point began. *)
Definition speeding : ppoint := mkPt 2 (fun _ => 1 # 2) (fun _ => 0) (fun _ => 2).
Theorem C59_velocities_refuted : exists mvp need longer axes p q mt mi a l arrays x0 v0 acc v1 v2, library mvp need longer /\ 0 < pt_dur p /\
  profile_between_points mvp axes p q mt mi = Ok arrays /\ In (a, l) arrays /\ from_to v1 v2 l /\ moves_so p (fst a) x0 v0 acc /\
  v1 == 0 /\ v_at v0 acc (pt_dur p) == 2.
Proof.
  exists (hat times), (fun a _ _ _ => times a), (fun t _ => t), [("x"%string, ("a"%string, slow_motor))], speeding, row_start, (1 # 500), MIN_INTERVAL, ("x"%string, ("a"%string, slow_motor)).
  eexists. eexists. exists 0, 0, 1. eexists. eexists.
  split; [apply hat_library, times_pos|]. split; [reflexivity|]. split; [vm_compute; reflexivity|]. split; [left; reflexivity|].
  split. { eexists. eexists. eexists [_]. eexists. eexists. split; [reflexivity|]. split; reflexivity. }
  split; [repeat split; vm_compute; reflexivity|]. split; vm_compute; reflexivity.
Qed.
Print Assumptions C59_positions.
Print Assumptions C59_motion.
Print Assumptions C59_two_rounds.
Print Assumptions C59_same_time.
Print Assumptions C59_gap.
Print Assumptions C59_velocities.
Print Assumptions C59_close_refuted.
Print Assumptions C59_velocities_refuted.
