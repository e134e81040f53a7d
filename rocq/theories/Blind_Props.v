(** C60 and C61: what the PandA is told of the motion: how long to be blind in the gap, and what to compare with. *)
From Coq Require Import String Bool ZArith QArith Qabs Qround Qfield Lia Lqa List Sorted.
From Verif Require Import Base Pmac_Model Motion_Model Motion_Props Turn_Spec Turn_Proofs Turn_Props.
Import ListNotations.
Local Open Scope list_scope.
Local Open Scope Q_scope.

(** A change of position (or a velocity) in the direction that the compare waits for, in counts. *)
Definition right_way (increasing : bool) (resolution d : Q) : Prop := if increasing then 0 < d / resolution else d / resolution < 0.

Definition toward (increasing : bool) (resolution : Q) : Q := if increasing then / resolution else - / resolution.
Lemma right_iff : forall i r d, right_way i r d <-> 0 < toward i r * d.
Proof. intros i r d. unfold right_way, toward, Qdiv. destruct i; [|]; (split; intros H; [ | ]); try (setoid_replace (/ r * d) with (d * / r) by ring); try (setoid_replace (- / r * d) with (- (d * / r)) by ring); try (setoid_replace (/ r * d) with (d * / r) in H by ring); try (setoid_replace (- / r * d) with (- (d * / r)) in H by ring); lra. Qed.
Lemma wrong_iff : forall i r d, (i && Qle_bool (d / r) 0) || (negb i && Qle_bool 0 (d / r)) = true <-> ~ right_way i r d.
Proof.
  intros i r d. unfold right_way. destruct i; cbn [negb andb orb]; rewrite ?orb_false_r, Qle_bool_iff; split; intros H; [lra | apply Qnot_lt_le; exact H | lra | apply Qnot_lt_le; exact H].
Qed.
(** Later nodes of a profile. *)
Definition from_node (nodes : list (Q * Q)) (n : Q * Q) (rest : list (Q * Q)) : Prop := exists before, nodes = before ++ n :: rest.

Lemma last_wrong_some : forall i r nodes t rest, last_wrong i r nodes = Some (t, rest) ->
  exists v, from_node nodes (t, v) rest /\ ~ right_way i r v /\ Forall (fun n => right_way i r (snd n)) rest.
Proof.
  intros i r nodes. induction nodes as [|[u w] l IH]; intros t rest H; cbn [last_wrong] in H; [discriminate|].
  destruct (last_wrong i r l) as [[t' rest']|] eqn:E.
  - injection H as -> ->. destruct (IH t rest eq_refl) as (v & (b & ->) & W & F). exists v. split; [exists ((u, w) :: b); reflexivity | auto].
  - destruct ((i && Qle_bool (w / r) 0) || (negb i && Qle_bool 0 (w / r))) eqn:C; [|discriminate]. injection H as <- <-. apply wrong_iff in C.
    exists w. split; [exists []; reflexivity|]. split; [exact C|]. clear IH C. induction l as [|[u' w'] l IH]; constructor.
    + cbn [last_wrong] in E. destruct (last_wrong i r l); [discriminate|]. destruct ((i && Qle_bool (w' / r) 0) || (negb i && Qle_bool 0 (w' / r))) eqn:C; [discriminate|].
      cbn [snd]. destruct i; cbn [negb andb orb] in C; rewrite ?orb_false_r in C; apply qle_false in C; exact C.
    + apply IH. cbn [last_wrong] in E. destruct (last_wrong i r l); [discriminate | reflexivity].
Qed.
Lemma last_wrong_none : forall i r nodes, last_wrong i r nodes = None <-> Forall (fun n => right_way i r (snd n)) nodes.
Proof.
  intros i r nodes. induction nodes as [|[u w] l IH]; cbn [last_wrong]; [split; [constructor | reflexivity]|].
  destruct (last_wrong i r l) as [x|].
  - split; [discriminate|]. intros F. inversion F; subst. destruct IH as [_ IH]. specialize (IH ltac:(assumption)). discriminate.
  - destruct ((i && Qle_bool (w / r) 0) || (negb i && Qle_bool 0 (w / r))) eqn:C.
    + split; [discriminate|]. intros F. inversion F; subst. apply wrong_iff in C. contradiction.
    + split; [|reflexivity]. intros _. constructor; [|now apply IH]. cbn [snd]. destruct i; cbn [negb andb orb] in C; rewrite ?orb_false_r in C; apply qle_false in C; exact C.
Qed.
(** The blind time is the time of a node after which, at every node, the axis goes the right way, and
    where it does not yet, if it ever does not; refused exactly if the last node is the wrong way. *)
Theorem C60_blind : forall i r nodes b, blind_time i r nodes = Ok b -> exists v rest, from_node nodes (b, v) rest /\
  Forall (fun n => right_way i r (snd n)) rest /\ (~ right_way i r v /\ rest <> [] \/ right_way i r v /\ nodes = (b, v) :: rest).
Proof.
  intros i r nodes b H. unfold blind_time in H. destruct (last_wrong i r nodes) as [[t rest]|] eqn:E.
  - destruct (last_wrong_some i r nodes t rest E) as (v & B & W & F). destruct rest as [|x rest]; [discriminate|]. injection H as <-.
    exists v, (x :: rest). split; [exact B|]. split; [exact F|]. left. split; [exact W | discriminate].
  - apply last_wrong_none in E. destruct nodes as [|[t v] l]; [discriminate|]. injection H as <-. inversion E; subst.
    exists v, l. split; [exists []; reflexivity|]. split; [assumption|]. right. auto.
Qed.
Theorem C60_refused : forall i r nodes, blind_time i r nodes = Err TValue <-> exists before t v, nodes = before ++ [(t, v)] /\ ~ right_way i r v.
Proof.
  intros i r nodes. unfold blind_time. split.
  - destruct (last_wrong i r nodes) as [[t rest]|] eqn:E.
    + destruct (last_wrong_some i r nodes t rest E) as (v & (b & B) & W & F). destruct rest; [|discriminate]. intros _. exists b, t, v. auto.
    + destruct nodes as [|[? ?] ?]; discriminate.
  - intros (b & t & v & -> & W). destruct (last_wrong i r (b ++ [(t, v)])) as [[t' rest]|] eqn:E.
    + destruct (last_wrong_some i r _ t' rest E) as (v' & (b' & B) & W' & F). destruct rest as [|x rest]; [reflexivity|]. exfalso.
      assert (In (t, v) (x :: rest)).
      { destruct (exists_last (l := x :: rest) ltac:(discriminate)) as (k & y & K). rewrite K in B. change ((t', v') :: k ++ [y]) with (((t', v') :: k) ++ [y]) in B.
        rewrite app_assoc in B. apply app_inj_tail in B. destruct B as [_ B]. rewrite K. apply in_or_app. right. left. symmetry. exact B. }
      rewrite Forall_forall in F. exact (W (F _ H)).
    + apply last_wrong_none in E. rewrite Forall_forall in E. exfalso. apply W. apply (E (t, v)). apply in_or_app. right. left. reflexivity.
Qed.

(** ** The motion after the blind time *)

Lemma segment : forall k v0 v1 t0 t1 s t, t0 < t1 -> 0 <= k * v0 -> 0 < k * v1 -> t0 <= s -> s < t -> t <= t1 ->
  0 < k * ((v0 * (t - t0) + (v1 - v0) / (t1 - t0) / 2 * ((t - t0) * (t - t0))) - (v0 * (s - t0) + (v1 - v0) / (t1 - t0) / 2 * ((s - t0) * (s - t0)))).
Proof.
  intros k v0 v1 t0 t1 s t D K0 K1 S ST T. set (m := ((t - t0) + (s - t0)) / (2 * (t1 - t0))).
  assert (M0 : 0 < m). { unfold m. apply Qlt_shift_div_l; lra. }
  assert (M1 : m <= 1). { unfold m. apply Qle_shift_div_r; lra. }
  setoid_replace (k * ((v0 * (t - t0) + (v1 - v0) / (t1 - t0) / 2 * ((t - t0) * (t - t0))) - (v0 * (s - t0) + (v1 - v0) / (t1 - t0) / 2 * ((s - t0) * (s - t0)))))
    with ((t - s) * ((k * v0) * (1 - m) + (k * v1) * m)) by (unfold m; field; lra).
  apply Qmult_lt_0_compat; [lra|]. assert (0 <= (k * v0) * (1 - m)) by (apply Qmult_le_0_compat; lra). assert (0 < (k * v1) * m) by (apply Qmult_lt_0_compat; lra). lra.
Qed.
Lemma suffix_moves : forall k x rest b v, motion x -> follows x ((b, v) :: rest) -> StronglySorted Qlt (map fst ((b, v) :: rest)) -> 0 <= k * v ->
  Forall (fun n => 0 < k * snd n) rest -> forall s t, b <= s -> s < t -> (exists n, In n rest /\ t <= fst n) -> 0 < k * (x t - x s).
Proof.
  intros k x rest. induction rest as [|[t1 v1] rest IH]; intros b v X F S Kv Fr s t B ST (n & N & T); [destruct N|].
  inversion F as [|? ? ? ? ? Fx F']; subst. inversion S as [|? ? S' Fs]; subst. cbn [map fst] in *. inversion Fs as [|? ? L _]; subst. inversion Fr as [|? ? K1 Fr']; subst. cbn [snd] in K1.
  assert (Seg : forall s t, b <= s -> s < t -> t <= t1 -> 0 < k * (x t - x s)).
  { intros s' t' B' ST' T'. pose proof (segment k v v1 b t1 s' t' L Kv K1 B' ST' T') as G. rewrite (Fx t'), (Fx s') by lra.
    match type of G with 0 < k * (?p - ?q) => setoid_replace (x b + v * (t' - b) + (v1 - v) / (t1 - b) / 2 * ((t' - b) * (t' - b)) - (x b + v * (s' - b) + (v1 - v) / (t1 - b) / 2 * ((s' - b) * (s' - b)))) with (p - q) by ring end. exact G. }
  assert (Aft : forall s t, t1 <= s -> s < t -> (exists n, In n rest /\ t <= fst n) -> 0 < k * (x t - x s)).
  { intros. eapply (IH t1 v1); eauto. lra. }
  destruct (Qlt_le_dec t1 t) as [Ht|Ht]; [|now apply Seg].
  assert (Nr : exists n, In n rest /\ t <= fst n) by (destruct N as [<-|N]; [cbn [fst] in T; lra | eauto]).
  destruct (Qlt_le_dec s t1) as [Hs|Hs]; [|now apply Aft].
  pose proof (Seg s t1 B Hs ltac:(lra)). pose proof (Aft t1 t ltac:(lra) Ht Nr). setoid_replace (k * (x t - x s)) with (k * (x t - x t1) + k * (x t1 - x s)) by ring. lra.
Qed.
Lemma follows_app : forall x b l, l <> [] -> follows x (b ++ l) -> follows x l.
Proof. intros x b l N. induction b as [|n b IH]; intros F; [exact F|]. apply IH. cbn [app] in F. inversion F; subst; [|assumption]. destruct b; [cbn in *; congruence | discriminate]. Qed.
Lemma sorted_app : forall b l, StronglySorted Qlt (b ++ l) -> StronglySorted Qlt l.
Proof. intros b. induction b as [|x b IH]; intros l S; [exact S|]. cbn [app] in S. inversion S; subst. now apply IH. Qed.
(** After the blind time the axis only moves the right way, if it was at rest then (or never moved the
    wrong way). *)
Theorem C60_right_way : forall i r nodes T b x, profile_to T nodes -> motion x -> follows x nodes -> blind_time i r nodes = Ok b ->
  (forall v, In (b, v) nodes -> ~ right_way i r v -> v == 0) -> forall s t, b <= s -> s < t -> t <= T -> right_way i r (x t - x s).
Proof.
  intros i r nodes T b x (S & t0 & v0 & mid & t1 & v1 & En & Z0 & Z1) X F H R s t B ST Tt.
  destruct (C60_blind i r nodes b H) as (v & rest & (before & E) & Fr & O). apply right_iff.
  apply (suffix_moves _ x rest b v); auto.
  - rewrite E in F. apply follows_app in F; [exact F | discriminate].
  - rewrite E, map_app in S. apply sorted_app in S. exact S.
  - destruct O as [[W _]|[W _]].
    + rewrite (R v); [lra | rewrite E; apply in_or_app; right; left; reflexivity | exact W].
    + apply right_iff in W. lra.
  - eapply Forall_impl; [|exact Fr]. intros n. apply right_iff.
  - assert (Rn : rest <> []).
    { destruct O as [[_ Rn]|[_ Hn]]; [exact Rn|]. rewrite Hn in En. intros ->. injection En as _ _ En. destruct mid; discriminate. }
    destruct (exists_last Rn) as (k & y & ->). exists y. split; [apply in_or_app; right; left; reflexivity|].
    assert (Ey : y = (t1, v1)). { rewrite E in En. change ((t0, v0) :: mid ++ [(t1, v1)]) with (((t0, v0) :: mid) ++ [(t1, v1)]) in En. change ((b, v) :: k ++ [y]) with (((b, v) :: k) ++ [y]) in En. rewrite app_assoc in En. apply app_inj_tail in En. tauto. }
    rewrite Ey. cbn [fst]. lra.
Qed.
(** If the PandA sees all the axes and the points have one delay, the profile is the one the motors follow. *)
Theorem C60_same : forall mvp axes a r p q delay time mi i b, NoDup (map fst axes) -> In a axes ->
  how_long_moving_wrong_way mvp axes (fst a) r p q delay time mi i = Ok b ->
  exists arrays nodes, profile_between_points mvp axes p q (qmax time delay) mi = Ok arrays /\ In (a, nodes) arrays /\ blind_time i r nodes = Ok b.
Proof.
  intros mvp axes a r p q delay time mi i b N I H. unfold how_long_moving_wrong_way in H.
  destruct (profile_between_points mvp axes p q (qmax time delay) mi) as [arrays|] eqn:E; [|discriminate].
  destruct (find (fun aa => String.eqb (fst (fst aa)) (fst a)) arrays) as [[c nodes]|] eqn:F; [|discriminate].
  apply find_some in F. destruct F as [F Fe]. cbn [fst] in Fe. apply String.eqb_eq in Fe. exists arrays, nodes. split; [reflexivity|]. split; [|exact H].
  assert (In c axes).
  { unfold profile_between_points in E. destruct (point_velocities axes p true) as [s|] eqn:S; [|discriminate]. destruct (point_velocities axes q false) as [e|]; [|discriminate].
    assert (G : forall n new mt, rounds mvp n s e p q new mt mi = Ok arrays -> exists v, In (c, v) s).
    { intros n. induction n as [|n IH]; intros new mt R; cbn [rounds] in R; [discriminate|]. destruct (isclose _ mt); [|eapply IH; exact R].
      injection R as <-. apply in_map_iff in F. destruct F as (ap & Ea & Fa). injection Ea as Ea _. unfold profiles in Fa. apply in_map_iff in Fa. destruct Fa as ([[sa sv] [ea ev]] & Eb & Fb). 
      apply in_combine_l in Fb. subst ap. cbn [fst] in Ea. subst sa. eauto. }
    destruct (G _ _ _ E) as (v & J). apply velocities_spec in S. destruct (forall2_in_r _ _ _ _ _ _ S J) as (c' & J' & (Ec & _)). cbn [fst] in Ec. subst c'. exact J'. }
  enough (c = a) by (subst; exact F). clear - N I H0 Fe. induction axes as [|y l IH]; [destruct I|]. cbn [map] in N. inversion N as [|? ? N1 N2]; subst.
  destruct I as [->|I]; destruct H0 as [->|H0]; auto.
  - exfalso. apply N1. rewrite <- Fe. now apply in_map.
  - exfalso. apply N1. rewrite Fe. now apply in_map.
Qed.

Example C60_ex : match how_long_moving_wrong_way (hat times) xy "x" (1 # 100) row_end row_start 0 (1 # 500) MIN_INTERVAL false with
  | Ok b => b == 1 | Err _ => False end.
Proof. vm_compute. reflexivity. Qed.
Example C60_ex_right : match profile_between_points (hat times) xy row_end row_start (1 # 500) MIN_INTERVAL with
  | Ok ((_, nodes) :: _) => match blind_time false (1 # 100) nodes with
     | Ok b => profile_to 2 nodes /\ forall v, In (b, v) nodes -> v == 0 | _ => False end | _ => False end.
Proof.
  match goal with |- match ?r with _ => _ end => let v := eval vm_compute in r in change r with v end.
  match goal with |- match ?r with _ => _ end => let v := eval vm_compute in r in change r with v end.
  cbn beta iota. split.
  - split; [cbn; repeat (apply SSorted_cons || apply SSorted_nil || apply Forall_cons || apply Forall_nil); reflexivity|]. eexists. eexists. eexists [_]. eexists. eexists. split; [reflexivity|]. split; reflexivity.
  - intros v [E|[E|[E|[]]]]; try discriminate E; injection E as <-; reflexivity.
Qed.
(** If the axis turns between two nodes, it still moves the wrong way after the blind time: here from
    speed 1 up to speed 3 down, the blind time is none. *)
Definition turning : list (Q * Q) := [(0, 1); (4, - (3)); (5, - (1))].
Theorem C60_between_refuted : exists nodes T b, profile_to T nodes /\ blind_time false 1 nodes = Ok b /\
  (exists t v, In (t, v) nodes /\ ~ right_way false 1 v) /\
  forall x, motion x -> follows x nodes -> 0 < x (b + 1) - x b /\ ~ right_way false 1 (x (b + 1) - x b).
Proof.
  exists turning, 5, 0. split; [|split; [reflexivity|split]].
  - split; [cbn; repeat (apply SSorted_cons || apply SSorted_nil || apply Forall_cons || apply Forall_nil); reflexivity|]. exists 0, 1, [(4, - (3))], 5, (- (1)). split; [reflexivity|]. split; reflexivity.
  - exists 0, 1. split; [left; reflexivity|]. unfold right_way. vm_compute. discriminate.
  - intros x X F. inversion F as [|? ? ? ? ? F1 _]; subst. pose proof (F1 1 ltac:(vm_compute; discriminate) ltac:(vm_compute; discriminate)) as H.
    assert (E : x (0 + 1) == x 1) by (apply X; ring). assert (G : x (0 + 1) - x 0 == 1 # 2). { rewrite E, H. field. }
    unfold right_way. rewrite G. split; [reflexivity|]. vm_compute. discriminate.
Qed.
(** If an axis that the PandA does not see is the slowest, the motors take longer than the PandA
    thinks, and the axis it compares with still moves the wrong way after the blind time. *)
Theorem C60_unseen_refuted : exists mvp need longer motors seen a p q time mi b arrays nodes, library mvp need longer /\ In a seen /\ (forall c, In c seen -> In c motors) /\
  how_long_moving_wrong_way mvp seen (fst a) (1 # 100) p q 0 time mi false = Ok b /\
  profile_between_points mvp motors p q (qmax time 0) mi = Ok arrays /\ In (a, nodes) arrays /\
  forall x, motion x -> follows x nodes -> exists t, b < t /\ ~ right_way false (1 # 100) (x t - x b).
Proof.
  exists (hat times), (fun a _ _ _ => times a), (fun t _ => t), xy, [("x"%string, ("a"%string, slow_motor))], ("x"%string, ("a"%string, slow_motor)), row_end, row_start, (1 # 500), MIN_INTERVAL.
  eexists. eexists. eexists. split; [exact C59_ex_library|]. split; [left; reflexivity|]. split; [intros c [<-|[]]; left; reflexivity|].
  split; [vm_compute; reflexivity|]. split; [vm_compute; reflexivity|]. split; [left; reflexivity|].
  intros x X F. inversion F as [|? ? ? ? ? F1 _]; subst. pose proof (F1 (3 # 4) ltac:(vm_compute; discriminate) ltac:(vm_compute; discriminate)) as H1.
  match goal with |- exists t, ?b < t /\ _ => pose proof (F1 b ltac:(vm_compute; discriminate) ltac:(vm_compute; discriminate)) as H2; set (bb := b) in * end.
  exists (3 # 4). split; [vm_compute; reflexivity|]. unfold right_way. rewrite H1, H2. unfold bb.
  match goal with |- ~ ?e / _ < 0 => assert (G : e == 3 # 32) end. { field. } rewrite G. vm_compute. discriminate.
Qed.

(** ** C61: the compare point *)

(** The nearest count. *)
Lemma py_round_near : forall x, Qabs (x - inject_Z (py_round x)) <= 1 # 2.
Proof.
  intros x. unfold py_round. pose proof (Qfloor_le x) as F1. pose proof (Qlt_floor x) as F2. rewrite inject_Z_plus in F2. change (inject_Z 1) with 1 in F2.
  assert (P : inject_Z (Qfloor x + 1) == inject_Z (Qfloor x) + 1) by (rewrite inject_Z_plus; reflexivity).
  set (f := inject_Z (Qfloor x)) in *. destruct (Qle_bool (1 # 2) (x - f)) eqn:E; cbn [negb].
  - apply Qle_bool_iff in E. destruct (Qeq_bool (x - f) (1 # 2)) eqn:H.
    + apply Qeq_bool_iff in H. destruct (Z.even (Qfloor x)); [fold f; rewrite H; vm_compute; discriminate|]. rewrite P. setoid_replace (x - (f + 1)) with (- (1 # 2)) by lra. vm_compute. discriminate.
    + rewrite P. apply Qabs_Qle_condition. lra.
  - apply qle_false in E. fold f. apply Qabs_Qle_condition. lra.
Qed.
Theorem C61_counts : forall resolution offset position, ~ resolution == 0 ->
  Qabs (inject_Z (in_cts (resolution, offset) position) * resolution + offset - position) <= (1 # 2) * Qabs resolution.
Proof.
  intros r o p N. unfold in_cts. cbn [fst snd]. pose proof (py_round_near ((p - o) / r)) as H. set (c := inject_Z (py_round ((p - o) / r))) in *. clearbody c.
  setoid_replace (c * r + o - p) with (- ((p - o) / r - c) * r) by (field; exact N). rewrite Qabs_Qmult, Qabs_opp. pose proof (Qabs_nonneg r). 
  apply Qmult_le_compat_r; assumption.
Qed.
(** No other count is nearer. *)
Theorem C61_nearest : forall x z, Qabs (x - inject_Z (py_round x)) <= Qabs (x - inject_Z z).
Proof.
  intros x z. pose proof (py_round_near x) as H. destruct (Z.eq_dec z (py_round x)) as [->|N]; [lra|].
  assert (D : 1 <= Qabs (inject_Z (py_round x) - inject_Z z)).
  { unfold Qminus. rewrite <- inject_Z_opp, <- inject_Z_plus.
    change (Qabs (inject_Z (py_round x + - z))) with (inject_Z (Z.abs (py_round x + - z))). change 1 with (inject_Z 1). rewrite <- Zle_Qle. lia. }
  assert (T : Qabs (inject_Z (py_round x) - inject_Z z) <= Qabs (x - inject_Z (py_round x)) + Qabs (x - inject_Z z)).
  { setoid_replace (inject_Z (py_round x) - inject_Z z) with (- (x - inject_Z (py_round x)) + (x - inject_Z z)) by ring. eapply Qle_trans; [apply Qabs_triangle|]. rewrite Qabs_opp. lra. }
  lra.
Qed.

(** How many counts an axis moves from the lower bound to the middle of a point. *)
Definition counts_moved (p : ppoint) (a : string * (Q * Q)) : Z := in_cts (snd a) (pt_pos p (fst a)) - in_cts (snd a) (pt_low p (fst a)).
Lemma best_spec : forall r (d : string * Z * Z), let b := fold_left (fun b x : string * Z * Z => if (Z.abs (snd b) <? Z.abs (snd x))%Z then x else b) r d in
  In b (d :: r) /\ forall x, In x (d :: r) -> (Z.abs (snd x) <= Z.abs (snd b))%Z.
Proof.
  intros r. induction r as [|y r IH]; intros d b.
  - split; [left; reflexivity|]. intros x [<-|[]]. apply Z.le_refl.
  - unfold b. cbn [fold_left]. clear b. destruct (Z.abs (snd d) <? Z.abs (snd y))%Z eqn:E; cbn zeta.
    + apply Z.ltb_lt in E. destruct (IH y) as [I M]. cbn zeta in *. split; [right; exact I|]. intros x [<-|X]; [|now apply M]. specialize (M y (or_introl eq_refl)). lia.
    + apply Z.ltb_ge in E. destruct (IH d) as [I M]. cbn zeta in *. split; [destruct I; [left | right; right]; assumption|]. intros x [<-|[<-|X]]; [apply M; left; reflexivity | specialize (M d (or_introl eq_refl)); lia | apply M; right; exact X].
Qed.
(** The axis compared with is one that moves by the most counts; the count is that of the lower
    bound, the direction that of the motion. *)
Theorem C61_most : forall axes p n c i, what_moves_most axes p = Some (n, c, i) -> exists ro, In (n, ro) axes /\ c = in_cts ro (pt_low p n) /\
  counts_moved p (n, ro) <> 0%Z /\ (i = true <-> (0 < counts_moved p (n, ro))%Z) /\ forall b, In b axes -> (Z.abs (counts_moved p b) <= Z.abs (counts_moved p (n, ro)))%Z.
Proof.
  intros axes p n c i H. unfold what_moves_most in H.
  set (g := fun a : string * (Q * Q) => _) in H.
  assert (G : forall b, In b axes -> counts_moved p b <> 0%Z -> In (fst b, in_cts (snd b) (pt_low p (fst b)), counts_moved p b) (flat_map g axes)).
  { intros b B NZ. apply in_flat_map. exists b. split; [exact B|]. unfold g. cbn zeta. fold (counts_moved p b). destruct (counts_moved p b =? 0)%Z eqn:E; [apply Z.eqb_eq in E; contradiction | left; reflexivity]. }
  assert (G' : forall x, In x (flat_map g axes) -> exists b, In b axes /\ counts_moved p b <> 0%Z /\ x = (fst b, in_cts (snd b) (pt_low p (fst b)), counts_moved p b)).
  { intros x X. apply in_flat_map in X. destruct X as (b & B & X). unfold g in X. cbn zeta in X. fold (counts_moved p b) in X. destruct (counts_moved p b =? 0)%Z eqn:E; [destruct X|]. destruct X as [<-|[]]. exists b. apply Z.eqb_neq in E. auto. }
  destruct (flat_map g axes) as [|d r]; [discriminate|]. injection H as H1 H2 H3.
  destruct (best_spec r d) as [I M]. cbn zeta in *. set (b := fold_left _ r d) in *. destruct (G' b I) as ([n' ro] & A & NZ & E). rewrite E in *. cbn [fst snd] in *. subst n' c i.
  exists ro. split; [exact A|]. split; [reflexivity|]. split; [exact NZ|]. split; [apply Z.ltb_lt|].
  intros [m ro'] B. destruct (Z.eq_dec (counts_moved p (m, ro')) 0) as [Ez|Nz]; [rewrite Ez; cbn; lia|]. exact (M _ (G _ B Nz)).
Qed.
Theorem C61_refused : forall axes p, what_moves_most axes p = None <-> forall b, In b axes -> counts_moved p b = 0%Z.
Proof.
  intros axes p. unfold what_moves_most. set (g := fun a : string * (Q * Q) => _).
  assert (E : flat_map g axes = [] <-> forall b, In b axes -> counts_moved p b = 0%Z).
  { induction axes as [|a r IH]; cbn [flat_map]; [split; [intros _ b [] | reflexivity]|]. unfold g at 1. cbn zeta. fold (counts_moved p a). destruct (counts_moved p a =? 0)%Z eqn:Z.
    - apply Z.eqb_eq in Z. cbn [app]. rewrite IH. split; [intros H b [<-|B]; auto | intros H b B; apply H; right; exact B].
    - apply Z.eqb_neq in Z. split; [discriminate|]. intros H. exfalso. apply Z, H. left. reflexivity. }
  destruct (flat_map g axes) as [|d r]; [split; [intros _; apply E; reflexivity | reflexivity]|]. split; [discriminate|]. intros H. apply E in H. discriminate.
Qed.

(** Which input of the sequencers a row of the positions table is wired to. *)
Definition wired (inputs : string * string * string) (row : posrow) (input : string) : Prop :=
  match inputs with (a, b, c) => input = "POSA"%string /\ pr_name row = a \/ input = "POSB"%string /\ pr_name row = b \/ input = "POSC"%string /\ pr_name row = c end.
Lemma seq_pos_wired : forall inputs row input, dget (pr_name row) (seq_pos inputs) = Some input -> wired inputs row input.
Proof.
  intros [[a b] c] row input H. unfold seq_pos in H. cbn [wired]. rewrite dget_dset in H. destruct (String.eqb (pr_name row) c) eqn:C; [apply String.eqb_eq in C; injection H as <-; auto|].
  rewrite dget_dset in H. destruct (String.eqb (pr_name row) b) eqn:B; [apply String.eqb_eq in B; injection H as <-; auto|].
  rewrite dget_dset in H. destruct (String.eqb (pr_name row) a) eqn:A; [apply String.eqb_eq in A; injection H as <-; auto|]. discriminate.
Qed.
Lemma seq_pos_none : forall a b c n, dget n (seq_pos (a, b, c)) = None <-> n <> a /\ n <> b /\ n <> c.
Proof.
  intros a b c n. unfold seq_pos. rewrite !dget_dset. destruct (String.eqb n c) eqn:C; [apply String.eqb_eq in C; split; [discriminate | tauto]|].
  destruct (String.eqb n b) eqn:B; [apply String.eqb_eq in B; split; [discriminate | tauto]|].
  destruct (String.eqb n a) eqn:A; [apply String.eqb_eq in A; split; [discriminate | tauto]|].
  apply String.eqb_neq in A, B, C. cbn. split; auto.
Qed.
Lemma pcomp_rows : forall inputs wanted rows s,
  let s' := fold_left (pcomp_row (seq_pos inputs) wanted) rows s in
  forall n, (exists row input, In row rows /\ pr_dataset row = n /\ wired inputs row input /\ In n wanted /\ dget n (pc_axes s') = Some (pr_scale row, pr_offset row) /\ dget n (pc_inputs s') = Some input) \/
    dget n (pc_axes s') = dget n (pc_axes s) /\ dget n (pc_inputs s') = dget n (pc_inputs s) /\
    ~ exists row input, In row rows /\ pr_dataset row = n /\ wired inputs row input /\ In n wanted.
Proof.
  intros inputs wanted rows. induction rows as [|row rows IH]; intros s s' n.
  - right. split; [reflexivity|]. split; [reflexivity|]. intros (row & input & [] & _).
  - unfold s'. cbn [fold_left]. clear s'. destruct (IH (pcomp_row (seq_pos inputs) wanted s row) n) as [(row' & input & I & R)|(E1 & E2 & No)].
    + left. exists row', input. split; [right; exact I | exact R].
    + cbn zeta in *. rewrite E1, E2. clear IH E1 E2. unfold pcomp_row. destruct (dget (pr_name row) (seq_pos inputs)) as [input|] eqn:D.
      * destruct (smem (pr_dataset row) wanted) eqn:W.
        -- apply smem_In in W. cbn [pc_axes pc_inputs]. rewrite !dget_dset. destruct (String.eqb n (pr_dataset row)) eqn:E.
           ++ apply String.eqb_eq in E. subst n. left. exists row, input. split; [left; reflexivity|]. split; [reflexivity|]. split; [now apply seq_pos_wired|]. auto.
           ++ apply String.eqb_neq in E. right. split; [reflexivity|]. split; [reflexivity|]. intros (row' & input' & [<-|I] & R1 & R); [congruence|]. apply No. eauto.
        -- apply smem_false in W. right. split; [reflexivity|]. split; [reflexivity|]. intros (row' & input' & [<-|I] & R1 & R2 & R3); [congruence|]. apply No. eauto 6.
      * right. split; [reflexivity|]. split; [reflexivity|]. intros (row' & input' & [<-|I] & R1 & R2 & R3); [|apply No; eauto 6].
        destruct inputs as [[a b] c]. apply seq_pos_none in D. cbn [wired] in R2. intuition congruence.
Qed.
(** Position compare is set up with the axes that are scanned and wired to the sequencers, and no others;
    the scale, offset and input of an axis are those of a row of the table with its name. *)
Theorem C61_wired : forall seqa seqb wanted rows s, setup_pcomp seqa seqb wanted rows = Ok s -> seqa = seqb /\
  forall n, match dget n (pc_axes s), dget n (pc_inputs s) with
            | Some ro, Some input => In n wanted /\ exists row, In row rows /\ pr_dataset row = n /\ wired seqa row input /\ ro = (pr_scale row, pr_offset row)
            | None, None => ~ (In n wanted /\ exists row input, In row rows /\ pr_dataset row = n /\ wired seqa row input)
            | _, _ => False
            end.
Proof.
  intros [[a b] c] [[a' b'] c'] wanted rows s H. unfold setup_pcomp in H. destruct (String.eqb a a') eqn:A; cbn [andb] in H; [|discriminate]. destruct (String.eqb b b') eqn:B; cbn [andb] in H; [|discriminate].
  destruct (String.eqb c c') eqn:C; [|discriminate]. apply String.eqb_eq in A, B, C. subst a' b' c'. split; [reflexivity|].
  pose proof (pcomp_rows (a, b, c) wanted rows (mkPc [] [])) as K. cbn zeta in *. set (s' := fold_left _ rows _) in *.
  assert (s = s') by (destruct (pc_axes s'); [discriminate | injection H as <-; reflexivity]). subst s. clearbody s'. clear H.
  intros n. destruct (K n) as [(row & input & I & E & W & Wa & D1 & D2)|(D1 & D2 & No)].
  - rewrite D1, D2. split; [exact Wa|]. exists row. auto.
  - rewrite D1, D2. cbn. intros (Wa & row & input & I & E & W). apply No. eauto 6.
Qed.
(** It is refused if the sequencers differ, or if no scanned axis is wired. *)
Theorem C61_unwired : forall seqa seqb wanted rows, setup_pcomp seqa seqb wanted rows = Err tt <->
  seqa <> seqb \/ ~ exists n row input, In n wanted /\ In row rows /\ pr_dataset row = n /\ wired seqa row input.
Proof.
  intros [[a b] c] [[a' b'] c'] wanted rows. unfold setup_pcomp.
  destruct (String.eqb a a' && String.eqb b b' && String.eqb c c') eqn:A.
  - apply andb_true_iff in A. destruct A as [A C]. apply andb_true_iff in A. destruct A as [A B]. apply String.eqb_eq in A, B, C. subst a' b' c'.
    pose proof (pcomp_rows (a, b, c) wanted rows (mkPc [] [])) as K. cbn zeta in *. set (s' := fold_left _ rows _) in *. clearbody s'.
    destruct (pc_axes s') as [|[n ro] l] eqn:E.
    + split; [|reflexivity]. intros _. right. intros (n & row & input & Wa & I & En & W). destruct (K n) as [(? & ? & ? & ? & ? & ? & D & _)|(_ & _ & No)]; [rewrite ?E in D; discriminate|]. apply No. eauto 6.
    + split; [discriminate|]. intros [[]|N]; [reflexivity|]. exfalso. apply N.
      destruct (K n) as [(row & input & I & En & W & Wa & _)|(D & _)]; [exists n, row, input; auto|]. cbn in D. rewrite String.eqb_refl in D. discriminate.
  - split; [|reflexivity]. intros _. left. intros E. injection E as <- <- <-. rewrite !String.eqb_refl in A. discriminate.
Qed.

Example C61_ex : what_moves_most [("x", (1 # 100, 0)); ("y", (- (1 # 1000), 0))]%string (at_x 0) = Some ("y"%string, 500%Z, false).
Proof. vm_compute. reflexivity. Qed.
Definition table : list posrow := [mkRow "INENC1.VAL" "x" (1 # 100) 3; mkRow "INENC2.VAL" "y" (1 # 1000) 0; mkRow "INENC3.VAL" "z" 1 0].
Example C61_ex_wired : setup_pcomp ("INENC1.VAL", "INENC3.VAL", "ZERO")%string ("INENC1.VAL", "INENC3.VAL", "ZERO")%string ["x"; "y"]%string table
  = Ok (mkPc [("x"%string, (1 # 100, 3))] [("x"%string, "POSA"%string)]).
Proof. vm_compute. reflexivity. Qed.

Print Assumptions C60_blind.
Print Assumptions C60_refused.
Print Assumptions C60_right_way.
Print Assumptions C60_same.
Print Assumptions C60_between_refuted.
Print Assumptions C60_unseen_refuted.
Print Assumptions C61_counts.
Print Assumptions C61_nearest.
Print Assumptions C61_most.
Print Assumptions C61_refused.
Print Assumptions C61_wired.
Print Assumptions C61_unwired.
