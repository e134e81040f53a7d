(* C89: attributes and methods that are EPICS PVs.  C90: tables of them. *)
From Coq Require Import String Bool ZArith QArith Lqa Lia List.
From Verif Require Import Base Ca_Model.
Import ListNotations.
Local Open Scope string_scope.
Local Open Scope list_scope.
Local Open Scope Q_scope.

(* ---- how often ---- *)
Lemma qle b a : Qle_bool a b = true <-> a <= b. Proof. apply Qle_bool_iff. Qed.
Lemma qle_f b a : Qle_bool a b = false <-> b < a.
Proof. split; [intros H; apply Qnot_le_lt; intros L; apply qle in L; congruence|intros H; destruct (Qle_bool a b) eqn:E; [apply qle in E; lra|reflexivity]]. Qed.
Lemma pace_cases md ua now : (ua <= now /\ ua + md <= fst (pace md ua now) /\ fst (pace md ua now) <= now + md /\ snd (pace md ua now) = 0 /\ now <= fst (pace md ua now)) \/ 0 <= md /\ (now < ua /\ fst (pace md ua now) = ua /\ snd (pace md ua now) = - (now - ua)) \/ md < 0.
Proof.
  destruct (Qlt_le_dec md 0) as [M|M]; [auto|]. unfold pace. destruct (Qle_bool (now - ua) md) eqn:E1; cbn [negb].
  - apply qle in E1. destruct (Qle_bool 0 (now - ua)) eqn:E2; cbn [negb fst snd].
    + apply qle in E2. left. repeat split; lra.
    + apply qle_f in E2. right. left. repeat split; lra.
  - apply qle_f in E1. left. cbn [fst snd]. repeat split; lra.
Qed.
Definition count (l : list Q) : Q := inject_Z (Z.of_nat (length l)).
Lemma count_cons a l : count (a :: l) == count l + 1.
Proof. unfold count. cbn [length]. rewrite Nat2Z.inj_succ. unfold Z.succ. rewrite inject_Z_plus. reflexivity. Qed.
Lemma rate_from md : 0 < md -> forall times ua free, ua <= free + md -> serial md ua free times -> times <> [] ->
  (ua <= free -> (count times - 2) * md <= 2 * (last times 0 - ua)) /\ (count times - 3) * md <= 2 * (last times 0 - ua).
Proof.
  intros Hm. induction times as [|now r IH]; intros ua free I S N; [congruence|]. cbn [serial] in S. destruct S as [Sf S]. rewrite count_cons. clear N.
  destruct (pace_cases md ua now) as [(C1 & C2 & C3 & C4 & C5)|[(_ & C1 & C2 & C3)|X]]; [| |lra].
  - rewrite C4 in S. destruct r as [|t r].
    + cbn [last count length]. change (count []) with 0. split; [intros|]; nra.
    + destruct (IH (fst (pace md ua now)) (now + 0) ltac:(lra) S ltac:(discriminate)) as [_ B]. change (last (now :: t :: r) 0) with (last (t :: r) 0). split; [intros|]; nra.
  - destruct r as [|t r].
    + cbn [last count length]. change (count []) with 0. split; [intros; exfalso; lra|nra].
    + destruct (IH (fst (pace md ua now)) (now + snd (pace md ua now)) ltac:(rewrite C2, C3; lra) S ltac:(discriminate)) as [A _]. rewrite C2, C3 in A. specialize (A ltac:(lra)).
      change (last (now :: t :: r) 0) with (last (t :: r) 0). split; [intros; exfalso; lra|nra].
Qed.
Lemma serial_app md a : forall ua free b, serial md ua free (a ++ b) -> serial md ua free a /\ exists ua' free', serial md ua' free' b.
Proof.
  induction a as [|x a IH]; intros ua free b S; [split; [exact I|eauto]|]. cbn [Datatypes.app serial] in *. destruct S as [S1 S2]. destruct (IH _ _ _ S2) as [A B]. auto.
Qed.
(* Out of any history of updates, in any period between a first and a last of them, there are not more
   than two for each min_delta, and four. *)
Theorem C89_rate md ua free before first times after : 0 < md -> serial md ua free (before ++ (first :: times) ++ after) ->
  (count (first :: times) - 4) * md <= 2 * (last (first :: times) 0 - first).
Proof.
  intros Hm S. apply serial_app in S as (_ & ua' & free' & S). apply serial_app in S as (S & _). clear ua free before after. rewrite count_cons. cbn [serial] in S. destruct S as [_ S].
  destruct times as [|t r]. { change (count []) with 0. cbn [last]. clear S. setoid_replace ((0 + 1 - 4) * md) with (- (3 * md)) by ring. setoid_replace (2 * (first - first)) with 0 by ring. lra. } change (last (first :: t :: r) 0) with (last (t :: r) 0).
  destruct (pace_cases md ua' first) as [(C1 & C2 & C3 & C4 & C5)|[(_ & C1 & C2 & C3)|X]]; [| |lra].
  - rewrite C4 in S. destruct (rate_from md Hm (t :: r) (fst (pace md ua' first)) (first + 0) ltac:(lra) S ltac:(discriminate)) as [_ B]. nra.
  - destruct (rate_from md Hm (t :: r) (fst (pace md ua' first)) (first + snd (pace md ua' first)) ltac:(rewrite C2, C3; lra) S ltac:(discriminate)) as [_ B]. rewrite C2 in B. nra.
Qed.
Print Assumptions C89_rate.
(* It is not one for each min_delta, as the comment in the code says: there can be two, for ever. *)
Definition pairs (md : Q) (from n : nat) : list Q :=
  flat_map (fun k => [inject_Z (Z.of_nat k) * md; inject_Z (Z.of_nat k) * md + md / (10 # 1)]) (seq from n).
Theorem C89_one_refuted md n : 0 < md -> serial md 0 0 (pairs md 0 n) /\ length (pairs md 0 n) = (2 * n)%nat
  /\ Forall (fun t => 0 <= t <= inject_Z (Z.of_nat n) * md) (pairs md 0 n).
Proof.
  intros Hm. assert (D : md / (10 # 1) == (1 # 10) * md) by field.
  assert (SS : forall k, inject_Z (Z.of_nat (S k)) * md == inject_Z (Z.of_nat k) * md + md) by (intros k; rewrite Nat2Z.inj_succ; unfold Z.succ; rewrite inject_Z_plus; ring). split; [|split].
  - assert (G : forall n k ua free, ua == inject_Z (Z.of_nat k) * md -> free == ua -> serial md ua free (pairs md k n)).
    { clear n. induction n as [|n IH]; intros k ua free U F; [exact I|]. unfold pairs. cbn [seq flat_map Datatypes.app serial]. specialize (IH (S k)). specialize (SS k). set (kk := inject_Z (Z.of_nat k) * md) in *. clearbody kk. split; [lra|].
      destruct (pace_cases md ua kk) as [(C1 & C2 & C3 & C4 & C5)|[(_ & C1 & _)|X]]; [|lra|lra].
      destruct (pace_cases md (fst (pace md ua kk)) (kk + md / (10 # 1))) as [(B1 & _)|[(_ & B1 & B2 & B3)|X]]; [exfalso; lra| |lra].
      split; [rewrite C4; lra|]. apply IH; [rewrite B2; lra|]. rewrite B2, B3. ring. }
    apply G; [cbn; ring|reflexivity].
  - unfold pairs. assert (L : forall l : list nat, length (flat_map (fun k => [inject_Z (Z.of_nat k) * md; inject_Z (Z.of_nat k) * md + md / (10 # 1)]) l) = (2 * length l)%nat) by (induction l as [|x l IH]; [reflexivity|]; cbn [flat_map Datatypes.app length]; lia).
    rewrite L, seq_length. reflexivity.
  - apply Forall_forall. intros t I. apply in_flat_map in I as (k & Ik & I). apply in_seq in Ik.
    assert (K : 0 <= inject_Z (Z.of_nat k)) by (change 0 with (inject_Z 0); rewrite <- Zle_Qle; lia). assert (L : inject_Z (Z.of_nat k) + 1 <= inject_Z (Z.of_nat n)).
    { change 1 with (inject_Z 1). rewrite <- inject_Z_plus, <- Zle_Qle. lia. }
    assert (P : 0 <= inject_Z (Z.of_nat k) * md) by (apply Qmult_le_0_compat; lra). assert (P2 : (inject_Z (Z.of_nat k) + 1) * md <= inject_Z (Z.of_nat n) * md) by (apply Qmult_le_compat_r; lra).
    destruct I as [<-|[<-|[]]]; split; lra.
Qed.
Print Assumptions C89_one_refuted.
Example C89_ex_rate : serial (5 # 100) 0 0 [100; 100 + (1 # 100); 101 ; 101 + (1 # 100); 101 + (5 # 100)].
Proof. cbn. repeat split; discriminate. Qed.

(* ---- what is shown ---- *)
(* What a value of the PV should look like: for a disconnected PV the value is that of before. *)
Definition right {A B} (validate : A -> option B) (v : cav A) (before after : attr B) : Prop :=
  match v with
  | Nothing => a_alarm after = Disconnected /\ a_value after = a_value before
  | Got x s ts => validate x = Some (a_value after) /\ a_ts after = ts /\ (a_alarm after = Alarm_ok <-> s = 0%nat) /\ (s <> 0%nat -> a_alarm after = In_alarm s)
  end.
(* The value that an event brings. *)
Definition brought {A} (throw : bool) (e : caev A) : option (cav A) :=
  match e with
  | Update v => Some v
  | Connect rbv pv => if throw && (negb (is_ok rbv) || match pv with Some p => negb (is_ok p) | None => false end) then None else Some rbv
  | Put rbv => if throw && negb (is_ok rbv) then None else Some rbv
  end.
Definition valid {A B} (validate : A -> option B) (v : cav A) : Prop := match v with Got x _ _ => validate x <> None | Nothing => True end.
(* After any history the attribute is as the last value that could be shown says, its value being the last
   one that was not Nothing. *)
Theorem C89_shown {A B} (validate : A -> option B) throw a0 es e v : brought throw e = Some v -> valid validate v ->
  right validate v (fold_left (ca_step validate throw) es a0) (fold_left (ca_step validate throw) (es ++ [e]) a0)
  /\ forall es', (forall e', In e' es' -> match brought throw e' with None => True | Some v' => ~ valid validate v' end) ->
     fold_left (ca_step validate throw) ((es ++ [e]) ++ es') a0 = fold_left (ca_step validate throw) (es ++ [e]) a0.
Proof.
  intros Br Vl. split.
  - rewrite fold_left_app. cbn [fold_left]. set (a := fold_left (ca_step validate throw) es a0). clearbody a. clear a0 es.
    assert (E : ca_step validate throw a e = match update_value validate v a with Some a' => a' | None => a end).
    { destruct e as [rbv pv|x|rbv]; cbn [brought ca_step] in *; unfold connected.
      - destruct (throw && _) eqn:T in Br; [discriminate|]. injection Br as ->. replace (negb throw || _) with true; [reflexivity|].
        destruct throw; [|reflexivity]. cbn in *. destruct pv as [p|]; cbn; destruct (is_ok v); cbn in *; try discriminate; [destruct (is_ok p); [reflexivity|discriminate]|reflexivity].
      - injection Br as ->. reflexivity.
      - destruct (throw && _) eqn:T in Br; [discriminate|]. injection Br as ->. replace (negb throw || _) with true; [reflexivity|]. destruct throw; [|reflexivity]. cbn in *. now destruct (is_ok v). }
    rewrite E. destruct v as [x s ts|]; cbn [update_value right valid] in *; [|auto]. destruct (validate x) as [y|]; [|congruence]. cbn. split; [reflexivity|]. split; [reflexivity|].
    destruct s; cbn; split; try tauto; try congruence. split; congruence.
  - induction es' as [|e' es' IH] using rev_ind; intros H; [now rewrite app_nil_r|]. rewrite app_assoc, fold_left_app, IH by (intros x Ix; apply H, in_or_app; now left). cbn [fold_left].
    specialize (H e' ltac:(apply in_or_app; right; now left)). set (a := fold_left _ _ a0). clearbody a. destruct e' as [rbv pv|x|rbv]; cbn [brought ca_step] in *; unfold connected.
    + destruct (throw && _) eqn:T in H.
      * replace (negb throw || _) with false; [reflexivity|]. destruct throw; [|discriminate]. cbn in *. destruct pv as [p|]; cbn; destruct (is_ok rbv); cbn in *; try discriminate; try reflexivity. destruct (is_ok p); [discriminate|reflexivity].
      * destruct rbv as [y s ts|]; cbn [valid] in H; [|tauto]. cbn [update_value]. destruct (validate y); [exfalso; apply H; discriminate|]. now destruct (negb throw || _).
    + destruct x as [y s ts|]; cbn [valid] in H; [|tauto]. cbn [update_value]. destruct (validate y); [exfalso; apply H; discriminate|reflexivity].
    + destruct (throw && _) eqn:T in H.
      * replace (negb throw || _) with false; [reflexivity|]. destruct throw; [|discriminate]. cbn in *. now destruct (is_ok rbv).
      * destruct rbv as [y s ts|]; cbn [valid] in H; [|tauto]. cbn [update_value]. destruct (validate y); [exfalso; apply H; discriminate|]. now destruct (negb throw || _).
Qed.
Print Assumptions C89_shown.
Example C89_ex_shown :
  let go := fold_left (ca_step (fun n => nth_error ["idle"; "busy"] n) true) in
  let a0 := mkAttr "" Alarm_ok None in
  go [Connect (Got 0%nat 0 None) None; Update (Got 1%nat 2 (Some 7%Z))] a0 = mkAttr "busy" (In_alarm 2) (Some 7%Z)
  /\ go [Connect (Got 0%nat 0 None) None; Update (Got 1%nat 2 (Some 7%Z)); Update Nothing; Update (Got 5%nat 0 None); Put Nothing] a0 = mkAttr "busy" Disconnected None.
Proof. vm_compute. auto. Qed.

(* A choice put to the PV and read back is the choice, also when there are two of that name. *)
Theorem C89_choice choices x : In x choices -> exists i, index_of x choices = Some i /\ choice_validate choices i = Some x.
Proof.
  induction choices as [|y r IH]; [intros []|]. intros I. cbn [index_of]. destruct (String.eqb_spec x y) as [->|N]; [exists 0%nat; split; reflexivity|].
  destruct I as [->|I]; [congruence|]. destruct (IH I) as (i & -> & V). exists (S i). split; [reflexivity|exact V].
Qed.
Print Assumptions C89_choice.
Example C89_ex_choice : index_of "b" ["a"; "b"; "b"] = Some 1%nat /\ choice_validate ["a"; "b"; "b"] 1 = Some "b". Proof. auto. Qed.

(* ---- methods ---- *)
Lemma wait_in good dl d fuel : forall now coming st s, wait_for_good_status good dl d now coming st fuel = Some s -> s = good -> st <> Some good ->
  exists t, In (t, good) coming /\ t <= dl.
Proof.
  induction fuel as [|fuel IH]; intros now coming st s W E N; cbn [wait_for_good_status] in W; [congruence|].
  unfold q_get in W. destruct coming as [|[t x] r]; [congruence|]. destruct (Qle_bool now dl && Qle_bool t dl) eqn:Q; [|congruence]. apply andb_true_iff in Q as [_ Q]. apply qle in Q.
  destruct (String.eqb_spec x good) as [->|X]; [exists t; split; [now left|exact Q]|]. destruct (IH _ _ _ _ W E ltac:(congruence)) as (t' & I & L). exists t'. split; [now right|exact L].
Qed.
(* A call that returns has seen the good status in time. *)
Theorem C89_action_good good timeout d now coming : action true good timeout d now coming = true -> exists t, In (t, good) coming /\ t <= now + timeout.
Proof.
  unfold action. destruct (wait_for_good_status _ _ _ _ _ _ _) as [s|] eqn:W; [|discriminate]. intros ->%String.eqb_eq. now apply (wait_in _ _ _ _ _ _ _ _ W).
Qed.
Print Assumptions C89_action_good.
(* If the good status comes in time, and the loop takes no time, it returns. *)
Theorem C89_action_returns good timeout now before t after : 0 <= timeout -> (forall t' s, In (t', s) before -> t' <= now + timeout) -> t <= now + timeout ->
  action true good timeout 0 now (before ++ (t, good) :: after) = true.
Proof.
  intros T B L. unfold action. set (dl := now + timeout) in *. assert (N : now <= dl) by (unfold dl; lra). clearbody dl. clear T timeout.
  generalize (@None string) as st. assert (G : forall fuel now st, now <= dl -> (length before < fuel)%nat -> exists s, wait_for_good_status good dl 0 now (before ++ (t, good) :: after) st fuel = Some s /\ s = good).
  { clear N now. induction before as [|[t' x] b IH]; intros fuel now st N F; (destruct fuel as [|fuel]; [cbn [length] in F; lia|]); cbn [wait_for_good_status q_get Datatypes.app].
    - assert (Qle_bool now dl = true) as -> by now apply qle. assert (Qle_bool t dl = true) as -> by now apply qle. cbn [andb]. rewrite String.eqb_refl. eauto.
    - assert (Qle_bool now dl = true) as -> by now apply qle. assert (T' : t' <= dl) by (apply (B t' x); now left). assert (Qle_bool t' dl = true) as -> by now apply qle. cbn [andb]. destruct (String.eqb_spec x good) as [->|X]; [eauto|].
      apply IH; [intros t2 s2 I2; apply (B t2 s2); now right| |cbn [length] in F; lia]. destruct (Qle_bool t' now); lra. }
  intros st. destruct (G (S (length (before ++ (t, good) :: after))) now st N) as (s & -> & ->); [rewrite app_length; cbn [length]; lia|]. apply String.eqb_refl.
Qed.
Print Assumptions C89_action_returns.
(* It fails only if there is a status PV and no good status came in time: any that did came after one that was late. *)
Theorem C89_action_fails sp good timeout now coming : 0 <= timeout -> action sp good timeout 0 now coming = false ->
  sp = true /\ forall before t after, coming = before ++ (t, good) :: after -> t <= now + timeout ->
    exists t' s, In (t', s) before /\ now + timeout < t'.
Proof.
  intros T F. destruct sp; [|discriminate F]. split; [reflexivity|]. intros before t after -> L.
  destruct (existsb (fun e => negb (Qle_bool (fst e) (now + timeout))) before) eqn:E.
  - apply existsb_exists in E as ([t' s] & I & N). exists t', s. split; [exact I|]. apply Qnot_le_lt. intros Q. apply Qle_bool_iff in Q. cbn [fst] in N. now rewrite Q in N.
  - rewrite C89_action_returns in F; [discriminate F|exact T| |exact L]. intros t' s I. apply Qle_bool_iff.
    destruct (Qle_bool t' (now + timeout)) eqn:Q; [reflexivity|]. exfalso. assert (existsb (fun e => negb (Qle_bool (fst e) (now + timeout))) before = true); [|congruence].
    apply existsb_exists. exists (t', s). split; [exact I|]. cbn [fst]. now rewrite Q.
Qed.
Print Assumptions C89_action_fails.
Example C89_ex_action : action true "OK" 1 0 10 [(10, "Busy"); (10 + (1 # 2), "OK")] = true /\ action true "OK" 1 0 10 [(10, "Busy"); (12, "OK")] = false.
Proof. vm_compute. auto. Qed.

(* ---------------- C90 ---------------- *)
Definition table_after {A} (empty : A) names a0 (es : list (string * cav A)) := fold_left table_step es (new_table empty names, a0).
(* Each column is that of the last value of its PV; the worst severity that there was. *)
Definition last_of {A} (n : string) (es : list (string * cav A)) (d : A) : A :=
  fold_left (fun acc e => match e with (m, Got x _ _) => if String.eqb m n then x else acc | _ => acc end) es d.
Definition worst {A} (es : list (string * cav A)) : nat := fold_right (fun e m => match snd e with Got _ s _ => Nat.max s m | Nothing => m end) 0%nat es.
Lemma last_of_snoc {A} n (es : list (string * cav A)) e d : last_of n (es ++ [e]) d = match e with (m, Got x _ _) => if String.eqb m n then x else last_of n es d | _ => last_of n es d end.
Proof. unfold last_of. rewrite fold_left_app. destruct e as [m [x s ts|]]; reflexivity. Qed.
Lemma worst_snoc {A} (es : list (string * cav A)) e : worst (es ++ [e]) = Nat.max (worst es) (worst [e]).
Proof. induction es as [|e' es IH]; [reflexivity|]. cbn [Datatypes.app worst fold_right]. fold (worst (es ++ [e])). fold (worst es). rewrite IH. destruct (snd e'); [apply Nat.max_assoc|reflexivity]. Qed.
Lemma table_run {A} (empty : A) names a0 es : (forall e, In e es -> In (fst e) names /\ snd e <> Nothing) ->
  let t := fst (table_after empty names a0 es) in
  t_ok t = true /\ t_severity t = worst es /\ dkeys (t_cols t) = names /\ (forall n, In n names -> dget n (t_cols t) = Some (last_of n es empty))
  /\ (es <> [] -> snd (table_after empty names a0 es) = mkAttr (t_cols t) (if Nat.eqb (worst es) 0 then Alarm_ok else In_alarm (worst es)) None).
Proof.
  induction es as [|e es IH] using rev_ind; intros K t.
  - subst t. cbn. split; [reflexivity|]. split; [reflexivity|]. split; [unfold dkeys; rewrite map_map; apply map_id|]. split; [|congruence].
    clear K. intros n I. induction names as [|m r IHr]; [destruct I|]. cbn. destruct (String.eqb_spec n m) as [E|N]; [reflexivity|]. destruct I as [E|I]; [symmetry in E; contradiction|exact (IHr I)].
  - destruct IH as (I1 & I2 & I3 & I4 & _); [intros e' I; apply K, in_or_app; now left|]. destruct (K e ltac:(apply in_or_app; right; now left)) as [Kn Ks].
    subst t. unfold table_after in *. rewrite fold_left_app. cbn [fold_left]. set (r := fold_left table_step es (new_table empty names, a0)) in *. clearbody r.
    destruct e as [m [x s ts|]]; [|cbn in Ks; congruence]. cbn [fst] in Kn. unfold table_step. cbn [fst snd table_set t_ok t_cols t_severity]. rewrite I1, worst_snoc, <- I2. cbn [worst fold_right snd]. rewrite Nat.max_0_r. cbn [orb].
    split; [reflexivity|]. split; [reflexivity|]. split; [rewrite dkeys_dset_in; [exact I3|now rewrite I3]|]. split.
    + intros n I. rewrite last_of_snoc. destruct (String.eqb_spec m n) as [->|N]; [apply dget_dset_same|]. rewrite dget_dset_other; auto.
    + intros _. reflexivity.
Qed.
(* While all PVs are connected the table has the last value of each. *)
Theorem C90_columns {A} (empty : A) names a0 es : es <> [] -> (forall e, In e es -> In (fst e) names /\ snd e <> Nothing) ->
  let a := snd (table_after empty names a0 es) in
  dkeys (a_value a) = names /\ (forall n, In n names -> dget n (a_value a) = Some (last_of n es empty))
  /\ a_alarm a = (if Nat.eqb (worst es) 0 then Alarm_ok else In_alarm (worst es)).
Proof. intros N K a. destruct (table_run empty names a0 es K) as (_ & _ & T3 & T4 & T5). subst a. rewrite (T5 N). cbn. auto. Qed.
Print Assumptions C90_columns.
Example C90_ex : snd (table_after 0%Z ["x"; "y"] (mkAttr [] Alarm_ok None) [("x", Got 3%Z 0 None); ("y", Got 4%Z 2 None); ("x", Got 5%Z 1 None)]) = mkAttr [("x", 5%Z); ("y", 4%Z)] (In_alarm 2) None.
Proof. reflexivity. Qed.
(* C90_alarm is false: it should be that there is no alarm when none of the PVs has one now.  Once there was an
   alarm it stays, whatever comes. *)
Definition severity_now {A} (n : string) (es : list (string * cav A)) : nat :=
  fold_left (fun acc e => match e with (m, Got _ s _) => if String.eqb m n then s else acc | _ => acc end) es 0%nat.
Theorem C90_alarm_refuted : exists names es, (forall n, In n names -> severity_now n es = 0%nat) /\ (forall e, In e es -> In (fst e) names /\ snd e <> Nothing)
  /\ a_alarm (snd (table_after 0%Z names (mkAttr [] Alarm_ok None) es)) = In_alarm 2.
Proof. exists ["x"], [("x", Got 1%Z 2 None); ("x", Got 1%Z 0 None)]. split; [intros n [<-|[]]; reflexivity|]. split; [intros e [<-|[<-|[]]]; cbn; split; auto; discriminate|reflexivity]. Qed.
Theorem C90_alarm_stays {A} (empty : A) names a0 es es' : (forall e, In e (es ++ es') -> In (fst e) names /\ snd e <> Nothing) -> worst es <> 0%nat ->
  exists s, (worst es <= s)%nat /\ a_alarm (snd (table_after empty names a0 (es ++ es'))) = In_alarm s.
Proof.
  intros K W. assert (M : (worst es <= worst (es ++ es'))%nat).
  { clear. induction es as [|e es IH]; [cbn; lia|]. cbn [Datatypes.app worst fold_right]. fold (worst es). fold (worst (es ++ es')). destruct (snd e); lia. }
  exists (worst (es ++ es')). split; [exact M|]. destruct (C90_columns empty names a0 (es ++ es')) as (_ & _ & ->); [|exact K|].
  - destruct es; [cbn in W; congruence|discriminate].
  - destruct (Nat.eqb_spec (worst (es ++ es')) 0); [lia|reflexivity].
Qed.
Print Assumptions C90_alarm_refuted. Print Assumptions C90_alarm_stays.
Example C90_ex_stays : worst [("x", Got 1%Z 2 None)] <> 0%nat. Proof. discriminate. Qed.
(* C90_disconnected is false: it should be that the table is shown as disconnected when a PV of it is; for one
   PV it is (C89_shown).  Nothing of it is shown, whatever came before. *)
Theorem C90_disconnected_refuted {A} (empty : A) names a0 es n : snd (table_after empty names a0 (es ++ [(n, Nothing)])) = snd (table_after empty names a0 es).
Proof. unfold table_after. rewrite fold_left_app. reflexivity. Qed.
Theorem C90_never_disconnected {A} (empty : A) names a0 es : a_alarm a0 <> Disconnected -> a_alarm (snd (table_after empty names a0 es)) <> Disconnected.
Proof.
  intros N. assert (G : t_ok (fst (table_after empty names a0 es)) = true /\ a_alarm (snd (table_after empty names a0 es)) <> Disconnected); [|apply G].
  induction es as [|[m v] es IH] using rev_ind; [cbn; auto|]. unfold table_after in *. rewrite fold_left_app. cbn [fold_left]. destruct IH as [O D]. unfold table_step. cbn [fst snd]. destruct v as [x s ts|]; cbn [table_set]; [|auto].
  cbn [fst snd t_ok]. split; [now rewrite orb_true_r|]. unfold show_table. cbn [t_ok]. rewrite orb_true_r. cbn [t_ok t_severity orb a_alarm]. destruct (Nat.eqb _ 0); discriminate.
Qed.
Print Assumptions C90_disconnected_refuted. Print Assumptions C90_never_disconnected.
Example C90_ex_disc : a_alarm (mkAttr (@nil (string * Z)) Alarm_ok None) <> Disconnected. Proof. discriminate. Qed.
