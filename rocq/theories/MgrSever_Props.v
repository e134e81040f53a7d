(* C46: hiding a part of a manager block cuts the connections to and from it, and nothing else. *)
From Coq Require Import String Bool Arith ZArith Lia List.
From Verif Require Import Base Mgr_Model Mgr_Spec Mgr_Proofs MgrInv_Proofs Mgr_Props.
Import ListNotations.
Local Open Scope list_scope.

Section P.
Context {V : Type}.
Variable none : V.
Variable vstr : string -> V.
Variable eqv : V -> V -> bool.
Variable same : V * V -> V * V -> bool.
Variable js : V -> V.
Notation child := (@child V).
Notation mgr := (@mgr V).
Notation attr := (@attr V).
Notation op := (@op V).
Notation portinfo := (@portinfo V).
Notation put_attrs := (put_attrs none eqv same).
Notation on_layout := (on_layout none vstr eqv same).
Notation set_layout := (set_layout none vstr eqv same).
Notation step := (step none vstr eqv same js).
Notation run := (run none vstr eqv same js).
Notation made := (made none vstr eqv same).

(* the ports of a part *)
Definition ports_of (ports : dict (list portinfo)) (n : string) : list portinfo := match dget n ports with Some l => l | None => [] end.
(* the value v of a sink for ports of type p is connected to part q *)
Definition feeds (ports : dict (list portinfo)) (q : string) (p : nat) (v : V) : Prop :=
  exists nm cv, In (Source nm p cv) (ports_of ports q) /\ eqv (vstr cv) v = true.
(* part q is shown *)
Definition shown (m : mgr) (q : string) : Prop := exists r, In r (m_layout m) /\ r_name r = q /\ r_visible r = true.
Definition sink_names (l : list portinfo) : list string := flat_map (fun i => match i with Sink n _ _ _ => [n] | _ => [] end) l.
Definition source_values (l : list portinfo) : list string := flat_map (fun i => match i with Source _ _ cv => [cv] | _ => [] end) l.

(* ---- lookups ---- *)
Lemma fold_sinks l : forall (d : dict (nat * string)), NoDup (sink_names l) -> forall n p dis,
  dget n (fold_left (fun d i => match i with Sink n p dis _ => dset n (p, dis) d | Source _ _ _ => d end) l d) = Some (p, dis) <->
  (exists v, In (Sink n p dis v) l) \/ (~ In n (sink_names l) /\ dget n d = Some (p, dis)).
Proof.
  induction l as [|i r IH]; intros d D n p dis; cbn [fold_left].
  - split; [intros H; right; split; [intros []|exact H]|]. intros [(v & [])|[_ H]]. exact H.
  - destruct i as [nm q cv|nm q dd v]; cbn [sink_names flat_map app] in *.
    + rewrite IH by exact D. split; (intros [(w & H)|H]; [left; exists w|right; exact H]); [now right|destruct H as [H|H]; [discriminate|exact H]].
    + inversion D as [|? ? Dn Dd]; subst. rewrite IH by exact Dd. split.
      * intros [(w & H)|[H1 H2]]; [left; exists w; now right|]. destruct (string_dec nm n) as [->|N].
        -- rewrite dget_dset_same in H2. injection H2 as -> ->. left. exists v. now left.
        -- rewrite dget_dset_other in H2 by exact N. right. split; [|exact H2]. intros [X|X]; [now apply N|now apply H1].
      * intros [(w & [H|H])|[H1 H2]].
        -- injection H as -> -> -> ->. right. split; [exact Dn|apply dget_dset_same].
        -- left. exists w. exact H.
        -- right. split; [intros X; apply H1; now right|]. rewrite dget_dset_other; [exact H2|]. intros X. apply H1. now left.
Qed.
Lemma sinks_iff ports (c : child) n p dis : NoDup (sink_names (ports_of ports (ch_name c))) ->
  dget n (sinks ports c) = Some (p, dis) <-> exists v, In (Sink n p dis v) (ports_of ports (ch_name c)).
Proof.
  intros D. unfold sinks. fold (ports_of ports (ch_name c)). rewrite fold_sinks by exact D. split; [intros [H|[_ H]]; [exact H|discriminate]|now left].
Qed.
Lemma sinks_nodup ports (c : child) : NoDup (dkeys (sinks ports c)).
Proof.
  unfold sinks. set (l := match dget (ch_name c) ports with Some l => l | None => [] end).
  assert (G : forall d : dict (nat * string), NoDup (dkeys d) -> NoDup (dkeys (fold_left (fun d i => match i with Sink n p dis _ => dset n (p, dis) d | Source _ _ _ => d end) l d))).
  { induction l as [|i r IH]; intros d D; cbn [fold_left]; [exact D|]. apply IH. destruct i; [exact D|now apply dset_nodup]. }
  apply G. constructor.
Qed.
Lemma fold_sources l : forall (d : dict nat), NoDup (source_values l) -> forall cv p,
  dget cv (fold_left (fun d i => match i with Source _ p cv => dset cv p d | Sink _ _ _ _ => d end) l d) = Some p <->
  (exists nm, In (Source nm p cv) l) \/ (~ In cv (source_values l) /\ dget cv d = Some p).
Proof.
  induction l as [|i r IH]; intros d D cv p; cbn [fold_left].
  - split; [intros H; right; split; [intros []|exact H]|]. intros [(v & [])|[_ H]]. exact H.
  - destruct i as [nm q cv0|nm q dd v]; cbn [source_values flat_map app] in *.
    + inversion D as [|? ? Dn Dd]; subst. rewrite IH by exact Dd. split.
      * intros [(w & H)|[H1 H2]]; [left; exists w; now right|]. destruct (string_dec cv0 cv) as [->|N].
        -- rewrite dget_dset_same in H2. injection H2 as ->. left. exists nm. now left.
        -- rewrite dget_dset_other in H2 by exact N. right. split; [|exact H2]. intros [X|X]; [now apply N|now apply H1].
      * intros [(w & [H|H])|[H1 H2]].
        -- injection H as -> -> ->. right. split; [exact Dn|apply dget_dset_same].
        -- left. exists w. exact H.
        -- right. split; [intros X; apply H1; now right|]. rewrite dget_dset_other; [exact H2|]. intros X. apply H1. now left.
    + rewrite IH by exact D. split; (intros [(w & H)|H]; [left; exists w|right; exact H]); [now right|destruct H as [H|H]; [discriminate|exact H]].
Qed.
Hypothesis one_string : forall a b v, eqv (vstr a) v = true -> eqv (vstr b) v = true -> a = b.
Lemma looks_up_iff ports q p v : NoDup (source_values (ports_of ports q)) ->
  looks_up vstr eqv (source_lookup (ports_of ports q)) v p = true <-> feeds ports q p v.
Proof.
  intros D. unfold looks_up, feeds.
  assert (G : forall cv p, dget cv (source_lookup (ports_of ports q)) = Some p <-> exists nm, In (Source nm p cv) (ports_of ports q)).
  { intros cv p0. unfold source_lookup. rewrite fold_sources by exact D. split; [intros [H|[_ H]]; [exact H|discriminate]|now left]. }
  assert (Dd : NoDup (dkeys (source_lookup (ports_of ports q)))).
  { unfold source_lookup. assert (X : forall l (d : dict nat), NoDup (dkeys d) -> NoDup (dkeys (fold_left (fun d (i : portinfo) => match i with Source _ p cv => dset cv p d | Sink _ _ _ _ => d end) l d))).
    { induction l as [|i r IH]; intros d Hd; cbn [fold_left]; [exact Hd|]. apply IH. destruct i; [now apply dset_nodup|exact Hd]. }
    apply X. constructor. }
  set (d := source_lookup (ports_of ports q)) in *. destruct (find (fun kv => eqv (vstr (fst kv)) v) d) as [[cv p']|] eqn:E.
  - apply find_some in E as [E1 E2]. cbn [fst] in E2. assert (X : dget cv d = Some p') by now apply dget_In_nodup. rewrite Nat.eqb_eq. split.
    + intros ->. apply G in X as (nm & X). exists nm, cv. auto.
    + intros (nm & cv' & H1 & H2). assert (cv' = cv) as -> by (eapply one_string; eauto). assert (Y : dget cv d = Some p) by (apply G; eauto). congruence.
  - split; [discriminate|]. intros (nm & cv & H1 & H2). assert (Y : dget cv d = Some p) by (apply G; eauto). apply dget_Some_In in Y.
    pose proof (find_none _ _ E _ Y) as F. cbn [fst] in F. congruence.
Qed.

(* ---- what is cut ---- *)
Lemma severed_get ports c to n a : dget n (ch_attrs c) = Some a ->
  dget n (severed vstr eqv c ports to) =
  match dget n (sinks ports c) with
  | Some (p, dis) => if (match match to with None => None | Some q => if String.eqb q "" then None else Some (source_lookup (ports_of ports q)) end with
                         | None => true | Some d => looks_up vstr eqv d (a_value a) p end && a_writeable a)
                     then Some (vstr dis) else None
  | None => None
  end.
Proof.
  intros Ha. unfold severed. pose proof (sinks_nodup ports c) as D. unfold ports_of. set (lk := match to with None => None | Some _ => _ end).
  set (g := fun s : string * (nat * string) => _). induction (sinks ports c) as [|[k [p dis]] r IH]; cbn [flat_map dget]; [reflexivity|].
  inversion D as [|? ? Dn Dd]; subst. specialize (IH Dd).
  assert (Hk : forall x, In x (g (k, (p, dis))) -> fst x = k).
  { intros x Hx. unfold g in Hx. destruct (dget k (ch_attrs c)); [|destruct Hx]. destruct (_ && _); [|destruct Hx]. destruct Hx as [<-|[]]. reflexivity. }
  assert (Happ : forall l1 l2 : list (string * V), dget n (l1 ++ l2) = match dget n l1 with Some v => Some v | None => dget n l2 end).
  { induction l1 as [|[x y] t IHl]; intros l2; cbn [app dget]; [reflexivity|]. destruct (String.eqb n x); auto. }
  rewrite Happ. destruct (String.eqb_spec n k) as [e|N].
  - rewrite <- e in *. unfold g at 1. rewrite Ha.
    assert (X : dget n (flat_map g r) = None).
    { apply dget_None_notin. intros X. unfold dkeys in X. apply in_map_iff in X as ([x y] & E & Hx). apply in_flat_map in Hx as ([k' [p' dis']] & H1 & H2). cbn [fst] in E. subst x.
      apply Dn. assert (n = k') as ->. { unfold g in H2. destruct (dget k' (ch_attrs c)); [|destruct H2]. destruct (_ && _); [|destruct H2]. destruct H2 as [H2|[]]. congruence. }
      change k' with (fst (k', (p', dis'))). now apply in_map. }
    rewrite X. destruct (_ && a_writeable a); cbn [dget]; [now rewrite String.eqb_refl|reflexivity].
  - replace (dget n (g (k, (p, dis)))) with (@None V); [exact IH|]. symmetry. apply dget_None_notin. intros X. unfold dkeys in X. apply in_map_iff in X as (x & E & Hx).
    apply Hk in Hx. congruence.
Qed.
Lemma severed_nodup ports c to : NoDup (map fst (severed vstr eqv c ports to)).
Proof.
  unfold severed. pose proof (sinks_nodup ports c) as D. set (g := fun s : string * (nat * string) => _).
  assert (Hk : forall s x, In x (g s) -> fst x = fst s).
  { intros [k [p dis]] x Hx. unfold g in Hx. destruct (dget k (ch_attrs c)); [|destruct Hx]. destruct (_ && _); [|destruct Hx]. destruct Hx as [<-|[]]. reflexivity. }
  assert (Hl : forall s, NoDup (map fst (g s))).
  { intros [k [p dis]]. unfold g. destruct (dget k (ch_attrs c)); [|constructor]. destruct (_ && _); cbn; repeat constructor; intros []. }
  clearbody g. induction (sinks ports c) as [|s r IH]; cbn [flat_map map]; [constructor|]. inversion D as [|? ? Dn Dd]; subst. rewrite map_app.
  assert (Dj : forall x, In x (map fst (g s)) -> ~ In x (map fst (flat_map g r))).
  { intros x Hx Hy. apply in_map_iff in Hx as (y & <- & Hx). apply Hk in Hx. apply in_map_iff in Hy as (z & E & Hz). apply in_flat_map in Hz as (s' & H1 & H2). apply Hk in H2.
    apply Dn. rewrite <- Hx, <- E, H2. now apply in_map. }
  specialize (Hl s). specialize (IH Dd). revert Dj Hl. generalize (map fst (g s)). clear -IH. induction l as [|x t IHt]; intros Dj Hl; cbn [app]; [exact IH|]. inversion Hl; subst. constructor.
  - rewrite in_app_iff. intros [X|X]; [contradiction|]. apply (Dj x); [now left|exact X].
  - apply IHt; [intros y Hy; apply Dj; now right|assumption].
Qed.
Lemma sever_get ports c to n a : dget n (ch_attrs c) = Some a ->
  dget n (ch_attrs (fst (sever none vstr eqv same c ports to))) =
  Some (match dget n (severed vstr eqv c ports to) with Some v => revalued a (a_validate a v) | None => a end).
Proof.
  intros Ha. unfold sever. rewrite put_attrs_get by apply severed_nodup. rewrite Ha. now destruct (dget n (severed vstr eqv c ports to)).
Qed.

(* ---- what each part knows of the others ---- *)
(* the connections there are: from, to *)
Definition edges (ports : dict (list portinfo)) : list (string * string) :=
  let lookup := fold_left (fun d kv => dset (fst kv) (snd kv) d)
    (flat_map (fun pl => flat_map (fun i => match i with Source _ p cv => [(cv, (fst pl, p))] | _ => [] end) (snd pl)) ports) [] in
  flat_map (fun pl => flat_map (fun i =>
    match i with
    | Source _ _ _ => []
    | Sink _ p dis v => if eqv v (vstr dis) then [] else
      match find (fun kv => eqv (vstr (fst kv)) v) lookup with
      | Some (_, (conn, p')) => if Nat.eqb p' p then [(conn, fst pl)] else []
      | None => []
      end
    end) (snd pl)) ports.
Definition add (n : string) (pv : dict bool) : dict bool := if dmem n pv then pv else dset n true pv.
Lemma fold_flat {A B C} (f : C -> B -> C) (g : A -> list B) l : forall acc, fold_left f (flat_map g l) acc = fold_left (fun a x => fold_left f (g x) a) l acc.
Proof. induction l as [|x r IH]; intros acc; cbn [flat_map fold_left]; [reflexivity|]. now rewrite fold_left_app, IH. Qed.
Lemma fold_ext {A B} (f g : B -> A -> B) l : (forall b a, f b a = g b a) -> forall acc, fold_left f l acc = fold_left g l acc.
Proof. intros H. induction l as [|x r IH]; intros acc; cbn [fold_left]; [reflexivity|]. now rewrite H, IH. Qed.
Lemma calc_edges ports pv : calc_visibility vstr eqv ports pv = fold_left (fun pv e => add (snd e) (add (fst e) pv)) (edges ports) pv.
Proof.
  unfold calc_visibility, edges. set (lookup := fold_left (fun d kv => dset (fst kv) (snd kv) d) _ []). rewrite fold_flat. apply fold_ext. intros b pl. rewrite fold_flat. apply fold_ext. intros b2 i.
  destruct i as [|nm p dis v]; [reflexivity|]. destruct (eqv v (vstr dis)); [reflexivity|].
  destruct (find (fun kv => eqv (vstr (fst kv)) v) lookup) as [[cv [conn p']]|]; [|reflexivity]. destruct (Nat.eqb p' p); reflexivity.
Qed.
Lemma add_nonempty n pv : add n pv <> [].
Proof. unfold add. destruct (dmem n pv) eqn:E; [|destruct pv as [|[k b] r]; cbn; [discriminate|destruct (String.eqb n k); discriminate]]. intros ->. discriminate. Qed.
Lemma calc_empty ports pv : calc_visibility vstr eqv ports [] = [] -> calc_visibility vstr eqv ports pv = pv.
Proof.
  rewrite !calc_edges. destruct (edges ports) as [|e r]; cbn [fold_left]; [reflexivity|]. intros H. exfalso. revert H.
  assert (G : forall l p, p <> [] -> fold_left (fun pv e => add (snd e) (add (fst e) pv)) l p <> []).
  { induction l as [|x t IH]; intros p Hp; cbn [fold_left]; [exact Hp|]. apply IH. apply add_nonempty. }
  apply G. apply add_nonempty.
Qed.
Definition vis (b : option bool) : bool := match b with Some b => b | None => false end.
Definition knows (c : child) (q : string) : bool := vis (dget q (ch_pvis c)).
Lemma rows_pvis ports l : forall (c : child) q, q <> ch_name c ->
  dget q (ch_pvis (fst (layout_rows none vstr eqv same ports c l))) = match last_row q l with Some r => Some (r_visible r) | None => dget q (ch_pvis c) end.
Proof.
  induction l as [|r t IH]; intros c q Hq; cbn [layout_rows]; [reflexivity|]. rewrite last_row_cons.
  destruct (String.eqb_spec (r_name r) (ch_name c)) as [e|N].
  - set (cr := match ch_visible c with Some true => if r_visible r then (c, None) else sever none vstr eqv same c ports None | _ => (c, None) end).
    assert (M : moved none eqv c (fst cr) (snd cr)).
    { unfold cr. destruct (ch_visible c) as [[|]|]; [destruct (r_visible r)| |]; try apply moved_refl. apply put_attrs_moved. }
    destruct cr as [c0 r0]. cbn [fst snd] in M. set (c1 := with_place c0 _ _ _). specialize (IH c1 q). destruct (layout_rows none vstr eqv same ports c1 t) as [c2 r2]. cbn [fst] in *.
    assert (Nm : ch_name c1 = ch_name c) by apply M. rewrite IH by congruence.
    destruct (last_row q t); [reflexivity|]. destruct (String.eqb_spec (r_name r) q) as [X|X]; [congruence|]. cbn [c1 with_place ch_pvis]. f_equal. apply M.
  - set (cr := if _ && negb (r_visible r) then sever none vstr eqv same c ports (Some (r_name r)) else (c, None)).
    assert (M : moved none eqv c (fst cr) (snd cr)).
    { unfold cr. destruct (_ && negb (r_visible r)); [apply put_attrs_moved|apply moved_refl]. }
    destruct cr as [c0 r0]. cbn [fst snd] in M. set (c1 := with_pvis c0 _). specialize (IH c1 q). destruct (layout_rows none vstr eqv same ports c1 t) as [c2 r2]. cbn [fst] in *.
    assert (Nm : ch_name c1 = ch_name c) by apply M. rewrite IH by congruence.
    destruct (last_row q t); [reflexivity|]. cbn [c1 with_pvis ch_pvis]. destruct (String.eqb_spec (r_name r) q) as [X|X].
    + rewrite X. apply dget_dset_same.
    + rewrite dget_dset_other by exact X. f_equal. apply M.
Qed.
Lemma rows_nonempty ports l : forall (c : child), ch_pvis c <> [] -> ch_pvis (fst (layout_rows none vstr eqv same ports c l)) <> [].
Proof.
  induction l as [|r t IH]; intros c Hq; cbn [layout_rows]; [exact Hq|].
  destruct (String.eqb_spec (r_name r) (ch_name c)) as [e|N].
  - set (cr := match ch_visible c with Some true => if r_visible r then (c, None) else sever none vstr eqv same c ports None | _ => (c, None) end).
    assert (M : moved none eqv c (fst cr) (snd cr)).
    { unfold cr. destruct (ch_visible c) as [[|]|]; [destruct (r_visible r)| |]; try apply moved_refl. apply put_attrs_moved. }
    destruct cr as [c0 r0]. cbn [fst snd] in M. set (c1 := with_place c0 _ _ _). specialize (IH c1). destruct (layout_rows none vstr eqv same ports c1 t) as [c2 r2]. cbn [fst] in *.
    apply IH. cbn [c1 with_place ch_pvis]. destruct M as (_ & (_ & _ & _ & E) & _). now rewrite E.
  - set (cr := if _ && negb (r_visible r) then sever none vstr eqv same c ports (Some (r_name r)) else (c, None)). destruct cr as [c0 r0].
    set (c1 := with_pvis c0 _). specialize (IH c1). destruct (layout_rows none vstr eqv same ports c1 t) as [c2 r2]. cbn [fst] in *.
    apply IH. cbn [c1 with_pvis ch_pvis]. destruct (ch_pvis c0) as [|[k b] y]; cbn [dset]; [discriminate|]. destruct (String.eqb (r_name r) k); discriminate.
Qed.
(* every part knows which others are shown; and those that know of none are as if no part was
   connected at the start *)
Definition informed (m : mgr) : Prop :=
  (forall c, In c (m_parts m) -> ch_pvis c <> [] \/ calc_visibility vstr eqv (m_ports m) [] = []) /\
  (forall c d, In c (m_parts m) -> In d (m_parts m) -> ch_name c <> ch_name d -> knows c (ch_name d) = vis (ch_visible d)).
Lemma on_layout_pvis ports value (c : child) q : ch_pvis c <> [] \/ calc_visibility vstr eqv ports [] = [] -> q <> ch_name c ->
  dget q (ch_pvis (fst (on_layout ports value c))) = match last_row q value with Some r => Some (r_visible r) | None => dget q (ch_pvis c) end.
Proof.
  intros H Hq. unfold Mgr_Model.on_layout. pose proof (rows_pvis ports value c q Hq) as R. destruct (layout_rows none vstr eqv same ports c value) as [c1 r1]. cbn [fst] in R.
  set (c2 := if match ch_pvis c with [] => true | _ => false end then _ else c1).
  assert (E : ch_pvis c2 = ch_pvis c1).
  { unfold c2. destruct (ch_pvis c) eqn:X; [|reflexivity]. destruct H as [H|H]; [congruence|]. cbn [with_pvis ch_pvis]. now apply calc_empty. }
  clearbody c2. destruct (ch_visible c2); cbn [fst with_place ch_pvis]; now rewrite E.
Qed.
Lemma on_layout_visible ports value (c : child) : ch_visible c <> None ->
  vis (ch_visible (fst (on_layout ports value c))) = match last_row (ch_name c) value with Some r => r_visible r | None => vis (ch_visible c) end.
Proof.
  intros H. pose proof (on_layout_spec none eqv same vstr ports value c) as (_ & _ & P). specialize (P H). apply (f_equal r_visible) in P.
  cbn [row_of r_visible] in P. unfold vis. rewrite P. unfold placed. cbn [row_of r_name]. now destruct (last_row (ch_name c) value).
Qed.
Lemma set_layout_informed m value : laid m -> informed m -> informed (set_layout m value).
Proof.
  intros (_ & L & _) (I1 & I2). destruct (set_layout_fields none vstr eqv same m value) as (A1 & A2 & _). destruct (hooked_spec (on_layout (m_ports m) value) m) as (B & _).
  unfold informed. rewrite A1, A2, B. split.
  - intros c Hc. apply in_map_iff in Hc as (c0 & <- & Hc). destruct (I1 c0 Hc) as [N|N]; [left|now right].
    unfold Mgr_Model.on_layout. pose proof (rows_nonempty (m_ports m) value c0 N) as R. destruct (layout_rows none vstr eqv same (m_ports m) c0 value) as [c1 r1]. cbn [fst] in R.
    destruct (ch_pvis c0); [contradiction|]. cbn beta iota. destruct (ch_visible c1); cbn [fst with_place ch_pvis]; exact R.
  - intros c d Hc Hd N. apply in_map_iff in Hc as (c0 & <- & Hc). apply in_map_iff in Hd as (d0 & <- & Hd).
    destruct (on_layout_spec none eqv same vstr (m_ports m) value c0) as (((Nc & _) & _) & _). destruct (on_layout_spec none eqv same vstr (m_ports m) value d0) as (((Nd & _) & _) & _).
    rewrite Nc, Nd in N. unfold knows. rewrite Nd, on_layout_pvis; [|now apply I1|congruence]. rewrite on_layout_visible by now apply L.
    destruct (last_row (ch_name d0) value); [reflexivity|]. now apply I2.
Qed.
Lemma hooked_informed (f : child -> child * option (dict (V * V))) m : (forall c, fixed c (fst (f c)) /\ inplace c (fst (f c))) -> informed m -> informed (hooked f m).
Proof.
  intros F (I1 & I2). destruct (hooked_spec f m) as (A1 & A2 & _). unfold informed. rewrite A1, A2. split.
  - intros c Hc. apply in_map_iff in Hc as (c0 & <- & Hc). destruct (F c0) as (_ & _ & _ & _ & E). rewrite E. now apply I1.
  - intros c d Hc Hd N. apply in_map_iff in Hc as (c0 & <- & Hc). apply in_map_iff in Hd as (d0 & <- & Hd).
    destruct (F c0) as ((Nc & _) & _ & _ & _ & Ec). destruct (F d0) as ((Nd & _) & _ & _ & Ed & _). unfold knows. rewrite Ec, Nd, Ed. rewrite Nc, Nd in N. now apply I2.
Qed.
Lemma informed_ext (m m' : mgr) : m_ports m' = m_ports m -> (exists f, m_parts m' = map f (m_parts m) /\ forall c, fixed c (f c) /\ inplace c (f c)) -> informed m -> informed m'.
Proof.
  intros P (f & A1 & F) (I1 & I2). unfold informed. rewrite A1, P. split.
  - intros c Hc. apply in_map_iff in Hc as (c0 & <- & Hc). destruct (F c0) as (_ & _ & _ & _ & E). rewrite E. now apply I1.
  - intros c d Hc Hd N. apply in_map_iff in Hc as (c0 & <- & Hc). apply in_map_iff in Hd as (d0 & <- & Hd).
    destruct (F c0) as ((Nc & _) & _ & _ & _ & Ec). destruct (F d0) as ((Nd & _) & _ & _ & Ed & _). unfold knows. rewrite Ec, Nd, Ed. rewrite Nc, Nd in N. now apply I2.
Qed.
Lemma load_informed m f d : laid m -> informed m -> informed (load_file none vstr eqv same m f d false).
Proof.
  intros L I. destruct (load_file_fields none vstr eqv same m f d) as (A1 & _ & _ & _ & _ & _ & _ & _ & _ & A10 & _). set (value := map _ (f_layout f)) in *.
  eapply informed_ext; [|exists (fun c => fst (on_load none eqv same false (match dget (ch_name c) (f_children f) with Some s => s | None => [] end) c)); split; [exact A1|]|apply (set_layout_informed m value L I)].
  - rewrite A10. destruct (set_layout_fields none vstr eqv same m value) as (_ & A2 & _). now rewrite A2.
  - intros c. pose proof (on_load_moved none eqv same (match dget (ch_name c) (f_children f) with Some s => s | None => [] end) c) as (X & Y & _). split; assumption.
Qed.
Lemma step_informed m o : laid m -> informed m -> informed (step m o).
Proof.
  intros L I. destruct o; cbn [Mgr_Model.step].
  - now apply set_layout_informed.
  - exact I.
  - apply (hooked_informed (on_part none eqv same part n v)); [|exact I]. intros c. destruct (on_part_moved none eqv same part n v c) as (A & B & _). auto.
  - exact I.
  - destruct (do_save js m design) as [m'|] eqn:E; [|exact I]. apply do_save_fields in E as (A1 & A2 & _). eapply informed_ext; [exact A2| |exact I].
    exists on_save. split; [exact A1|]. intros c. split; [repeat split|repeat split].
  - unfold Mgr_Model.do_load. destruct (String.eqb design ""); [now apply load_informed|].
    destruct (dget (before_json design) (m_files m)); [now apply load_informed|exact I].
Qed.
Lemma run_informed os : forall m, laid m -> informed m -> informed (run m os).
Proof. induction os as [|o r IH]; intros m L I; cbn [Mgr_Model.run fold_left]; [exact I|]. apply IH; [now apply step_laid|now apply step_informed]. Qed.
Lemma run_ports os : forall m, m_ports (run m os) = m_ports m.
Proof.
  induction os as [|o r IH]; intros m; cbn [Mgr_Model.run fold_left]; [reflexivity|]. unfold Mgr_Model.run in IH. rewrite IH. destruct o; cbn [Mgr_Model.step].
  - apply (set_layout_fields none vstr eqv same m value).
  - reflexivity.
  - apply (hooked_spec (on_part none eqv same part n v) m).
  - reflexivity.
  - destruct (do_save js m design) as [m'|] eqn:E; [|reflexivity]. apply do_save_fields in E. apply E.
  - unfold Mgr_Model.do_load. destruct (String.eqb design ""); [apply (load_file_fields none vstr eqv same m (mkF [] [] [] []) "")|].
    destruct (dget (before_json design) (m_files m)) as [f|]; [apply (load_file_fields none vstr eqv same m f design)|reflexivity].
Qed.
Lemma made_informed parts ports own files : (forall c, In c parts -> ch_visible c = None /\ ch_pvis c = []) -> informed (made parts ports own files).
Proof.
  intros H. unfold Mgr_Model.made. set (m0 := mkM parts ports [] [] None [] [] false own "" files).
  destruct (set_layout_fields none vstr eqv same m0 []) as (A1 & A2 & _). destruct (hooked_spec (on_layout (m_ports m0) []) m0) as (B & _). unfold informed. rewrite A1, A2, B. cbn [m0 m_ports m_parts].
  set (P := calc_visibility vstr eqv ports []).
  assert (G : forall c, In c parts -> ch_pvis (fst (on_layout ports [] c)) = P /\ ch_visible (fst (on_layout ports [] c)) = Some (vis (dget (ch_name c) P)) /\ ch_name (fst (on_layout ports [] c)) = ch_name c).
  { intros c Hc. destruct (H c Hc) as [E1 E2]. unfold Mgr_Model.on_layout. cbn [layout_rows]. rewrite E2. cbn [with_pvis ch_visible ch_pvis ch_name]. rewrite E1. cbn [fst with_place ch_pvis ch_visible ch_name ch_x ch_y]. repeat split. }
  split.
  - intros c Hc. apply in_map_iff in Hc as (c0 & <- & Hc). destruct (G c0 Hc) as (-> & _). destruct P; [now right|left; discriminate].
  - intros c d Hc Hd N. apply in_map_iff in Hc as (c0 & <- & Hc). apply in_map_iff in Hd as (d0 & <- & Hd). unfold knows.
    destruct (G c0 Hc) as (E1 & _ & _). destruct (G d0 Hd) as (_ & E2 & E3). rewrite E1, E2, E3. reflexivity.
Qed.

(* one row, hidden *)
Definition cut (m : mgr) (q : string) (c : child) (n : string) (a : attr) (dis : string) : Prop :=
  exists p v, In (Sink n p dis v) (ports_of (m_ports m) (ch_name c)) /\ a_writeable a = true /\ shown m q /\
    (ch_name c = q \/ feeds (m_ports m) q p (a_value a)).
Theorem C46_hiding_cuts parts ports own files os r :
  let m := run (made parts ports own files) os in let m' := step m (SetLayout [r]) in
  (forall c, In c parts -> ch_visible c = None /\ ch_pvis c = []) -> NoDup (map ch_name parts) ->
  (forall q, NoDup (sink_names (ports_of ports q)) /\ NoDup (source_values (ports_of ports q))) ->
  r_visible r = false -> In (r_name r) (map ch_name parts) -> r_name r <> ""%string ->
  forall c, In c (m_parts m) -> exists c', In c' (m_parts m') /\ ch_name c' = ch_name c /\
    forall n a, dget n (ch_attrs c) = Some a ->
      (exists dis, cut m (r_name r) c n a dis /\ dget n (ch_attrs c') = Some (revalued a (a_validate a (vstr dis)))) \/
      ((forall dis, ~ cut m (r_name r) c n a dis) /\ dget n (ch_attrs c') = Some a).
Proof.
  cbn zeta. intros H0 D Hp Hr Hin Hne c Hc.
  destruct (ever none vstr eqv same js parts ports own files os) as (L & _ & Nm & _).
  pose proof (run_informed os _ (proj1 (made_laid none vstr eqv same parts ports own files)) (made_informed parts ports own files H0)) as (I1 & I2).
  assert (Pt : m_ports (run (made parts ports own files) os) = ports).
  { rewrite run_ports. unfold Mgr_Model.made. now destruct (set_layout_fields none vstr eqv same (mkM parts ports [] [] None [] [] false own "" files) []) as (_ & -> & _). }
  set (m := run (made parts ports own files) os) in *. exists (fst (on_layout (m_ports m) [r] c)). split; [|split].
  - cbn [Mgr_Model.step]. destruct (set_layout_fields none vstr eqv same m [r]) as (A1 & _). destruct (hooked_spec (on_layout (m_ports m) [r]) m) as (B & _). rewrite A1, B.
    apply (in_map (fun c => fst (on_layout (m_ports m) [r] c))). exact Hc.
  - apply (on_layout_spec none eqv same vstr).
  - intros n a Ha. destruct L as (L1 & L2 & _).
    assert (Sh : shown m (r_name r) <-> exists d, In d (m_parts m) /\ ch_name d = r_name r /\ vis (ch_visible d) = true).
    { unfold shown. rewrite L1. split.
      - intros (x & Hx & E1 & E2). apply in_map_iff in Hx as (d & <- & Hd). exists d. auto.
      - intros (d & Hd & E1 & E2). exists (row_of d). split; [now apply in_map|]. auto. }
    assert (E : ch_attrs (fst (on_layout (m_ports m) [r] c)) = ch_attrs (fst (layout_rows none vstr eqv same (m_ports m) c [r]))).
    { unfold Mgr_Model.on_layout. destruct (layout_rows none vstr eqv same (m_ports m) c [r]) as [c1 r1]. destruct (ch_pvis c); cbn beta iota; cbn [with_pvis ch_visible]; destruct (ch_visible c1); reflexivity. }
    rewrite E. clear E. cbn [layout_rows]. rewrite Hr. cbn [negb]. rewrite andb_true_r.
    pose proof (sinks_iff (m_ports m) c) as Si. rewrite Pt in *. destruct (Hp (ch_name c)) as [Ds _]. destruct (Hp (r_name r)) as [_ Dv].
    assert (U : forall p dis p' dis' v v', In (Sink n p dis v) (ports_of ports (ch_name c)) -> In (Sink n p' dis' v') (ports_of ports (ch_name c)) -> p = p' /\ dis = dis').
    { intros p dis p' dis' v v' X Y. assert (X' : dget n (sinks ports c) = Some (p, dis)) by (apply Si; eauto). assert (Y' : dget n (sinks ports c) = Some (p', dis')) by (apply Si; eauto).
      split; congruence. }
    unfold cut. rewrite Pt.
    destruct (String.eqb_spec (r_name r) (ch_name c)) as [e|N].
    + assert (V' : vis (ch_visible c) = true <-> shown m (r_name r)).
      { rewrite Sh. split; [intros X; exists c; auto|]. intros (d & Hd & E1 & E2). assert (d = c) as ->; [|exact E2].
        rewrite e in E1. rewrite <- Nm in D. clear -D Hd Hc E1. unfold names in D. induction (m_parts m) as [|x l IH]; [destruct Hd|]. cbn [map] in D. inversion D as [|? ? Dn Dd]; subst.
        destruct Hd as [->|Hd], Hc as [->|Hc]; [reflexivity| | |now apply IH]; exfalso; apply Dn; [rewrite E1|rewrite <- E1]; now apply in_map. }
      destruct (ch_visible c) as [[|]|] eqn:Ev.
      * pose proof (sever_get ports c None n a Ha) as G. destruct (sever none vstr eqv same c ports None) as [c1 r1]. cbn [fst with_place ch_attrs] in *. rewrite G.
        rewrite (severed_get ports c None n a Ha). destruct (dget n (sinks ports c)) as [[p dis]|] eqn:Es.
        -- assert (Hs : exists v, In (Sink n p dis v) (ports_of ports (ch_name c))) by now apply Si. destruct Hs as (v & Hs). cbn [andb]. destruct (a_writeable a) eqn:Ew.
           ++ left. exists dis. split; [|reflexivity]. exists p, v. split; [exact Hs|]. split; [reflexivity|]. split; [now apply V'|]. now left.
           ++ right. split; [|reflexivity]. intros dis' (p' & v' & _ & X & _). discriminate.
        -- right. split; [|reflexivity]. intros dis' (p' & v' & X & _). assert (Y : dget n (sinks ports c) = Some (p', dis')) by (apply Si; eauto). congruence.
      * cbn [fst with_place ch_attrs]. right. split; [|exact Ha]. intros dis' (p' & v' & _ & _ & X & _). apply V' in X. discriminate.
      * exfalso. now apply (L2 c Hc).
    + assert (K : match dget (r_name r) (ch_pvis c) with Some b => b | None => false end = true <-> shown m (r_name r)).
      { rewrite Sh. fold (vis (dget (r_name r) (ch_pvis c))). fold (knows c (r_name r)). split.
        - intros X. rewrite <- Nm in Hin. unfold names in Hin. apply in_map_iff in Hin as (d & E1 & Hd). exists d. split; [exact Hd|]. split; [exact E1|]. rewrite <- I2 with (c := c); [now rewrite E1|exact Hc|exact Hd|congruence].
        - intros (d & Hd & E1 & E2). rewrite <- E1. rewrite I2; [exact E2|exact Hc|exact Hd|congruence]. }
      destruct (match dget (r_name r) (ch_pvis c) with Some b => b | None => false end).
      * pose proof (sever_get ports c (Some (r_name r)) n a Ha) as G. destruct (sever none vstr eqv same c ports (Some (r_name r))) as [c1 r1]. cbn [fst with_pvis ch_attrs] in *. rewrite G.
        rewrite (severed_get ports c (Some (r_name r)) n a Ha). destruct (String.eqb_spec (r_name r) "") as [X|_]; [contradiction|].
        destruct (dget n (sinks ports c)) as [[p dis]|] eqn:Es.
        -- assert (Hs : exists v, In (Sink n p dis v) (ports_of ports (ch_name c))) by now apply Si. destruct Hs as (v & Hs).
           pose proof (looks_up_iff ports (r_name r) p (a_value a) Dv) as Lk. destruct (looks_up vstr eqv (source_lookup (ports_of ports (r_name r))) (a_value a) p); cbn [andb].
           ++ destruct (a_writeable a) eqn:Ew.
              ** left. exists dis. split; [|reflexivity]. exists p, v. split; [exact Hs|]. split; [reflexivity|]. split; [now apply K|]. right. now apply Lk.
              ** right. split; [|reflexivity]. intros dis' (p' & v' & _ & X & _). discriminate.
           ++ right. split; [|reflexivity]. intros dis' (p' & v' & X & _ & _ & [Y|Y]); [congruence|]. destruct (U _ _ _ _ _ _ X Hs) as [-> ->]. apply Lk in Y. discriminate.
        -- right. split; [|reflexivity]. intros dis' (p' & v' & X & _). assert (Y : dget n (sinks ports c) = Some (p', dis')) by (apply Si; eauto). congruence.
      * cbn [fst with_pvis ch_attrs]. right. split; [|exact Ha]. intros dis' (p' & v' & _ & _ & X & _). apply K in X. discriminate.
Qed.
End P.

Local Open Scope string_scope.
Local Open Scope list_scope.
(* the case of C24_ex_severed meets all of it *)
Lemma one_val a b v : val_eqb (VS a) v = true -> val_eqb (VS b) v = true -> a = b.
Proof. intros H1 H2. apply val_eqb_iff in H1, H2. congruence. Qed.
Example C46_ex : (forall c, In c [pA; pB] -> ch_visible c = None /\ ch_pvis c = []) /\ NoDup (map ch_name [pA; pB]) /\
  (forall q, NoDup (sink_names (ports_of pports q)) /\ NoDup (source_values (ports_of pports q))) /\
  (exists c a dis, In c (m_parts m0) /\ dget "inp" (ch_attrs c) = Some a /\ cut VS val_eqb m0 "A" c "inp" a dis) /\
  (forall dis a, ~ cut VS val_eqb m0 "A" (hd pA (m_parts m0)) "x" a dis).
Proof.
  split; [intros c [<-|[<-|[]]]; split; reflexivity|]. split; [exact names_differ|]. split; [|split].
  - intros q. unfold ports_of. cbn [pports dget]. destruct (String.eqb q "A"); [|destruct (String.eqb q "B")]; cbn; split; repeat constructor; intros [].
  - exists (nth 1 (m_parts m0) pA), (plain (VS "A.OUT")), "ZERO". split; [vm_compute; auto|]. split; [vm_compute; reflexivity|]. exists 1, (VS "A.OUT"). split; [vm_compute; auto|].
    split; [reflexivity|]. split; [exists (mkRow "A" "ML:A" 0 0 true); vm_compute; auto|]. right. exists "out", "A.OUT". split; [vm_compute; auto|reflexivity].
  - intros dis a (p & v & H & _). vm_compute in H. destruct H as [H|[]]. discriminate.
Qed.
(* finding: a part shown from the start by initial_visibility, not by a connection, is not known to
   be shown by the others: a connection made later stays when it is hidden *)
Definition qA : @child val := with_place pA 0 0 (Some true).
Definition qB : @child val := with_place (with_attrs pB [("inp", plain (VS "ZERO"))]) 0 0 (Some true).
Definition qports : dict (list (@portinfo val)) := [("A", [Source "out" 1 "A.OUT"]); ("B", [Sink "inp" 1 "ZERO" (VS "ZERO")])].
Theorem C46_initial_visibility_refuted : let m := mrun (mmade [qA; qB] qports [] []) [ChildSet "B" "inp" (VS "A.OUT")] in
  let m' := mrun m [SetLayout [mkRow "A" "" 0 0 false]] in
  (exists c a, In c (m_parts m) /\ dget "inp" (ch_attrs c) = Some a /\ cut VS val_eqb m "A" c "inp" a "ZERO") /\
  map (fun c => map (fun na => a_value (snd na)) (ch_attrs c)) (m_parts m') = [[VI 0; VI 0; VS "idle"]; [VS "A.OUT"]].
Proof.
  cbn zeta. split; [|vm_compute; reflexivity].
  exists (nth 1 (m_parts (mrun (mmade [qA; qB] qports [] []) [ChildSet "B" "inp" (VS "A.OUT")])) pA), (plain (VS "A.OUT")). split; [vm_compute; auto|]. split; [vm_compute; reflexivity|].
  exists 1, (VS "ZERO"). split; [vm_compute; auto|]. split; [reflexivity|]. split; [exists (mkRow "A" "ML:A" 0 0 true); vm_compute; auto|]. right. exists "out", "A.OUT". split; [vm_compute; auto|reflexivity].
Qed.
(* finding: rows with an empty name, shown and then hidden, cut every connection *)
Theorem C46_empty_name_refuted : let m := mrun m0 [SetLayout [mkRow "" "" 0 0 true]; SetLayout [mkRow "" "" 0 0 false]] in
  m_layout m = m_layout m0 /\ option_map a_value (dget "inp" (ch_attrs (nth 1 (m_parts m) pA))) = Some (VS "ZERO").
Proof. vm_compute. split; reflexivity. Qed.

Print Assumptions C46_hiding_cuts.
Print Assumptions C46_initial_visibility_refuted.
Print Assumptions C46_empty_name_refuted.
