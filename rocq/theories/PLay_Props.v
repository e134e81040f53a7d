(* C82: the layout of a PandA and the layout table of its block agree. *)
From Coq Require Import String Bool ZArith Lia List Permutation.
From Verif Require Import Base Mgr_Model Mgr_Spec Mgr_Proofs MgrInv_Proofs Mgr_Props PLay_Model.
Import ListNotations.
Local Open Scope list_scope.

(* ---- what C82 says ---- *)
(* a table shows a layout: the blocks of the layout are visible, at their places, the others are
   hidden *)
Definition shows (table : list row) (l : dict (Z * Z)) : Prop :=
  forall r, In r table -> dget (r_name r) l = if r_visible r then Some (r_x r, r_y r) else None.
(* the same layout, whatever the order *)
Definition alike (a b : dict (Z * Z)) : Prop := forall n, dget n a = dget n b.

(* ---- proofs ---- *)
Lemma place_eqb_iff a b : place_eqb a b = true <-> a = b.
Proof. unfold place_eqb. destruct a, b. cbn. rewrite andb_true_iff, !Z.eqb_eq. split; [intros []; congruence|intros E; injection E; auto]. Qed.
Lemma within_iff a b : NoDup (dkeys a) -> (within a b = true <-> forall n v, dget n a = Some v -> dget n b = Some v).
Proof.
  intros N. unfold within. rewrite forallb_forall. split.
  - intros H n v E. specialize (H (n, v) (dget_Some_In _ _ E)). cbn [fst snd] in H. destruct (dget n b); [|discriminate].
    apply place_eqb_iff in H. congruence.
  - intros H [n v] I. cbn [fst snd]. rewrite (H n v); [apply place_eqb_iff; reflexivity|]. apply dget_In_nodup; assumption.
Qed.
Lemma json_eqb_iff a b : NoDup (dkeys a) -> NoDup (dkeys b) -> (json_eqb a b = true <-> alike a b).
Proof.
  intros Na Nb. unfold json_eqb. rewrite andb_true_iff, (within_iff a b Na), (within_iff b a Nb). split.
  - intros [H1 H2] n. destruct (dget n a) eqn:E; [symmetry; auto|]. destruct (dget n b) eqn:E2; [|reflexivity].
    apply H2 in E2. congruence.
  - intros H. split; intros n v E; [rewrite <- H|rewrite H]; exact E.
Qed.
Lemma take_nodup l : forall j, NoDup (dkeys j) -> NoDup (dkeys (take j l)).
Proof.
  induction l as [|r l IH]; intros j N; [exact N|]. unfold take. cbn [fold_left]. apply IH.
  destruct (r_visible r); [apply dset_nodup, N|apply ddel_nodup, N].
Qed.
Lemma take_other l n : ~ In n (map r_name l) -> forall j, NoDup (dkeys j) -> dget n (take j l) = dget n j.
Proof.
  induction l as [|r l IH]; intros H j N; [reflexivity|]. unfold take. cbn [fold_left]. cbn in H.
  change (dget n (take (if r_visible r then dset (r_name r) (r_x r, r_y r) j else ddel (r_name r) j) l) = dget n j).
  destruct (r_visible r); rewrite IH by (try tauto; try apply dset_nodup; try apply ddel_nodup; assumption).
  - apply dget_dset_other. tauto.
  - rewrite dget_ddel by exact N. destruct (String.eqb_spec n (r_name r)) as [->|]; [tauto|]. destruct (String.eqb_spec (r_name r) n); [congruence|reflexivity].
Qed.
Lemma take_in l : NoDup (map r_name l) -> forall j, NoDup (dkeys j) -> shows l (take j l).
Proof.
  induction l as [|r l IH]; intros D j N x I; [destruct I|]. unfold take. cbn [fold_left]. cbn [map] in D. inversion D as [|? ? D1 D2]; subst.
  set (j1 := if r_visible r then dset (r_name r) (r_x r, r_y r) j else ddel (r_name r) j).
  assert (N1 : NoDup (dkeys j1)) by (unfold j1; destruct (r_visible r); [apply dset_nodup, N|apply ddel_nodup, N]).
  change (dget (r_name x) (take j1 l) = if r_visible x then Some (r_x x, r_y x) else None).
  destruct I as [<-|I]; [|apply (IH D2 j1 N1 x I)]. rewrite (take_other l _ D1 j1 N1). unfold j1. destruct (r_visible r).
  - apply dget_dset_same.
  - rewrite dget_ddel by exact N. rewrite String.eqb_refl. reflexivity.
Qed.

Section P.
Context {V : Type}.
Variable none : V.
Variable vstr : string -> V.
Variable eqv : V -> V -> bool.
Variable same : V * V -> V * V -> bool.
Variable js : V -> V.
Variable order : list string -> list string.
Hypothesis order_perm : forall l, Permutation (order l) l.
Notation panda := (@panda V).
Notation pstep := (pstep none vstr eqv same js order).
Notation prun := (prun none vstr eqv same js order).
Notation pmade := (pmade none vstr eqv same order).
Notation panda_set_layout := (panda_set_layout none vstr eqv same order).
Notation got_layout := (got_layout none vstr eqv same order).

Lemma layout_names m value : map r_name (m_layout (set_layout none vstr eqv same m value)) = names m.
Proof.
  destruct (set_layout_laid none vstr eqv same m value) as (L & _). rewrite L, map_map. cbn [row_of r_name].
  exact (same_names _ _ (set_layout_same none vstr eqv same m value)).
Qed.

(* the parts have different names, the dict of the layout its keys once *)
Definition sound (s : panda * dict (Z * Z)) : Prop :=
  let '(p, dev) := s in
  laid (pa_mgr p) /\ NoDup (names (pa_mgr p)) /\ NoDup (dkeys (pa_json p)) /\ NoDup (dkeys dev) /\ alike (pa_json p) dev
  /\ shows (m_layout (pa_mgr p)) (pa_json p).

Lemma set_sound (p : panda) dev value : NoDup (names (pa_mgr p)) -> NoDup (dkeys (pa_json p)) -> NoDup (dkeys dev) -> alike (pa_json p) dev ->
  let (p', w) := panda_set_layout p value in sound (p', kept dev w).
Proof.
  intros D N Nd A. unfold PLay_Model.panda_set_layout. set (value' := match value with [] => _ | _ => _ end). clearbody value'.
  set (m := set_layout none vstr eqv same (pa_mgr p) value').
  assert (Dm : NoDup (map r_name (m_layout m))) by (unfold m; rewrite layout_names; exact D).
  set (j := take (pa_json p) (m_layout m)). assert (Nj : NoDup (dkeys j)) by (apply take_nodup; exact N).
  unfold sound. cbn [pa_mgr pa_json]. split; [apply set_layout_laid|].
  split; [unfold m; rewrite (same_names _ _ (set_layout_same none vstr eqv same (pa_mgr p) value')); exact D|].
  split; [exact Nj|]. destruct (json_eqb j (pa_json p)) eqn:E; cbn [kept].
  - apply (json_eqb_iff _ _ Nj N) in E. split; [exact Nd|]. split; [intros n; rewrite E; apply A|]. apply take_in; assumption.
  - split; [exact Nj|]. split; [intros n; reflexivity|]. apply take_in; assumption.
Qed.
Definition other (o : @op V) : Prop := match o with SetLayout _ | Load _ => False | _ => True end.
Lemma other_layout m o : laid m -> other o -> m_layout (step none vstr eqv same js m o) = m_layout m.
Proof.
  intros L H. destruct o; try contradiction; cbn [Mgr_Model.step]; try reflexivity.
  - match goal with |- m_layout (hooked ?f m) = _ => destruct (hooked_spec f m) as (_ & _ & A & _); exact A end.
  - destruct (do_save js m design) eqn:E; [|reflexivity]. apply do_save_fields in E as (_ & _ & A & _). exact A.
Qed.
Definition fine (o : pop) : Prop := match o with PSet _ => True | PDevice l => NoDup (dkeys l) | POther o => other o end.
Lemma step_sound s o : sound s -> fine o -> sound (pstep s o).
Proof.
  destruct s as [p dev]. intros (L & D & N & Nd & A & S) F. destruct o as [value|l|o]; cbn [PLay_Model.pstep].
  - pose proof (set_sound p dev value D N Nd A) as H. destruct (panda_set_layout p value) as [p' w]. exact H.
  - unfold PLay_Model.got_layout. destruct (m_layout (pa_mgr p)) as [|r t] eqn:E.
    + cbn [kept]. unfold sound. cbn [pa_mgr pa_json]. rewrite E. split; [exact L|]. split; [exact D|]. split; [exact F|]. split; [exact F|].
      split; [intros n; reflexivity|]. intros r [].
    + pose proof (set_sound (mkPa (pa_mgr p) l) l [] D F F (fun n => eq_refl)) as H.
      destruct (panda_set_layout (mkPa (pa_mgr p) l) []) as [p' w]. exact H.
  - unfold sound. cbn [pa_mgr pa_json]. cbn [fine] in F. rewrite (other_layout _ _ L F). split; [apply step_laid, L|].
    split; [|auto]. rewrite (same_names _ _ (step_same none vstr eqv same js (pa_mgr p) o)). exact D.
Qed.

(* Whatever happens, what the device keeps and what the table shows is the same. *)
Theorem C82_agree parts ports own files l os : NoDup (map ch_name parts) -> NoDup (dkeys l) -> (forall o, In o os -> fine o) ->
  let '(p, dev) := prun (pmade parts ports own files l) os in
  shows (m_layout (pa_mgr p)) dev /\ map r_name (m_layout (pa_mgr p)) = map ch_name parts.
Proof.
  intros D N F.
  set (m0 := mkM parts ports [] [] None [] [] false own "" files).
  assert (S0 : sound (pmade parts ports own files l)).
  { unfold PLay_Model.pmade. fold m0. pose proof (set_sound (mkPa m0 l) l [] D N N (fun n => eq_refl)) as H.
    destruct (panda_set_layout (mkPa m0 l) []) as [p w]. exact H. }
  assert (Nm : forall os s, sound s -> (forall o, In o os -> fine o) -> sound (prun s os) /\ names (pa_mgr (fst (prun s os))) = names (pa_mgr (fst s))).
  { clear. induction os as [|o os IH]; intros s S F; [split; [exact S|reflexivity]|]. cbn [PLay_Model.prun fold_left].
    destruct (IH (pstep s o) (step_sound s o S (F o (or_introl eq_refl))) (fun x I => F x (or_intror I))) as [A B].
    split; [exact A|]. etransitivity; [exact B|]. destruct s as [p dev]. cbn [fst]. destruct o as [value|l|o]; cbn [PLay_Model.pstep].
    - unfold PLay_Model.panda_set_layout. cbn [fst pa_mgr]. apply same_names, set_layout_same.
    - unfold PLay_Model.got_layout. destruct (m_layout (pa_mgr p)); [reflexivity|]. unfold PLay_Model.panda_set_layout. cbn [fst pa_mgr]. apply same_names, set_layout_same.
    - cbn [fst pa_mgr]. apply same_names, step_same. }
  destruct (Nm os _ S0 F) as [S E]. destruct (prun (pmade parts ports own files l) os) as [p dev].
  destruct S as (L & _ & _ & _ & A & Sh). cbn [fst] in E. split.
  - intros r I. rewrite <- A. exact (Sh r I).
  - destruct L as (L & _). rewrite L, map_map. cbn [row_of r_name]. change (names (pa_mgr p) = map ch_name parts). rewrite E.
    unfold PLay_Model.pmade, PLay_Model.panda_set_layout. cbn [fst pa_mgr].
    rewrite (same_names _ _ (set_layout_same none vstr eqv same _ _)). reflexivity.
Qed.

Lemma from_json_row layout json n : In n (map r_name layout) ->
  last_row n (from_json order layout json) = Some (match dget n json with Some (x, y) => mkRow n n x y true | None => mkRow n n 0 0 false end).
Proof.
  intros I. unfold from_json. set (f := fun n : string => match dget n json with Some (x, y) => mkRow n n x y true | None => mkRow n n 0 0 false end).
  assert (Fn : forall x, r_name (f x) = x) by (intros x; unfold f; destruct (dget x json) as [[? ?]|]; reflexivity).
  set (u := order _). assert (Iu : In n u).
  { unfold u. apply (Permutation_in _ (Permutation_sym (order_perm _))). apply nodup_In, in_or_app. left. exact I. }
  clearbody u. induction u as [|x u IH]; [destruct Iu|]. cbn [map]. rewrite last_row_cons. rewrite Fn.
  destruct (in_dec string_dec n u) as [Y|N].
  - rewrite (IH Y). reflexivity.
  - destruct Iu as [->|Iu]; [|contradiction]. rewrite String.eqb_refl.
    assert (last_row n (map f u) = None) as ->; [|reflexivity].
    clear IH. induction u as [|y u IH]; [reflexivity|]. cbn [map]. rewrite last_row_cons. cbn in N. rewrite IH by tauto.
    rewrite Fn. destruct (String.eqb_spec y n); [tauto|reflexivity].
Qed.

(* When the device has a new layout, the table shows it, the blocks not in it are hidden, and
   nothing is written back. *)
Theorem C82_device (p : panda) l : laid (pa_mgr p) -> NoDup (names (pa_mgr p)) -> NoDup (dkeys l) -> m_layout (pa_mgr p) <> [] ->
  let (p', w) := got_layout p l in
  w = None /\ alike (pa_json p') l
  /\ forall r, In r (m_layout (pa_mgr p)) ->
       In (match dget (r_name r) l with Some (x, y) => mkRow (r_name r) (r_mri r) x y true | None => mkRow (r_name r) (r_mri r) 0 0 false end)
          (m_layout (pa_mgr p')).
Proof.
  intros L D N E. unfold PLay_Model.got_layout. destruct (m_layout (pa_mgr p)) as [|r0 t0] eqn:E0; [congruence|]. rewrite <- E0 in *. clear E.
  unfold PLay_Model.panda_set_layout. cbn [pa_mgr pa_json]. set (v := from_json order (m_layout (pa_mgr p)) l).
  set (m := set_layout none vstr eqv same (pa_mgr p) v).
  assert (T : m_layout m = map (placed v) (m_layout (pa_mgr p))) by (apply laid_placed, L).
  assert (P : forall r, In r (m_layout (pa_mgr p)) -> placed v r = match dget (r_name r) l with Some (x, y) => mkRow (r_name r) (r_mri r) x y true | None => mkRow (r_name r) (r_mri r) 0 0 false end).
  { intros r I. unfold placed, v. rewrite from_json_row by (apply in_map, I). destruct (dget (r_name r) l) as [[x y]|]; reflexivity. }
  assert (Dm : NoDup (map r_name (m_layout m))) by (unfold m; rewrite layout_names; exact D).
  assert (A : alike (take l (m_layout m)) l).
  { intros n. destruct (in_dec string_dec n (map r_name (m_layout m))) as [I|I]; [|apply take_other; assumption].
    apply in_map_iff in I as (r & <- & I). rewrite (take_in _ Dm l N r I). rewrite T in I. apply in_map_iff in I as (r1 & <- & I).
    rewrite (P r1 I). destruct (dget (r_name r1) l) as [[x y]|] eqn:G; cbn [r_visible r_name r_x r_y]; rewrite G; reflexivity. }
  rewrite (proj2 (json_eqb_iff _ _ (take_nodup _ _ N) N) A). split; [reflexivity|]. split; [exact A|].
  intros r I. rewrite T, <- (P r I). apply in_map, I.
Qed.

(* When a table is put, the device is written to exactly if its layout is no longer that of the
   table, and is given the visible blocks with their places; names that are no blocks stay. *)
Theorem C82_put (p : panda) value : laid (pa_mgr p) -> NoDup (names (pa_mgr p)) -> NoDup (dkeys (pa_json p)) -> value <> [] ->
  let (p', w) := panda_set_layout p value in
  m_layout (pa_mgr p') = map (placed value) (m_layout (pa_mgr p))
  /\ (w = None <-> shows (m_layout (pa_mgr p')) (pa_json p))
  /\ (forall j, w = Some j -> shows (m_layout (pa_mgr p')) j /\ forall n, ~ In n (names (pa_mgr p)) -> dget n j = dget n (pa_json p)).
Proof.
  intros L D N E. unfold PLay_Model.panda_set_layout. destruct value as [|r0 value]; [congruence|]. set (v := r0 :: value) in *. cbn [pa_mgr].
  set (m := set_layout none vstr eqv same (pa_mgr p) v).
  assert (Dm : NoDup (map r_name (m_layout m))) by (unfold m; rewrite layout_names; exact D).
  pose proof (take_in _ Dm (pa_json p) N) as S. pose proof (take_nodup (m_layout m) _ N) as Nt.
  assert (O : forall n, ~ In n (names (pa_mgr p)) -> dget n (take (pa_json p) (m_layout m)) = dget n (pa_json p)).
  { intros n I. apply take_other; [|exact N]. unfold m. rewrite layout_names. exact I. }
  split; [apply laid_placed, L|]. split.
  - destruct (json_eqb _ _) eqn:B.
    + apply (json_eqb_iff _ _ Nt N) in B. split; [intros _ r I; rewrite <- B; exact (S r I)|reflexivity].
    + split; [discriminate|]. intros Sh. exfalso. enough (H : json_eqb (take (pa_json p) (m_layout m)) (pa_json p) = true) by congruence.
      apply (json_eqb_iff _ _ Nt N). intros n. destruct (in_dec string_dec n (map r_name (m_layout m))) as [I|I]; [|apply take_other; assumption].
      apply in_map_iff in I as (r & <- & I). rewrite (S r I), (Sh r I). reflexivity.
  - intros j H. destruct (json_eqb _ _); [discriminate|]. injection H as <-. auto.
Qed.
End P.
Print Assumptions C82_agree.
Print Assumptions C82_device.
Print Assumptions C82_put.

(* ---- a case ---- *)
Local Open Scope string_scope.
Local Open Scope list_scope.
Definition idl (l : list string) : list string := l.
Notation lrun := (prun VN VS val_eqb msg_eqb js0 idl).
Notation lmade := (pmade VN VS val_eqb msg_eqb idl).
Definition l0 := lmade [pA; pB] [] [] [] [("A", (3, 4)%Z); ("GONE", (1, 1)%Z)].
Definition seen_by (s : @panda val * dict (Z * Z)) := (map (fun r => (r_name r, r_x r, r_y r, r_visible r)) (m_layout (pa_mgr (fst s))), snd s).
Example C82_ex : seen_by l0 = ([("A", 3, 4, true); ("B", 0, 0, false)]%Z, [("A", (3, 4)%Z); ("GONE", (1, 1)%Z)])
  /\ seen_by (lrun l0 [PSet [mkRow "B" "" 5 7 true]]) = ([("A", 3, 4, true); ("B", 5, 7, true)]%Z, [("A", (3, 4)%Z); ("GONE", (1, 1)%Z); ("B", (5, 7)%Z)])
  /\ seen_by (lrun l0 [PSet [mkRow "B" "" 5 7 true]; PDevice [("B", (8, 8)%Z)]]) = ([("A", 0, 0, false); ("B", 8, 8, true)]%Z, [("B", (8, 8)%Z)])
  /\ NoDup (map ch_name [pA; pB]).
Proof. split; [vm_compute; reflexivity|]. split; [vm_compute; reflexivity|]. split; [vm_compute; reflexivity|exact names_differ]. Qed.

(* The place of a hidden block is lost when the device tells its layout, even the one it was given. *)
Theorem C82_hidden_refuted : exists value dev r1 r2,
  let s := lrun l0 [PSet value] in let s' := lrun s [PDevice dev] in
  dev = snd s /\ In r1 (m_layout (pa_mgr (fst s))) /\ In r2 (m_layout (pa_mgr (fst s')))
  /\ r_name r1 = r_name r2 /\ r_visible r1 = false /\ r_x r1 = 5%Z /\ r_x r2 = 0%Z.
Proof.
  exists [mkRow "B" "" 5 7 false], [("A", (3, 4)%Z); ("GONE", (1, 1)%Z)], (mkRow "B" "ML:B" 5 7 false), (mkRow "B" "ML:B" 0 0 false).
  cbn zeta. split; [vm_compute; reflexivity|]. split; [vm_compute; tauto|]. split; [vm_compute; tauto|]. repeat split.
Qed.
Print Assumptions C82_hidden_refuted.
