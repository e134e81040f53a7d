(* C109: a scan leaves the design alone, and parts put only to attributes their blocks have. *)
From Coq Require Import String Bool Arith ZArith Lia List.
From Verif Require Import Base Mgr_Model Mgr_Spec Mgr_Proofs MgrInv_Proofs Puts_Model.
Import ListNotations.
Local Open Scope string_scope.
Local Open Scope list_scope.

(* ---- specification ---- *)
(* a block has an attribute of that name that can be written *)
Definition writable (b : block) (n : string) : Prop := In (n, Cfg) b \/ In (n, Wr) b.
(* a child part of a manager is the part of that kind: it keeps at least what its class keeps out of
   the design, and the config attributes of its block are those of the YAML *)
Definition conforms {V} (k : kind) (ch : @child V) : Prop :=
  (forall n, In n (no_save_of k) -> In n (ch_nosave ch)) /\
  (forall n a i, dget n (ch_attrs ch) = Some a -> a_config a = Some i -> In (n, Cfg) (block_of k)).
(* the two seeks that put to an attribute that is not there *)
Definition seek_without_counter (c : call) : Prop := c = OdinSeek \/ c = XspressSeek.
(* exposure and deadtime are for blocks with exposure and acquirePeriod *)
Definition fits (c : call) : Prop := match c with XmapSetup e d => e = false /\ d = false | _ => True end.

(* ---- names ---- *)
Lemma dget_kind n k (b : block) : dget n b = Some k -> In (n, k) b.
Proof. apply dget_Some_In. Qed.
Lemma carried b l n : In n (fst (carry_out b l)) -> In n l.
Proof.
  induction l as [|x r IH]; cbn [carry_out]; [intros []|]. destruct (dget x b) as [[]|]; cbn [fst]; try (intros []);
  destruct (carry_out b r) as [d e] eqn:E; cbn [fst] in *; intros [->|H]; cbn; auto.
Qed.
Lemma carried_all b l : (forall n, In n l -> dget n b = Some Cfg \/ dget n b = Some Wr) -> carry_out b l = (l, None).
Proof.
  induction l as [|x r IH]; intros H; cbn [carry_out]; [reflexivity|]. rewrite IH by (intros n Hn; apply H; now right).
  destruct (H x (or_introl eq_refl)) as [-> | ->]; reflexivity.
Qed.
Lemma In_each n p l : In n (each p l) -> exists x, n = (p ++ x)%string /\ In x l.
Proof. intros H. apply in_map_iff in H as (x & <- & Hx). eauto. Qed.
Lemma each_sub p f l n : In n (each p (filter f l)) -> In n (each p l).
Proof. intros H. apply In_each in H as (x & -> & Hx). apply filter_In in Hx as [Hx _]. apply (in_map (fun y => (p ++ y)%string)), Hx. Qed.
(* all the names a call can put *)
Definition widest (c : call) : list string :=
  match c with
  | TrajWrite _ _ => puts (TrajWrite true cs_axis_names)
  | CsMove _ => puts (CsMove cs_axis_names)
  | c => puts c
  end.
Lemma filter_all : filter (fun a => smem a cs_axis_names) cs_axis_names = cs_axis_names.
Proof. reflexivity. Qed.
Lemma puts_widest c n : In n (puts c) -> In n (widest c).
Proof.
  destruct c; cbn [widest]; auto; cbn [puts]; rewrite filter_all, !in_app_iff.
  - intros [H|[H|H]]; [left; destruct build; [exact H|destruct H]|now right; left|right; right; now apply each_sub in H].
  - intros [H|[H|H]]; [now left| |now right; right]. right; left; now apply each_sub in H.
Qed.
Definition okw (b : block) (n : string) : bool := match dget n b with Some Cfg | Some Wr => true | _ => false end.
Lemma widest_ok c : fits c -> ~ seek_without_counter c -> forallb (okw (block_of (caller c))) (widest c) = true.
Proof.
  intros F N. destruct c; cbn [widest caller fits] in *; try (exfalso; apply N; unfold seek_without_counter; auto; fail);
  repeat match goal with b : bool |- _ => destruct b | k : kind |- _ => destruct k end; try (now destruct F); vm_compute; reflexivity.
Qed.
Definition kept (k : kind) (n : string) : bool := match dget n (block_of k) with Some Cfg => smem n (no_save_of k) | _ => true end.
Lemma widest_kept c : caller c <> Cs -> forallb (kept (caller c)) (widest c) = true.
Proof.
  intros F. destruct c; cbn [widest caller] in *; try (now destruct F);
  repeat match goal with b : bool |- _ => destruct b | k : kind |- _ => destruct k end; vm_compute; reflexivity.
Qed.
Lemma nodup_block k : NoDup (dkeys (block_of k)).
Proof. destruct k; vm_compute; repeat constructor; cbn; intuition discriminate. Qed.

(* every attribute a part puts is an attribute of its block, and can be written *)
Theorem C109_known c : fits c -> ~ seek_without_counter c ->
  (forall n, In n (puts c) -> writable (block_of (caller c)) n) /\ carry_out (block_of (caller c)) (puts c) = (puts c, None).
Proof.
  intros F N. pose proof (widest_ok c F N) as W. rewrite forallb_forall in W.
  assert (A : forall n, In n (puts c) -> dget n (block_of (caller c)) = Some Cfg \/ dget n (block_of (caller c)) = Some Wr).
  { intros n Hn. specialize (W n (puts_widest c n Hn)). unfold okw in W. destruct (dget n (block_of (caller c))) as [[]|]; auto; discriminate. }
  split; [|now apply carried_all]. intros n Hn. unfold writable. destruct (A n Hn) as [H|H]; apply dget_kind in H; auto.
Qed.
(* ... but the seek of the Odin and Xspress3 writers, with which such a scan cannot go on after a pause *)
Theorem C109_seek_refuted : exists c n, In n (puts c) /\ (forall k, ~ In (n, k) (block_of (caller c))) /\
  carry_out (block_of (caller c)) (puts c) = ([], Some (NoAttribute n)).
Proof.
  exists OdinSeek, "arrayCounter". split; [now left|]. split; [|reflexivity]. intros k H.
  apply (dget_In_nodup _ _ _ (nodup_block Odin)) in H. vm_compute in H. discriminate.
Qed.
Theorem C109_seek_fails c : seek_without_counter c -> carry_out (block_of (caller c)) (puts c) = ([], Some (NoAttribute "arrayCounter")).
Proof. intros [-> | ->]; reflexivity. Qed.
(* what a part other than a coordinate system puts is not in the saved design *)
Theorem C109_not_saved c n : caller c <> Cs -> In n (puts c) -> In (n, Cfg) (block_of (caller c)) -> In n (no_save_of (caller c)).
Proof.
  intros F Hn Hc. pose proof (widest_kept c F) as W. rewrite forallb_forall in W. specialize (W n (puts_widest c n Hn)).
  unfold kept in W. rewrite (dget_In_nodup _ _ _ (nodup_block _) Hc) in W. now apply smem_In.
Qed.
Lemma cs_puts c n : caller c = Cs -> In n (puts c) -> In (n, Cfg) (block_of Cs) -> n = "csMoveTime" \/ n = "deferMoves".
Proof.
  intros F Hn Hc. destruct c; cbn [caller] in F; try discriminate; try (destruct k; discriminate).
  apply (dget_In_nodup _ _ _ (nodup_block Cs)) in Hc. apply puts_widest in Hn. cbn [widest] in Hn. revert Hc. vm_compute in Hn.
  repeat (destruct Hn as [<-|Hn]; [vm_compute; auto; discriminate|]). destruct Hn.
Qed.

(* ---- the manager ---- *)
Section P.
Context {V : Type}.
Variable none : V.
Variable vstr : string -> V.
Variable eqv : V -> V -> bool.
Variable same : V * V -> V * V -> bool.
Variable js : V -> V.
Notation child := (@child V).
Notation mgr := (@mgr V).
Notation set_attr := (set_attr none eqv same).
Notation step := (step none vstr eqv same js).
Notation run := (run none vstr eqv same js).
Notation made := (made none vstr eqv same).

Lemma fixed_conforms k (c c' : child) : fixed c c' -> conforms k c -> conforms k c'.
Proof.
  intros (_ & _ & Hn & H) [A B]. split; [now rewrite Hn|]. intros n a' i Ha' Hi.
  pose proof (kinds_get c n) as K. pose proof (kinds_get c' n) as K'. rewrite H in K'. rewrite Ha' in K'.
  destruct (dget n (ch_attrs c)) as [a|] eqn:Ha; [|congruence]. assert (E : Mgr_Proofs.kind a = Mgr_Proofs.kind a') by congruence.
  unfold Mgr_Proofs.kind in E. apply (B n a i Ha). congruence.
Qed.
Lemma conforms_untracked (ch : child) c n : conforms (caller c) ch -> caller c <> Cs -> In n (puts c) -> tracked ch n = false.
Proof.
  intros [A B] F Hn. destruct (tracked ch n) eqn:T; [|reflexivity]. apply tracked_iff in T as (a & i & Ha & Hi & X).
  exfalso. apply X, A, (C109_not_saved c n F Hn). eauto.
Qed.
Lemma structure_set (ch : child) n a v : dget n (ch_attrs ch) = Some a ->
  fixed ch (with_attrs ch (dset n (revalued a v) (ch_attrs ch))) /\
  forall x, (x <> n -> dget x (structure (with_attrs ch (dset n (revalued a v) (ch_attrs ch)))) = dget x (structure ch)).
Proof.
  intros Ha.
  assert (F : fixed ch (with_attrs ch (dset n (revalued a v) (ch_attrs ch)))).
  { repeat split. unfold kinds. cbn [ch_attrs with_attrs]. revert Ha. induction (ch_attrs ch) as [|[y b] r IH]; cbn [dget dset map]; [discriminate|].
    destruct (String.eqb n y) eqn:E; cbn [map fst snd].
    - intros X. injection X as ->. reflexivity.
    - intros X. now rewrite (IH X). }
  split; [exact F|]. intros x Hx. unfold structure.
  rewrite (flat_map_ext _ (fun na : string * attr => if tracked ch (fst na) then [(fst na, a_value (snd na))] else [])).
  2:{ intros na. now rewrite (fixed_tracked _ _ (fst na) F). }
  cbn [ch_attrs with_attrs]. generalize (tracked ch). intros t. clear F Ha.
  induction (ch_attrs ch) as [|[y b] r IH]; cbn [dset].
  - cbn [flat_map fst]. destruct (t n); cbn [app dget]; [|reflexivity]. apply String.eqb_neq in Hx. now rewrite Hx.
  - destruct (String.eqb_spec n y) as [<-|E]; cbn [flat_map fst snd].
    + destruct (t n); cbn [app dget]; [|reflexivity]. apply String.eqb_neq in Hx. now rewrite Hx.
    + destruct (t y); cbn [app dget]; [|exact IH]. destruct (String.eqb x y); auto.
Qed.
Lemma structure_untracked (ch : child) n a v : dget n (ch_attrs ch) = Some a -> tracked ch n = false ->
  structure (with_attrs ch (dset n (revalued a v) (ch_attrs ch))) = structure ch.
Proof.
  intros Ha T. destruct (structure_set ch n a v Ha) as [F _]. unfold structure.
  rewrite (flat_map_ext _ (fun na : string * attr => if tracked ch (fst na) then [(fst na, a_value (snd na))] else [])).
  2:{ intros na. now rewrite (fixed_tracked _ _ (fst na) F). }
  cbn [ch_attrs with_attrs]. revert T Ha. generalize (tracked ch). intros t T. clear F.
  induction (ch_attrs ch) as [|[y b] r IH]; cbn [dget dset]; [discriminate|].
  destruct (String.eqb_spec n y) as [<-|E]; cbn [flat_map fst snd].
  - now rewrite T.
  - intros X. now rewrite (IH X).
Qed.
(* an attribute that is not tracked: nobody is told, and what would be saved stays *)
Lemma set_untracked (ch : child) n v : tracked ch n = false ->
  snd (set_attr ch n v) = None /\ fixed ch (fst (set_attr ch n v)) /\ structure (fst (set_attr ch n v)) = structure ch /\
  row_of (fst (set_attr ch n v)) = row_of ch.
Proof.
  intros T. unfold Mgr_Model.set_attr. destruct (dget n (ch_attrs ch)) as [a|] eqn:Ha; [|now repeat split].
  rewrite T. cbn [fst snd]. split; [reflexivity|]. split; [now apply structure_set|]. split; [now apply structure_untracked|reflexivity].
Qed.
(* what the design, and the light, are made of *)
Definition looks (m : mgr) := (m_layout m, m_exports m, m_savedvis m, m_savedexp m, m_partmod m, (m_modified m, m_own m, m_design m, m_files m, m_ports m),
  map (fun c => (ch_name c, structure c)) (m_parts m)).
Lemma looks_file m m' : looks m' = looks m -> m_modified m' = m_modified m /\ m_partmod m' = m_partmod m /\ file_of js m' = file_of js m /\
  m_layout m' = m_layout m /\ m_design m' = m_design m /\ m_files m' = m_files m.
Proof.
  unfold looks. intros H. injection H as A1 A2 A3 A4 A5 A6 A7 A8 A9 A10 A11. repeat split; auto. unfold file_of. rewrite A1, A2, A7. f_equal.
  assert (G : forall l : list child, map (fun c => (ch_name c, map (fun nv => (fst nv, js (snd nv))) (structure c))) l =
            map (fun x : string * dict V => (fst x, map (fun nv => (fst nv, js (snd nv))) (snd x))) (map (fun c => (ch_name c, structure c)) l)).
  { intros l. rewrite map_map. reflexivity. }
  now rewrite !G, A11.
Qed.
Lemma step_untracked m p n v : (forall ch, In ch (m_parts m) -> ch_name ch = p -> tracked ch n = false) ->
  looks (step m (ChildSet p n v)) = looks m.
Proof.
  intros H. cbn [Mgr_Model.step]. set (f := fun c : child => if String.eqb (ch_name c) p then set_attr c n v else (c, None)).
  assert (Q : forall ch, In ch (m_parts m) -> snd (f ch) = None /\ ch_name (fst (f ch)) = ch_name ch /\ structure (fst (f ch)) = structure ch).
  { intros ch Hc. unfold f. destruct (String.eqb_spec (ch_name ch) p) as [E|E]; [|now repeat split].
    destruct (set_untracked ch n v (H ch Hc E)) as (A & B & C & _). split; [exact A|]. split; [apply B|exact C]. }
  unfold hooked. set (m1 := mkM _ _ _ _ _ _ _ _ _ _ _).
  assert (G : forall (l : list (child * option (dict (V * V)))) (m2 : mgr), (forall x, In x l -> snd x = None) -> fold_left (fun m cr => got_report m (ch_name (fst cr)) (snd cr)) l m2 = m2).
  { induction l as [|[c r] t IH]; intros m2 X; cbn [fold_left]; [reflexivity|]. pose proof (X (c, r) (or_introl eq_refl)) as Y. cbn [snd] in Y. subst r.
    cbn [got_report snd fst]. apply IH. intros x Hx. apply X. now right. }
  rewrite G. 2:{ intros x Hx. apply in_map_iff in Hx as (ch & <- & Hc). now apply Q. }
  unfold looks, m1. cbn [m_parts m_layout m_exports m_savedvis m_savedexp m_partmod m_modified m_own m_design m_files m_ports].
  f_equal. rewrite !map_map. apply map_ext_in. intros ch Hc. destruct (Q ch Hc) as (_ & A & B). cbn. now rewrite A, B.
Qed.
Lemma ops_in p c (vs : list V) o : In o (call_ops p c vs) -> exists n v, o = ChildSet p n v /\ In n (puts c).
Proof.
  unfold call_ops. intros H. apply in_map_iff in H as ([n v] & <- & H). exists n, v. split; [reflexivity|].
  apply in_combine_l in H. eapply carried; eauto.
Qed.
Lemma Forall2_In_r {A B} (R : A -> B -> Prop) l l' y : Forall2 R l l' -> In y l' -> exists x, In x l /\ R x y.
Proof. induction 1 as [|a b l l' H1 H2 IH]; [intros []|]. intros [<-|H]; [exists a; split; [now left|assumption]|]. destruct (IH H) as (x & Hx & Hr). exists x. split; [now right|assumption]. Qed.
Lemma run_untracked os : forall m,
  (forall o, In o os -> exists p n v, o = ChildSet p n v /\ forall ch, In ch (m_parts m) -> ch_name ch = p -> tracked ch n = false) ->
  looks (run m os) = looks m.
Proof.
  induction os as [|o r IH]; intros m H; [reflexivity|]. cbn [Mgr_Model.run fold_left]. fold (run (step m o) r).
  destruct (H o (or_introl eq_refl)) as (p & n & v & -> & T). change (fold_left step r (step m (ChildSet p n v))) with (run (step m (ChildSet p n v)) r).
  rewrite IH; [now apply step_untracked|]. intros o' Ho'. destruct (H o' (or_intror Ho')) as (p' & n' & v' & -> & T'). exists p', n', v'.
  split; [reflexivity|]. intros ch Hc Hp. pose proof (step_same none vstr eqv same js m (ChildSet p n v)) as S.
  destruct (Forall2_In_r _ _ _ _ S Hc) as (ch0 & H0 & F). rewrite (fixed_tracked _ _ _ F). apply T'; [exact H0|]. rewrite <- Hp. symmetry. apply F.
Qed.
Lemma made_parts parts ports own files os ch : In ch (m_parts (run (made parts ports own files) os)) -> exists ch0, In ch0 parts /\ fixed ch0 ch.
Proof.
  intros H. destruct (made_laid none vstr eqv same parts ports own files) as [L Hl].
  destruct (run_keeps none vstr eqv same js os _ L Hl) as (_ & _ & S & _). destruct (Forall2_In_r _ _ _ _ S H) as (c1 & H1 & F1).
  pose proof (set_layout_same none vstr eqv same (mkM parts ports [] [] None [] [] false own "" files) []) as S0.
  destruct (Forall2_In_r _ _ _ _ S0 H1) as (c0 & H0 & F0). exists c0. split; [exact H0|]. eapply fixed_trans; eauto.
Qed.

(* whatever was done to a manager, whatever parts of a scan put to the blocks of its child parts, and
   whatever values come back: the light stays as it was, no part has anything more or less to report,
   and a save would write the same file *)
Theorem C109_scan_keeps_design parts ports own files os (calls : list (string * call * list V)) :
  (forall p c vs, In (p, c, vs) calls -> caller c <> Cs /\ forall ch, In ch parts -> ch_name ch = p -> conforms (caller c) ch) ->
  let m := run (made parts ports own files) os in let m' := run m (scan_ops calls) in
  m_modified m' = m_modified m /\ m_partmod m' = m_partmod m /\ file_of js m' = file_of js m /\ m_layout m' = m_layout m /\
  m_design m' = m_design m /\ m_files m' = m_files m.
Proof.
  intros H. cbn zeta. apply looks_file, run_untracked. intros o Ho. apply in_flat_map in Ho as ([[p c] vs] & Hx & Ho). cbn [fst snd] in Ho.
  destruct (ops_in p c vs o Ho) as (n & v & -> & Hn). exists p, n, v. split; [reflexivity|]. intros ch Hc Hp.
  destruct (H p c vs Hx) as [F Q]. destruct (made_parts _ _ _ _ _ _ Hc) as (c0 & H0 & F0).
  apply (conforms_untracked ch c n); auto. apply (fixed_conforms _ c0 ch F0), Q; auto. rewrite <- Hp. symmetry. apply F0.
Qed.

(* with moves of coordinate systems among them, only their csMoveTime and deferMoves can change in
   what would be saved *)
Lemma send_fields (c : child) n v : ch_attrs (fst (send_modified none eqv same c n v)) = ch_attrs c /\
  ch_nosave (fst (send_modified none eqv same c n v)) = ch_nosave c /\ ch_name (fst (send_modified none eqv same c n v)) = ch_name c.
Proof. unfold send_modified. destruct (match _ with None => _ | Some _ => _ end); now repeat split. Qed.
Lemma structure_ext (c c' : child) : ch_attrs c' = ch_attrs c -> ch_nosave c' = ch_nosave c -> structure c' = structure c.
Proof. intros A B. unfold structure, tracked. now rewrite A, B. Qed.
Lemma set_other (ch : child) n v x : x <> n -> dget x (structure (fst (set_attr ch n v))) = dget x (structure ch).
Proof.
  intros Hx. unfold Mgr_Model.set_attr. destruct (dget n (ch_attrs ch)) as [a|] eqn:Ha; [|reflexivity].
  destruct (structure_set ch n a v Ha) as [_ S]. destruct (tracked ch n); [|now apply S].
  destruct (send_fields (with_attrs ch (dset n (revalued a v) (ch_attrs ch))) n v) as (A & B & _). rewrite (structure_ext _ _ A B). now apply S.
Qed.
Definition cs_only (ch ch' : child) : Prop :=
  ch_name ch' = ch_name ch /\ forall x, x <> "csMoveTime" -> x <> "deferMoves" -> dget x (structure ch') = dget x (structure ch).
Lemma step_cs m p n v : (forall ch, In ch (m_parts m) -> ch_name ch = p -> tracked ch n = false \/ n = "csMoveTime" \/ n = "deferMoves") ->
  Forall2 cs_only (m_parts m) (m_parts (step m (ChildSet p n v))).
Proof.
  intros H. cbn [Mgr_Model.step].
  destruct (hooked_spec (fun c : child => if String.eqb (ch_name c) p then set_attr c n v else (c, None)) m) as (A & _). rewrite A. clear A.
  induction (m_parts m) as [|ch r IH]; cbn [map]; constructor; [|apply IH; intros c Hc; apply H; now right].
  specialize (H ch (or_introl eq_refl)). destruct (String.eqb_spec (ch_name ch) p) as [E|E]; [|split; reflexivity].
  split; [apply (set_attr_moved none eqv same ch n v)|]. intros x Hx1 Hx2. destruct (H E) as [T|[-> | ->]].
  - destruct (set_untracked ch n v T) as (_ & _ & S & _). cbn. now rewrite S.
  - now apply set_other.
  - now apply set_other.
Qed.
Lemma Forall2_trans3 (R : child -> child -> Prop) : (forall a b c, R a b -> R b c -> R a c) -> forall l1 l2 l3, Forall2 R l1 l2 -> Forall2 R l2 l3 -> Forall2 R l1 l3.
Proof. intros T l1 l2 l3 H. revert l3. induction H; intros l3 H3; inversion H3; subst; constructor; eauto. Qed.
Lemma run_cs os : forall m,
  (forall o, In o os -> exists p n v, o = ChildSet p n v /\ forall ch, In ch (m_parts m) -> ch_name ch = p -> tracked ch n = false \/ n = "csMoveTime" \/ n = "deferMoves") ->
  Forall2 cs_only (m_parts m) (m_parts (run m os)).
Proof.
  induction os as [|o r IH]; intros m H.
  - cbn. clear H. induction (m_parts m); constructor; auto. split; reflexivity.
  - destruct (H o (or_introl eq_refl)) as (p & n & v & -> & T). change (run m (ChildSet p n v :: r)) with (run (step m (ChildSet p n v)) r).
    apply (Forall2_trans3 cs_only) with (l2 := m_parts (step m (ChildSet p n v))).
    + intros a b c [A1 A2] [B1 B2]. split; [congruence|]. intros x X1 X2. now rewrite B2, A2.
    + now apply step_cs.
    + apply IH. intros o' Ho'. destruct (H o' (or_intror Ho')) as (p' & n' & v' & -> & T'). exists p', n', v'.
      split; [reflexivity|]. intros ch Hc Hp. pose proof (step_same none vstr eqv same js m (ChildSet p n v)) as S.
      destruct (Forall2_In_r _ _ _ _ S Hc) as (ch0 & H0 & F). rewrite (fixed_tracked _ _ _ F). apply T'; [exact H0|]. rewrite <- Hp. symmetry. apply F.
Qed.
Theorem C109_moves_change_two parts ports own files os (calls : list (string * call * list V)) :
  (forall p c vs, In (p, c, vs) calls -> forall ch, In ch parts -> ch_name ch = p -> conforms (caller c) ch) ->
  let m := run (made parts ports own files) os in let m' := run m (scan_ops calls) in
  Forall2 (fun ch ch' => ch_name ch' = ch_name ch /\
    forall x, x <> "csMoveTime" -> x <> "deferMoves" -> dget x (structure ch') = dget x (structure ch)) (m_parts m) (m_parts m').
Proof.
  intros H. cbn zeta. apply run_cs. intros o Ho. apply in_flat_map in Ho as ([[p c] vs] & Hx & Ho). cbn [fst snd] in Ho.
  destruct (ops_in p c vs o Ho) as (n & v & -> & Hn). exists p, n, v. split; [reflexivity|]. intros ch Hc Hp.
  destruct (made_parts _ _ _ _ _ _ Hc) as (c0 & H0 & F0).
  assert (Q : conforms (caller c) ch). { apply (fixed_conforms _ c0 ch F0), (H p c vs Hx); auto. rewrite <- Hp. symmetry. apply F0. }
  destruct (tracked ch n) eqn:T; [right|now left]. destruct Q as [Q1 Q2]. apply tracked_iff in T as (a & i & Ha & Hi & X).
  destruct (caller c) eqn:K; try (exfalso; apply X, Q1; rewrite <- K; apply (C109_not_saved c n); [congruence|exact Hn|rewrite K; eauto]).
  apply (cs_puts c n K Hn). eauto.
Qed.
End P.

(* ---- concrete cases ---- *)
(* values are numbers; a block with all its attributes 0, as saved *)
Definition plain_child (name : string) (k : kind) : @child Z :=
  let attrs := map (fun na => (fst na, mkA 0%Z (match snd na with Cfg => Some 1 | _ => None end)
                                       (match snd na with Ro => false | _ => true end) (fun v => v))) (block_of k) in
  let c := mkCh name name 0 0 (Some true) [] attrs (no_save_of k) [] [] in
  with_saved c (structure c).
Definition zmade parts := made (V := Z) 0%Z (fun _ => 0%Z) Z.eqb (fun _ _ => false) parts [] [] [].
Definition zrun := run (V := Z) 0%Z (fun _ => 0%Z) Z.eqb (fun _ _ => false) (fun v => v).
Lemma conforms_plain name k : conforms k (plain_child name k).
Proof.
  split; [auto|]. intros n a i Ha Hi. apply dget_Some_In in Ha. cbn [plain_child ch_attrs with_saved] in Ha.
  apply in_map_iff in Ha as ([x y] & E & Hx). cbn [fst snd] in E. injection E as -> <-. cbn [a_config] in Hi. destruct y; try discriminate. exact Hx.
Qed.
(* a detector scan: a design is saved, then driver, labeller, writer and statistics are configured,
   the scan seeks and is reset; then the user changes the trigger mode *)
Definition detector_parts := [plain_child "DRV" Driver; plain_child "POS" Labeller; plain_child "STAT" Stats; plain_child "HDF" Hdf].
Definition detector_scan : list (string * call * list Z) :=
  let vs := repeat 5%Z 40 in
  [("DRV", DriverSetup true true, vs); ("DRV", Attributes Driver, vs); ("POS", LabellerSetup, vs); ("STAT", StatsConfigure, vs);
   ("HDF", HdfConfigure, vs); ("POS", LabellerMore, vs); ("HDF", HdfSeek, vs); ("DRV", DriverReset Driver true, vs); ("HDF", HdfReset true, vs)].
Example C109_ex_scan :
  (forall p c vs, In (p, c, vs) detector_scan -> caller c <> Cs /\ forall ch, In ch detector_parts -> ch_name ch = p -> conforms (caller c) ch) /\
  (length (scan_ops detector_scan) = 54 /\
   let m := zrun (zmade detector_parts) [Save "d"] in
   m_modified m = false /\ m_modified (zrun m (scan_ops detector_scan)) = false /\
   m_modified (zrun m (scan_ops detector_scan ++ [ChildSet "DRV" "triggerMode" 7%Z])) = true).
Proof.
  split.
  - intros p c vs H. cbn [detector_scan In] in H.
    repeat (destruct H as [H|H]; [injection H as <- <- <-; split; [discriminate|]; intros ch Hc Hn;
      cbn [detector_parts In] in Hc; repeat (destruct Hc as [<-|Hc]; [try discriminate Hn; apply conforms_plain|]); destruct Hc|]). destruct H.
  - vm_compute. repeat split.
Qed.
Example C109_ex_known : puts (TrajWrite true ["X"; "A"]) =
  ["numPoints"; "cs"; "useA"; "useB"; "useC"; "useU"; "useV"; "useW"; "useX"; "useY"; "useZ";
   "timeArray"; "pointsToBuild"; "velocityMode"; "userPrograms"; "positionsA"; "positionsX"] /\
  puts (XmapSetup false false) =
  ["collectMode"; "pixelAdvanceMode"; "presetMode"; "ignoreGate"; "pixelsPerRun"; "autoPixelsPerBuffer"; "pixelsPerBuffer";
   "binsInSpectrum"; "inputLogicPolarity"; "arrayCounter"; "arrayCallbacks"] /\
  puts (ReframeSetup true true) = ["arrayCounter"; "imageMode"; "numImages"; "arrayCallbacks"; "averageSamples"; "postCount"].
Proof. vm_compute. repeat split. Qed.
(* a PMAC whose design was just saved: a move of one of its coordinate systems makes it modified, and
   the next save would write another csMoveTime *)
Definition cs_move : list (string * call * list Z) := [("CS1", CsMove ["X"; "Y"], [1; 1500; 3; 4; 0]%Z)].
Theorem C109_cs_refuted : exists (ch : @child Z) (calls : list (string * call * list Z)),
  (forall p c vs, In (p, c, vs) calls -> forall ch', In ch' [ch] -> ch_name ch' = p -> conforms (caller c) ch') /\
  let m := zrun (zmade [ch]) [Save "d"] in let m' := zrun m (scan_ops calls) in
  m_modified m = false /\ m_modified m' = true /\ file_of (fun v => v) m' <> file_of (fun v => v) m.
Proof.
  exists (plain_child "CS1" Cs), cs_move. split.
  - intros p c vs [H|[]] ch' [<-|[]] _. injection H as <- <- <-. apply conforms_plain.
  - cbn zeta. split; [vm_compute; reflexivity|]. split; [vm_compute; reflexivity|].
    intros H. apply (f_equal (fun f => dget "CS1" (f_children f))) in H. vm_compute in H. discriminate H.
Qed.
Example C109_ex_moves : let m := zrun (zmade [plain_child "CS1" Cs]) [Save "d"] in let m' := zrun m (scan_ops cs_move) in
  map structure (m_parts m) = [[("deferMoves", 0%Z); ("csMoveTime", 0%Z)]] /\
  map structure (m_parts m') = [[("deferMoves", 0%Z); ("csMoveTime", 1500%Z)]] /\
  map (fun c => dget "demandX" (ch_attrs c)) (m_parts m') <> map (fun c => dget "demandX" (ch_attrs c)) (m_parts m).
Proof.
  cbn zeta. split; [vm_compute; reflexivity|]. split; [vm_compute; reflexivity|]. intros H.
  apply (f_equal (map (option_map a_value))) in H. vm_compute in H. discriminate H.
Qed.

Print Assumptions C109_known.
Print Assumptions C109_seek_refuted.
Print Assumptions C109_seek_fails.
Print Assumptions C109_not_saved.
Print Assumptions C109_scan_keeps_design.
Print Assumptions C109_moves_change_two.
Print Assumptions C109_cs_refuted.
