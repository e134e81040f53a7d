(* Invariants of Mgr_Model over histories. *)
From Coq Require Import String Bool Arith ZArith Lia List.
From Verif Require Import Base Mgr_Model Mgr_Spec Mgr_Proofs.
Import ListNotations.
Local Open Scope list_scope.

(* ---- comparisons ---- *)
Lemma vis_eqb_iff a b : vis_eqb a b = true <-> a = b.
Proof. unfold vis_eqb. destruct (list_eq_dec bool_dec a b); split; congruence. Qed.
Lemma exp_eqb_iff a : forall b, exp_eqb a b = true <-> a = b.
Proof.
  unfold exp_eqb. induction a as [|[k v] r IH]; intros [|[k2 v2] r2]; cbn [length combine forallb Nat.eqb]; try (split; [discriminate|congruence]); [cbn; tauto|].
  specialize (IH r2). cbn [fst snd]. rewrite !andb_true_iff in *. rewrite !String.eqb_eq. split.
  - intros (H1 & (H2 & H3) & H4). subst. f_equal. now apply IH.
  - intros H. injection H as -> -> ->. pose proof (proj2 IH eq_refl) as [A B]. repeat split; auto.
Qed.

Section P.
Context {V : Type}.
Variable none : V.
Variable vstr : string -> V.
Variable eqv : V -> V -> bool.
Variable same : V * V -> V * V -> bool.
Variable js : V -> V.
Notation child := (@child V).
Notation mgr := (@mgr V).
Notation attr := (@attr V).
Notation set_attr := (set_attr none eqv same).
Notation put_attrs := (put_attrs none eqv same).
Notation on_layout := (on_layout none vstr eqv same).
Notation on_load := (on_load none eqv same).
Notation set_layout := (set_layout none vstr eqv same).
Notation load_file := (load_file none vstr eqv same).
Notation step := (step none vstr eqv same js).
Notation run := (run none vstr eqv same js).
Notation do_save := (do_save js).
Notation do_load := (do_load none vstr eqv same).
Notation made := (made none vstr eqv same).
Notation differs := (differs none eqv).
Notation changed := (changed none eqv).
Notation sync := (sync none eqv).
Notation report := (option (dict (V * V))).

(* whether it is modified depends on names and visibility *)
Lemma is_modified_ext (m m' : mgr) : map (fun r => (r_name r, r_visible r)) (m_layout m) = map (fun r => (r_name r, r_visible r)) (m_layout m') ->
  m_partmod m = m_partmod m' -> m_savedvis m = m_savedvis m' -> m_exports m = m_exports m' -> m_savedexp m = m_savedexp m' -> is_modified m = is_modified m'.
Proof.
  intros H P S E X. unfold is_modified. rewrite P, S, E, X. f_equal; f_equal.
  - revert H. generalize (m_layout m'). induction (m_layout m) as [|r t IH]; intros [|r' t'] H; try discriminate; [reflexivity|].
    cbn [map] in H. injection H as H1 H2 H3. cbn [existsb]. rewrite H1, H2. f_equal. now apply IH.
  - assert (Ev : map r_visible (m_layout m) = map r_visible (m_layout m')).
    { apply (f_equal (map snd)) in H. rewrite !map_map in H. exact H. }
    now rewrite Ev.
Qed.

(* ---- laid out ---- *)
Definition laid (m : mgr) : Prop :=
  m_layout m = map row_of (m_parts m) /\ (forall c, In c (m_parts m) -> ch_visible c <> None) /\ m_savedvis m <> None.
Definition names (m : mgr) := map ch_name (m_parts m).
Lemma set_layout_fields m value : let m' := set_layout m value in let h := hooked (on_layout (m_ports m) value) m in
  m_parts m' = m_parts h /\ m_ports m' = m_ports m /\ m_layout m' = map row_of (m_parts h) /\ m_exports m' = m_exports m /\
  m_own m' = m_own m /\ m_design m' = m_design m /\ m_files m' = m_files m /\ m_partmod m' = m_partmod h /\
  match m_savedvis m with
  | Some v => m_savedvis m' = Some v /\ m_savedexp m' = m_savedexp m
  | None => m_savedvis m' = Some (map r_visible (m_layout m')) /\ m_savedexp m' = m_exports m
  end.
Proof.
  cbn zeta. unfold Mgr_Model.set_layout. destruct (hooked_spec (on_layout (m_ports m) value) m) as (A1 & A2 & A3 & A4 & A5 & A6 & A7 & A8 & A9 & _).
  set (h := hooked _ m) in *. rewrite <- A5, <- A6, <- A4, <- A7, <- A8, <- A9, <- A2. destruct (m_savedvis h) eqn:E.
  - destruct (negb _); cbn; rewrite ?E; repeat split.
  - cbn. repeat split.
Qed.
Lemma set_layout_laid m value : laid (set_layout m value).
Proof.
  destruct (set_layout_fields m value) as (A1 & _ & A3 & _ & _ & _ & _ & _ & A9). split; [congruence|]. split.
  - intros c H. rewrite A1 in H. destruct (hooked_spec (on_layout (m_ports m) value) m) as (B & _). rewrite B in H. apply in_map_iff in H as (c0 & <- & _).
    apply (on_layout_spec none eqv same vstr).
  - destruct (m_savedvis m); destruct A9; congruence.
Qed.
Lemma set_layout_lit m value : laid m \/ m_savedvis m = None -> lit m -> lit (set_layout m value).
Proof.
  intros HL Hl. unfold Mgr_Model.set_layout. destruct (hooked_spec (on_layout (m_ports m) value) m) as (A1 & A2 & A3 & A4 & A5 & A6 & A7 & A8 & A9 & A10).
  set (h := hooked _ m) in *. destruct (m_savedvis h) eqn:E; [|reflexivity]. destruct (vis_eqb (map r_visible (map row_of (m_parts h))) (map r_visible (m_layout h))) eqn:Ev; cbn [negb]; [|reflexivity].
  apply vis_eqb_iff in Ev. specialize (A10 Hl). unfold lit in *. cbn [m_modified]. rewrite A10.
  apply is_modified_ext; try reflexivity; [|cbn [m_savedvis]; congruence]. cbn [m_layout].
  destruct HL as [(L1 & L2 & L3)|L]; [|congruence].
  assert (N : map r_name (m_layout h) = map r_name (map row_of (m_parts h))).
  { rewrite A3, L1, A1, !map_map. apply map_ext. intros c. cbn [row_of r_name].
    destruct (on_layout_spec none eqv same vstr (m_ports m) value c) as ((F & _) & _). symmetry. apply F. }
  revert Ev N. generalize (m_layout h), (map row_of (m_parts h)). clear. intros l. induction l as [|r t IH]; intros [|r2 t2] Ev N; try discriminate; [reflexivity|].
  cbn [map] in *. injection Ev as E1 E2. injection N as N1 N2. rewrite E1, N1. f_equal. now apply IH.
Qed.

(* ---- the parts stay ---- *)
Definition same_parts (m m' : mgr) : Prop := Forall2 fixed (m_parts m) (m_parts m').
Lemma same_parts_refl m : same_parts m m.
Proof. unfold same_parts. induction (m_parts m); constructor; auto using fixed_refl. Qed.
Lemma same_parts_trans a b c : same_parts a b -> same_parts b c -> same_parts a c.
Proof.
  unfold same_parts. generalize (m_parts a), (m_parts b), (m_parts c). intros l1 l2 l3 H. revert l3.
  induction H as [|x y l l' H1 H2 IH]; intros l3 H3; inversion H3; subst; constructor; eauto using fixed_trans.
Qed.
Lemma hooked_same (f : child -> child * report) m : (forall c, fixed c (fst (f c))) -> same_parts m (hooked f m).
Proof.
  intros H. unfold same_parts. destruct (hooked_spec f m) as (-> & _). induction (m_parts m) as [|c r IH]; constructor; auto.
Qed.
Lemma same_names m m' : same_parts m m' -> names m' = names m.
Proof. unfold same_parts, names. induction 1 as [|x y l l' H1 H2 IH]; cbn [map]; [reflexivity|]. rewrite IH. f_equal. apply H1. Qed.
Lemma set_layout_same m value : same_parts m (set_layout m value).
Proof.
  destruct (set_layout_fields m value) as (A & _). unfold same_parts. rewrite A. apply (hooked_same (on_layout (m_ports m) value) m).
  intros c. apply (on_layout_spec none eqv same vstr).
Qed.
Lemma fixed_on_load st c : fixed c (fst (on_load false st c)).
Proof. apply (on_load_moved none eqv same st c). Qed.

(* own attributes keep their kinds *)
Definition own_kinds (d : dict attr) := map (fun na => (fst na, kind (snd na))) d.
Lemma own_dset (d : dict attr) n a v : dget n d = Some a -> own_kinds (dset n (revalued a v) d) = own_kinds d.
Proof. intros H. unfold own_kinds. apply (map_dset_same _ n (revalued a v) d a H). reflexivity. Qed.
Definition own_load (l : dict V) (d : dict attr) : dict attr :=
  fold_left (fun d nv => match dget (fst nv) d with Some a => dset (fst nv) (revalued a (a_validate a (snd nv))) d | None => d end) l d.
Lemma own_load_kinds l : forall d, own_kinds (own_load l d) = own_kinds d.
Proof.
  induction l as [|[n v] r IH]; intros d; cbn [own_load fold_left fst snd]; [reflexivity|]. unfold own_load in IH. rewrite IH.
  destruct (dget n d) eqn:E; [|reflexivity]. now apply own_dset.
Qed.
Lemma own_load_get l : forall (d : dict attr) k, NoDup (map fst l) -> dget k (own_load l d) =
  match dget k d with Some a => match dget k l with Some v => Some (revalued a (a_validate a v)) | None => Some a end | None => None end.
Proof.
  induction l as [|[n v] r IH]; intros d k D; cbn [own_load fold_left fst snd].
  - cbn [dget]. now destruct (dget k d).
  - inversion D as [|? ? Dn Dd]; subst. unfold own_load in IH. rewrite IH by exact Dd. cbn [dget].
    destruct (String.eqb_spec k n) as [e|N].
    + rewrite e in *. replace (dget n r) with (@None V) by (symmetry; now apply dget_None_notin).
      destruct (dget n d) as [a|] eqn:E; [now rewrite dget_dset_same|now rewrite E].
    + destruct (dget n d) as [a|] eqn:E; [|reflexivity]. now rewrite dget_dset_other by congruence.
Qed.

(* ---- loading ---- *)
Lemma mark_clean_fields (m : mgr) design : let m' := mark_clean m design false in
  m_parts m' = m_parts m /\ m_ports m' = m_ports m /\ m_layout m' = m_layout m /\ m_exports m' = m_exports m /\
  m_savedvis m' = Some (map r_visible (m_layout m)) /\ m_savedexp m' = m_exports m /\ m_partmod m' = [] /\ m_own m' = m_own m /\
  m_design m' = design /\ m_files m' = m_files m /\ lit m'.
Proof. repeat split. Qed.
Lemma load_file_fields m f design : let m' := load_file m f design false in
  let value := map (fun nd => let '(n, (x, y, v)) := nd in mkRow n "" x y v) (f_layout f) in
  let m1 := set_layout m value in
  m_parts m' = map (fun c => fst (on_load false (match dget (ch_name c) (f_children f) with Some s => s | None => [] end) c)) (m_parts m1) /\
  m_layout m' = m_layout m1 /\ m_exports m' = f_exports f /\ m_savedvis m' = Some (map r_visible (m_layout m')) /\ m_savedexp m' = m_exports m' /\
  m_partmod m' = [] /\ m_own m' = own_load (f_own f) (m_own m) /\ m_files m' = m_files m /\ m_design m' = design /\ m_ports m' = m_ports m /\ lit m'.
Proof.
  cbn zeta. set (value := map _ (f_layout f)).
  destruct (set_layout_fields m value) as (_ & A2 & _ & _ & A5 & _ & A7 & _ & _).
  unfold Mgr_Model.load_file. fold value. revert A2 A5 A7. generalize (set_layout m value). intros m1 A2 A5 A7.
  unfold load_rest. set (fl := fun c => on_load false _ c). set (m3 := mkM _ _ _ _ _ _ _ _ _ _ _).
  destruct (hooked_spec fl m3) as (B1 & B2 & B3 & B4 & _ & _ & B7 & _ & B9 & _).
  assert (C : m_own m3 = own_load (f_own f) (m_own m) /\ m_files m3 = m_files m /\ m_ports m3 = m_ports m /\ m_parts m3 = m_parts m1 /\ m_layout m3 = m_layout m1 /\ m_exports m3 = f_exports f).
  { unfold m3. cbn [with_exports m_own m_files m_ports m_parts m_layout m_exports]. rewrite A5. repeat split; assumption. }
  clearbody m3. destruct C as (C1 & C2 & C3 & C4 & C5 & C6). revert B1 B2 B3 B4 B7 B9. generalize (hooked fl m3). intros m4 B1 B2 B3 B4 B7 B9.
  destruct (mark_clean_fields m4 design) as (D1 & D2 & D3 & D4 & D5 & D6 & D7 & D8 & D9 & D10 & D11). set (m' := mark_clean m4 design false) in *. clearbody m'.
  rewrite D1, D2, D3, D4, D5, D6, D7, D8, D9, D10, B1, B2, B3, B4, B7, B9, C1, C2, C3, C4, C5, C6. repeat split; exact D11.
Qed.
Lemma load_file_same m f design : same_parts m (load_file m f design false).
Proof.
  destruct (load_file_fields m f design) as (A & _). set (v := map _ (f_layout f)) in *.
  eapply same_parts_trans; [apply (set_layout_same m v)|]. unfold same_parts. rewrite A. clear A.
  induction (m_parts (set_layout m v)) as [|c r IH]; cbn [map]; [constructor|]. constructor; [apply fixed_on_load|exact IH].
Qed.
Lemma inplace_row (c c' : child) : fixed c c' -> inplace c c' -> row_of c' = row_of c.
Proof. intros (A & B & _) (C & D & E & _). unfold row_of. now rewrite A, B, C, D, E. Qed.
Lemma load_file_laid m f design : laid (load_file m f design false).
Proof.
  destruct (load_file_fields m f design) as (A1 & A2 & _ & A4 & _). set (v := map _ (f_layout f)) in *.
  destruct (set_layout_laid m v) as (L1 & L2 & L3). split; [|split].
  - rewrite A2, L1, A1, map_map. apply map_ext. intros c. symmetry. apply inplace_row; apply (on_load_moved none eqv same).
  - intros c H. rewrite A1 in H. apply in_map_iff in H as (c0 & <- & H). pose proof (on_load_moved none eqv same (match dget (ch_name c0) (f_children f) with Some s => s | None => [] end) c0) as (_ & (_ & _ & E & _) & _).
    rewrite E. now apply L2.
  - congruence.
Qed.
Lemma do_save_fields m d m' : do_save m d = Some m' -> let d' := if String.eqb d "" then m_design m else d in
  m_parts m' = map on_save (m_parts m) /\ m_ports m' = m_ports m /\ m_layout m' = m_layout m /\ m_exports m' = m_exports m /\
  m_savedvis m' = Some (map r_visible (m_layout m)) /\ m_savedexp m' = m_exports m /\ m_partmod m' = [] /\ m_own m' = m_own m /\
  m_design m' = d' /\ m_files m' = dset (before_json d') (file_of js m) (m_files m) /\ lit m' /\ d' <> ""%string.
Proof.
  cbn zeta. unfold Mgr_Model.do_save. destruct (if String.eqb d "" then m_design m else d) as [|x y] eqn:Ed; [discriminate|]. cbn [String.eqb].
  destruct (prefix "template_" _); [discriminate|].
  destruct (hooked_spec (fun c => (on_save c, None)) m) as (A1 & A2 & A3 & A4 & _ & _ & A7 & _ & A9 & _). revert A1 A2 A3 A4 A7 A9.
  generalize (hooked (fun c => (on_save c, @None (dict (V * V)))) m). intros m1 A1 A2 A3 A4 A7 A9 H.
  set (m2 := mkM _ _ _ _ _ _ _ _ _ _ _) in H.
  assert (C : m_parts m2 = m_parts m1 /\ m_ports m2 = m_ports m1 /\ m_layout m2 = m_layout m1 /\ m_exports m2 = m_exports m1 /\ m_own m2 = m_own m1 /\
    m_files m2 = dset (before_json (String x y)) (file_of js m) (m_files m1)) by (unfold m2; repeat split).
  clearbody m2. destruct C as (C1 & C2 & C3 & C4 & C5 & C6).
  destruct (mark_clean_fields m2 (String x y)) as (D1 & D2 & D3 & D4 & D5 & D6 & D7 & D8 & D9 & D10 & D11). replace (mark_clean m2 (String x y) false) with m' in * by congruence.
  rewrite D1, D2, D3, D4, D5, D6, D7, D8, D9, D10, C1, C2, C3, C4, C5, C6, A1, A2, A3, A4, A7, A9. repeat split; try exact D11. discriminate.
Qed.
Lemma do_save_same m d m' : do_save m d = Some m' -> same_parts m m'.
Proof.
  intros H. apply do_save_fields in H as (A & _). unfold same_parts. rewrite A. clear A. induction (m_parts m) as [|c r IH]; cbn [map]; [constructor|]. constructor; [repeat split|exact IH].
Qed.
Lemma do_save_laid m d m' : laid m -> do_save m d = Some m' -> laid m'.
Proof.
  intros (L1 & L2 & L3) H. apply do_save_fields in H as (A1 & _ & A3 & _ & A5 & _). split; [|split].
  - rewrite A3, L1, A1, map_map. reflexivity.
  - intros c Hc. rewrite A1 in Hc. apply in_map_iff in Hc as (c0 & <- & H). exact (L2 c0 H).
  - congruence.
Qed.

(* ---- any step ---- *)
Definition on_part (p n : string) (v : V) (c : child) : child * report :=
  if String.eqb (ch_name c) p then set_attr c n v else (c, None).
Lemma on_part_moved p n v c : moved none eqv c (fst (on_part p n v c)) (snd (on_part p n v c)).
Proof. unfold on_part. destruct (String.eqb (ch_name c) p); [apply set_attr_moved|apply moved_refl]. Qed.
Lemma moved_fixed c c' r : moved none eqv c c' r -> fixed c c'.
Proof. intros H. apply H. Qed.
Lemma step_same m o : same_parts m (step m o).
Proof.
  destruct o; cbn [Mgr_Model.step].
  - apply set_layout_same.
  - exact (same_parts_refl m).
  - apply (hooked_same (on_part part n v)). intros c. eapply moved_fixed, on_part_moved.
  - exact (same_parts_refl m).
  - destruct (do_save m design) eqn:E; [eapply do_save_same; eauto|apply same_parts_refl].
  - unfold Mgr_Model.do_load. destruct (String.eqb design ""); [apply load_file_same|].
    destruct (dget (before_json design) (m_files m)); [apply load_file_same|apply same_parts_refl].
Qed.
Lemma hooked_laid (f : child -> child * report) m : (forall c, fixed c (fst (f c)) /\ inplace c (fst (f c))) -> laid m -> laid (hooked f m).
Proof.
  intros H (L1 & L2 & L3). destruct (hooked_spec f m) as (A1 & _ & A3 & _ & A5 & _). split; [|split].
  - rewrite A3, L1, A1, map_map. apply map_ext. intros c. symmetry. apply inplace_row; apply H.
  - intros c Hc. rewrite A1 in Hc. apply in_map_iff in Hc as (c0 & <- & Hc). destruct (H c0) as (_ & _ & _ & E & _). rewrite E. now apply L2.
  - congruence.
Qed.
Lemma step_laid m o : laid m -> laid (step m o).
Proof.
  intros L. destruct o; cbn [Mgr_Model.step].
  - apply set_layout_laid.
  - exact L.
  - apply (hooked_laid (on_part part n v)); [|exact L]. intros c. destruct (on_part_moved part n v c) as (A & B & _). auto.
  - exact L.
  - destruct (do_save m design) eqn:E; [eapply do_save_laid; eauto|exact L].
  - unfold Mgr_Model.do_load. destruct (String.eqb design ""); [apply load_file_laid|].
    destruct (dget (before_json design) (m_files m)); [apply load_file_laid|exact L].
Qed.
Lemma step_lit m o : laid m -> lit m -> lit (step m o).
Proof.
  intros L Hl. destruct o; cbn [Mgr_Model.step].
  - now apply set_layout_lit; [left|].
  - reflexivity.
  - destruct (hooked_spec (on_part part n v) m) as (_ & _ & _ & _ & _ & _ & _ & _ & _ & H). now apply H.
  - exact Hl.
  - destruct (do_save m design) eqn:E; [|exact Hl]. now apply do_save_fields in E.
  - unfold Mgr_Model.do_load. destruct (String.eqb design ""); [apply load_file_fields|].
    destruct (dget (before_json design) (m_files m)); [apply load_file_fields|exact Hl].
Qed.
Lemma step_own m o : own_kinds (m_own (step m o)) = own_kinds (m_own m).
Proof.
  destruct o; cbn [Mgr_Model.step].
  - destruct (set_layout_fields m value) as (_ & _ & _ & _ & -> & _). reflexivity.
  - reflexivity.
  - destruct (hooked_spec (on_part part n v) m) as (_ & _ & _ & _ & _ & _ & H & _). unfold on_part in H. now rewrite H.
  - cbn [m_own]. destruct (dget n (m_own m)) eqn:E; [|reflexivity]. now apply own_dset.
  - destruct (do_save m design) eqn:E; [|reflexivity]. apply do_save_fields in E. now replace (m_own m0) with (m_own m) by (symmetry; apply E).
  - unfold Mgr_Model.do_load. destruct (String.eqb design "").
    + destruct (load_file_fields m (mkF [] [] [] []) "") as (_ & _ & _ & _ & _ & _ & -> & _). apply own_load_kinds.
    + destruct (dget (before_json design) (m_files m)) as [f|]; [|reflexivity].
      destruct (load_file_fields m f design) as (_ & _ & _ & _ & _ & _ & -> & _). apply own_load_kinds.
Qed.
Lemma run_keeps os : forall m, laid m -> lit m -> laid (run m os) /\ lit (run m os) /\ same_parts m (run m os) /\ own_kinds (m_own (run m os)) = own_kinds (m_own m).
Proof.
  induction os as [|o r IH]; intros m L Hl; cbn [Mgr_Model.run fold_left]; [repeat split; auto using same_parts_refl; apply L|].
  destruct (IH (step m o) (step_laid m o L) (step_lit m o L Hl)) as (A & B & C & D). unfold Mgr_Model.run in *.
  split; [exact A|]. split; [exact B|]. split; [eapply same_parts_trans; [apply step_same|exact C]|]. now rewrite D, step_own.
Qed.
Lemma made_laid parts ports own files : laid (made parts ports own files) /\ lit (made parts ports own files).
Proof. split; [apply set_layout_laid|]. unfold Mgr_Model.made, Mgr_Model.set_layout.
  destruct (hooked_spec (on_layout ports []) (mkM parts ports [] [] None [] [] false own "" files)) as (_ & _ & _ & _ & A & _).
  cbn [m_ports]. rewrite A. reflexivity.
Qed.

(* ---- what the light says ---- *)
Definition told (m : mgr) (c : child) : Prop := match dget (ch_name c) (m_partmod m) with Some d => d = ch_msgs c | None => ch_msgs c = [] end.
Lemma is_modified_iff (m : mgr) : is_modified m = true <->
  (exists r d, In r (m_layout m) /\ r_visible r = true /\ dget (r_name r) (m_partmod m) = Some d /\ d <> []) \/
  m_savedvis m <> Some (map r_visible (m_layout m)) \/ m_exports m <> m_savedexp m.
Proof.
  clear none vstr eqv same js. unfold is_modified. rewrite !orb_true_iff, !negb_true_iff, existsb_exists. split.
  - intros [[(r & H1 & H2)|H]|H].
    + left. apply andb_true_iff in H2 as [H2 H3]. destruct (dget (r_name r) (m_partmod m)) as [[|x y]|] eqn:E; try discriminate. exists r, (x :: y). repeat split; auto. discriminate.
    + right; left. destruct (m_savedvis m) as [v|]; [|discriminate]. intros E. injection E as E. subst v. assert (X : vis_eqb (map r_visible (m_layout m)) (map r_visible (m_layout m)) = true) by now apply vis_eqb_iff. congruence.
    + right; right. intros E. apply exp_eqb_iff in E. congruence.
  - intros [(r & d & H1 & H2 & H3 & H4)|[H|H]].
    + left; left. exists r. split; [exact H1|]. rewrite H2, H3. destruct d; [contradiction|reflexivity].
    + left; right. destruct (m_savedvis m) as [v|]; [|reflexivity]. apply not_true_iff_false. intros E. apply vis_eqb_iff in E. congruence.
    + right. apply not_true_iff_false. intros E. now apply exp_eqb_iff in E.
Qed.
Lemma nonempty_keys (d : dict (V * V)) : d <> [] <-> exists n, In n (dkeys d).
Proof. destruct d as [|[k v] r]; split; try congruence; [intros (n & [])|]. intros _. exists k. now left. Qed.
Definition exact_inv (m : mgr) : Prop := laid m /\ lit m /\ NoDup (names m) /\ forall c, In c (m_parts m) -> sync c /\ told m c.
Lemma exact_light m : exact_inv m -> (m_modified m = true <-> changed m).
Proof.
  intros (L & Hl & _ & H). unfold lit in Hl. rewrite Hl, is_modified_iff. unfold Mgr_Spec.changed.
  assert (E : (exists r d, In r (m_layout m) /\ r_visible r = true /\ dget (r_name r) (m_partmod m) = Some d /\ d <> []) <->
              (exists c n, In c (m_parts m) /\ ch_visible c = Some true /\ differs c n)); [|now rewrite E].
  destruct L as (L1 & L2 & _). rewrite L1. split.
  - intros (r & d & H1 & H2 & H3 & H4). apply in_map_iff in H1 as (c & <- & Hc). destruct (H c Hc) as ([_ S] & T). unfold told in T.
    cbn [row_of r_name r_visible] in *. rewrite H3 in T. subst d. apply nonempty_keys in H4 as (n & Hn). exists c, n. split; [exact Hc|]. split; [|now apply S].
    destruct (ch_visible c) as [[|]|]; congruence.
  - intros (c & n & Hc & Hv & Hd). destruct (H c Hc) as ([_ S] & T). apply S in Hd. unfold told in T.
    exists (row_of c), (ch_msgs c). split; [now apply in_map|]. cbn [row_of r_name r_visible]. rewrite Hv. split; [reflexivity|].
    destruct (dget (ch_name c) (m_partmod m)); [|rewrite T in Hd; destruct Hd]. subst. split; [reflexivity|]. intros E. now rewrite E in Hd.
Qed.
Lemma hooked_exact (f : child -> child * report) m : NoDup (names m) ->
  (forall c, In c (m_parts m) -> fixed c (fst (f c)) /\ tells c (fst (f c)) (snd (f c)) /\ (sync c -> sync (fst (f c)))) ->
  (forall c, In c (m_parts m) -> sync c /\ told m c) -> forall c, In c (m_parts (hooked f m)) -> sync c /\ told (hooked f m) c.
Proof.
  intros D F H c Hc. destruct (hooked_spec f m) as (A1 & _). rewrite A1 in Hc. apply in_map_iff in Hc as (c0 & <- & Hc).
  destruct (F c0 Hc) as (F1 & F2 & F3). destruct (H c0 Hc) as (S & T). split; [auto|]. unfold told in *.
  assert (N : ch_name (fst (f c0)) = ch_name c0) by apply F1. rewrite N.
  rewrite (hooked_partmod f m c0 D); [|intros c Hc'; now apply F|exact Hc]. unfold tells in F2.
  destruct (snd (f c0)); [exact F2|]. now rewrite F2.
Qed.
Definition edit (o : @op V) : bool := match o with Save _ | Load _ => false | _ => true end.
Lemma step_exact m o : edit o = true -> exact_inv m -> exact_inv (step m o).
Proof.
  intros He (L & Hl & D & H). split; [now apply step_laid|]. split; [now apply step_lit|].
  split; [now rewrite (same_names m _ (step_same m o))|]. destruct o; try discriminate; cbn [Mgr_Model.step].
  - destruct (set_layout_fields m value) as (A1 & _ & _ & _ & _ & _ & _ & A8 & _). rewrite A1. intros c Hc. unfold told. rewrite A8.
    revert c Hc. apply (hooked_exact (on_layout (m_ports m) value)); auto. intros c Hc.
    destruct (on_layout_spec none eqv same vstr (m_ports m) value c) as ((S1 & _ & S3 & S4) & _). auto.
  - exact H.
  - apply (hooked_exact (on_part part n v)); auto. intros c Hc. destruct (on_part_moved part n v c) as (A & _ & _ & B & C). auto.
  - exact H.
Qed.
Lemma run_exact os : forall m, forallb edit os = true -> exact_inv m -> exact_inv (run m os).
Proof.
  induction os as [|o r IH]; intros m He H; cbn [Mgr_Model.run fold_left]; [exact H|]. cbn [forallb] in He. apply andb_true_iff in He as [H1 H2].
  apply IH; [exact H2|]. now apply step_exact.
Qed.
Lemma made_exact parts ports own files : NoDup (map ch_name parts) -> (forall c, In c parts -> sync c /\ ch_msgs c = []) -> exact_inv (made parts ports own files).
Proof.
  intros D H. destruct (made_laid parts ports own files) as [L Hl]. split; [exact L|]. split; [exact Hl|].
  set (m0 := mkM parts ports [] [] None [] [] false own "" files).
  unfold Mgr_Model.made. fold m0. split; [now rewrite (same_names m0 _ (set_layout_same m0 []))|].
  destruct (set_layout_fields m0 []) as (A1 & _ & _ & _ & _ & _ & _ & A8 & _). rewrite A1. intros c Hc. unfold told. rewrite A8.
  revert c Hc. apply (hooked_exact (on_layout (m_ports m0) [])); auto.
  - intros c Hc. destruct (on_layout_spec none eqv same vstr (m_ports m0) [] c) as ((S1 & _ & S3 & S4) & _). auto.
Qed.

(* ---- saving ---- *)
Lemma structure_get (c : child) n : dget n (structure c) = if tracked c n then option_map a_value (dget n (ch_attrs c)) else None.
Proof.
  unfold structure. set (t := tracked c). clearbody t. induction (ch_attrs c) as [|[k a] r IH]; cbn [flat_map fst snd dget]; [now destruct (t n)|].
  destruct (String.eqb_spec n k) as [e|N].
  - rewrite <- e. destruct (t n) eqn:E; cbn [app dget]; [now rewrite String.eqb_refl|]. exact IH.
  - destruct (t k); cbn [app dget]; [|exact IH]. destruct (String.eqb_spec n k); [contradiction|exact IH].
Qed.
Lemma structure_nodup (c : child) : NoDup (dkeys (ch_attrs c)) -> NoDup (map fst (structure c)).
Proof.
  unfold structure. set (t := tracked c). clearbody t. induction (ch_attrs c) as [|[k a] r IH]; cbn [flat_map fst snd dkeys map]; intros D; [constructor|].
  inversion D as [|? ? Dn Dd]; subst. destruct (t k); cbn [app map fst]; [|now apply IH]. constructor; [|now apply IH].
  intros X. apply Dn. apply in_map_iff in X as ([k' v] & E & H). cbn in E. subst k'. apply in_flat_map in H as ([k2 a2] & H1 & H2). cbn [fst snd] in H2.
  destruct (t k2); [|destruct H2]. destruct H2 as [H2|[]]. injection H2 as -> _. apply in_map_iff. exists (k, a2). auto.
Qed.
Lemma saved_same (Hr : forall v, eqv v v = true) c n : ~ differs (on_save c) n.
Proof.
  intros H. apply (differs_iff none eqv) in H as (T & a & Ha & E). cbn [on_save with_saved ch_saved ch_attrs] in *.
  change (tracked (on_save c) n) with (tracked c n) in T. rewrite structure_get, T, Ha in E. cbn [option_map] in E. rewrite Hr in E. discriminate.
Qed.
End P.
