(* C22, C23, C24: what users of a manager block rely on. *)
From Coq Require Import String Bool Arith ZArith Lia List.
From Verif Require Import Base Mgr_Model Mgr_Spec Mgr_Proofs MgrInv_Proofs.
Import ListNotations.
Local Open Scope list_scope.

Section P.
Context {V : Type}.
Variable none : V.
Variable vstr : string -> V.
Variable eqv : V -> V -> bool.
Variable same : V * V -> V * V -> bool.
Variable js : V -> V.
Notation child := (@child V).
Notation mgr := (@mgr V).
Notation attr := (@attr V).
Notation op := (@op V).
Notation set_attr := (set_attr none eqv same).
Notation put_attrs := (put_attrs none eqv same).
Notation on_layout := (on_layout none vstr eqv same).
Notation on_load := (on_load none eqv same).
Notation set_layout := (set_layout none vstr eqv same).
Notation load_file := (load_file none vstr eqv same).
Notation step := (step none vstr eqv same js).
Notation run := (run none vstr eqv same js).
Notation do_save := (do_save js).
Notation do_load := (do_load none vstr eqv same).
Notation made := (made none vstr eqv same).
Notation differs := (differs none eqv).
Notation changed := (changed none eqv).
Notation sync := (sync none eqv).
Notation report := (option (dict (V * V))).

(* ================= C24 ================= *)
(* at any time in the life of a manager a table written to the layout moves and shows or hides the
   parts its rows name (the last row of each), leaves every other row as it was, keeps the order
   and names no new part *)
Lemma laid_placed m value : laid m -> m_layout (set_layout m value) = map (placed value) (m_layout m).
Proof.
  intros (L1 & L2 & _). destruct (set_layout_fields none vstr eqv same m value) as (_ & _ & A3 & _). rewrite A3, L1.
  destruct (hooked_spec (on_layout (m_ports m) value) m) as (B & _). rewrite B, !map_map. apply map_ext_in. intros c Hc.
  apply (on_layout_spec none eqv same vstr). now apply L2.
Qed.
Theorem C24_only_named_rows parts ports own files os value :
  let m := run (made parts ports own files) os in
  m_layout (step m (SetLayout value)) = map (placed value) (m_layout m).
Proof.
  cbn zeta. destruct (made_laid none vstr eqv same parts ports own files) as [L Hl].
  destruct (run_keeps none vstr eqv same js os _ L Hl) as (L' & _). now apply laid_placed.
Qed.
(* one row for each part, in order, whatever is done *)
Theorem C24_one_row_each parts ports own files os :
  map r_name (m_layout (run (made parts ports own files) os)) = map ch_name parts.
Proof.
  destruct (made_laid none vstr eqv same parts ports own files) as [L Hl].
  destruct (run_keeps none vstr eqv same js os _ L Hl) as ((L1 & _) & _ & S & _). rewrite L1, map_map. cbn [row_of r_name].
  change (names (run (made parts ports own files) os) = map ch_name parts). rewrite (same_names _ _ S).
  unfold Mgr_Model.made. set (m0 := mkM parts ports [] [] None [] [] false own "" files).
  now rewrite (same_names m0 _ (set_layout_same none vstr eqv same m0 [])).
Qed.

(* ================= C23 ================= *)
(* from the start, through all puts to layout and exports and all changes of values: the light is
   on exactly when something shown is not what was saved, or what is shown or exported is not *)
Theorem C23_exact parts ports own files os :
  NoDup (map ch_name parts) ->
  (forall c, In c parts -> ch_msgs c = [] /\ forall n, ~ differs c n) ->
  (forall o, In o os -> match o with Save _ | Load _ => False | _ => True end) ->
  let m := run (made parts ports own files) os in m_modified m = true <-> changed m.
Proof.
  intros D H Ho. cbn zeta. apply (exact_light none eqv). apply (run_exact none vstr eqv same js).
  - apply forallb_forall. intros o Hi. specialize (Ho o Hi). destruct o; try reflexivity; destruct Ho.
  - apply (made_exact none vstr eqv same); [exact D|]. intros c Hc. destruct (H c Hc) as [A B]. split; [|exact A]. split; rewrite A; [constructor|].
    intros n. split; [intros []|]. intros X. now apply B in X.
Qed.
(* when no part has a message at a save, the same holds from then on *)
Lemma clean_save_exact m d m' : (forall v, eqv v v = true) -> laid m -> NoDup (names m) -> (forall c, In c (m_parts m) -> ch_msgs c = []) ->
  do_save m d = Some m' -> exact_inv none eqv m'.
Proof.
  intros Hr L D H E. pose proof (do_save_laid js m d m' L E) as L'. pose proof (do_save_same js m d m' E) as S.
  apply do_save_fields in E as (A1 & _ & _ & _ & _ & _ & A7 & _ & _ & _ & A11 & _). split; [exact L'|]. split; [exact A11|].
  split; [now rewrite (same_names _ _ S)|]. intros c Hc. rewrite A1 in Hc. apply in_map_iff in Hc as (c0 & <- & Hc).
  assert (M : ch_msgs (on_save c0) = []) by (cbn; now apply H). split.
  - split; rewrite M; [constructor|]. intros n. split; [intros []|]. intros X. now apply saved_same in X.
  - unfold told. now rewrite A7.
Qed.
(* "as found": a manager that has been through any history *)
Lemma ever parts ports own files os : let m := run (made parts ports own files) os in laid m /\ lit m /\ names m = map ch_name parts /\
  Forall2 fixed parts (m_parts m) /\ own_kinds (m_own m) = own_kinds own.
Proof.
  cbn zeta. destruct (made_laid none vstr eqv same parts ports own files) as [L Hl].
  destruct (run_keeps none vstr eqv same js os _ L Hl) as (A & B & C & D). split; [exact A|]. split; [exact B|].
  set (m0 := mkM parts ports [] [] None [] [] false own "" files) in *.
  pose proof (same_parts_trans m0 _ _ (set_layout_same none vstr eqv same m0 []) C) as S. split; [exact (same_names _ _ S)|]. split; [exact S|].
  rewrite D. unfold Mgr_Model.made. fold m0. now destruct (set_layout_fields none vstr eqv same m0 []) as (_ & _ & _ & _ & -> & _).
Qed.
Theorem C23_exact_after_save parts ports own files os1 d m' os : let m := run (made parts ports own files) os1 in
  (forall v, eqv v v = true) -> NoDup (map ch_name parts) -> (forall c, In c (m_parts m) -> ch_msgs c = []) ->
  do_save m d = Some m' -> (forall o, In o os -> match o with Save _ | Load _ => False | _ => True end) ->
  m_modified (run m' os) = true <-> changed (run m' os).
Proof.
  cbn zeta. intros Hr D H E Ho. destruct (ever parts ports own files os1) as (L & _ & N & _). rewrite <- N in D.
  apply (exact_light none eqv). apply (run_exact none vstr eqv same js); [|eapply clean_save_exact; eauto].
  apply forallb_forall. intros o Hi. specialize (Ho o Hi). destruct o; try reflexivity; destruct Ho.
Qed.
(* the light is off, and nothing differs, after any save *)
Theorem C23_save_cleans parts ports own files os d m' : (forall v, eqv v v = true) ->
  do_save (run (made parts ports own files) os) d = Some m' -> m_modified m' = false /\ ~ changed m'.
Proof.
  intros Hr E. apply do_save_fields in E as (A1 & _ & A3 & A4 & A5 & A6 & A7 & _ & _ & _ & A11 & _). split.
  - unfold lit in A11. rewrite A11. apply not_true_iff_false. intros X. apply is_modified_iff in X as [(r & d0 & _ & _ & H & _)|[H|H]].
    + rewrite A7 in H. discriminate.
    + apply H. now rewrite A5, A3.
    + apply H. congruence.
  - intros [(c & n & Hc & _ & X)|[H|H]].
    + rewrite A1 in Hc. apply in_map_iff in Hc as (c0 & <- & _). now apply saved_same in X.
    + apply H. now rewrite A5, A3.
    + apply H. congruence.
Qed.

(* ================= C22 ================= *)
(* no op of the history writes the file f *)
Fixpoint spared (f : string) (m : mgr) (os : list op) : Prop :=
  match os with
  | [] => True
  | o :: r => match o with Save d => before_json (if String.eqb d "" then m_design m else d) <> f | _ => True end /\ spared f (step m o) r
  end.
Lemma spared_file f os : forall m, spared f m os -> dget f (m_files (run m os)) = dget f (m_files m).
Proof.
  induction os as [|o r IH]; intros m H; cbn [Mgr_Model.run fold_left]; [reflexivity|]. destruct H as [H1 H2]. unfold Mgr_Model.run in IH. rewrite (IH _ H2).
  destruct o; cbn [Mgr_Model.step].
  - destruct (set_layout_fields none vstr eqv same m value) as (_ & _ & _ & _ & _ & _ & -> & _). reflexivity.
  - reflexivity.
  - destruct (hooked_spec (on_part none eqv same part n v) m) as (_ & _ & _ & _ & _ & _ & _ & _ & E & _). unfold on_part in E. now rewrite E.
  - reflexivity.
  - destruct (do_save m design) as [m'|] eqn:E; [|reflexivity]. apply do_save_fields in E as (_ & _ & _ & _ & _ & _ & _ & _ & _ & -> & _).
    now apply dget_dset_other.
  - unfold Mgr_Model.do_load. destruct (String.eqb design "").
    + destruct (load_file_fields none vstr eqv same m (mkF [] [] [] []) "") as (_ & _ & _ & _ & _ & _ & _ & -> & _). reflexivity.
    + destruct (dget (before_json design) (m_files m)) as [g|]; [|reflexivity].
      destruct (load_file_fields none vstr eqv same m g design) as (_ & _ & _ & _ & _ & _ & _ & -> & _). reflexivity.
Qed.
Lemma dict_of {A B} (k : A -> string) (g : A -> B) l : NoDup (map k l) -> fold_left (fun d x => dset (k x) (g x) d) l [] = map (fun x => (k x, g x)) l.
Proof.
  intros D. assert (G : forall acc, (forall x, In x l -> ~ In (k x) (dkeys acc)) -> fold_left (fun d x => dset (k x) (g x) d) l acc = acc ++ map (fun x => (k x, g x)) l).
  { induction l as [|x r IH]; intros acc H; cbn [fold_left map]; [now rewrite app_nil_r|]. inversion D as [|? ? Dn Dd]; subst.
    assert (E : dset (k x) (g x) acc = acc ++ [(k x, g x)]).
    { specialize (H x (or_introl eq_refl)). clear -H. induction acc as [|[a b] r IH]; cbn [dset app]; [reflexivity|].
      destruct (String.eqb_spec (k x) a) as [e|N]; [exfalso; apply H; left; cbn; congruence|]. f_equal. apply IH. intros X. apply H. now right. }
    rewrite E, IH; [now rewrite <- app_assoc|exact Dd|]. intros y Hy. unfold dkeys. rewrite map_app, in_app_iff. intros [X|[X|[]]].
    - now apply (H y (or_intror Hy)).
    - cbn in X. apply Dn. rewrite X. now apply in_map. }
  apply (G []). intros x _ [].
Qed.
Lemma last_row_In l r : NoDup (map r_name l) -> In r l -> last_row (r_name r) l = Some r.
Proof.
  induction l as [|x t IH]; intros D H; [destruct H|]. rewrite last_row_cons. cbn [map] in D. inversion D as [|? ? Dn Dd]; subst. destruct H as [->|H].
  - assert (N : last_row (r_name r) t = None).
    { unfold last_row. destruct (find _ (rev t)) as [y|] eqn:E; [|reflexivity]. apply find_some in E as [E1 E2]. apply String.eqb_eq in E2. exfalso. apply Dn. rewrite <- E2.
      apply in_map. now apply in_rev. }
    now rewrite N, String.eqb_refl.
  - now rewrite IH.
Qed.
Lemma placed_back l1 : forall l3, Forall2 (fun r1 r3 => r_name r3 = r_name r1 /\ r_mri r3 = r_mri r1) l1 l3 -> NoDup (map r_name l1) ->
  map (placed (map (fun r => mkRow (r_name r) "" (r_x r) (r_y r) (r_visible r)) l1)) l3 = l1.
Proof.
  intros l3 H D. set (value := map _ l1).
  assert (G : forall r1 r3, In r1 l1 -> r_name r3 = r_name r1 /\ r_mri r3 = r_mri r1 -> placed value r3 = r1).
  { intros r1 r3 Hi [N M]. unfold placed. rewrite N, M.
    replace (last_row (r_name r1) value) with (Some (mkRow (r_name r1) "" (r_x r1) (r_y r1) (r_visible r1))); [destruct r1; reflexivity|].
    symmetry. apply (last_row_In value (mkRow (r_name r1) "" (r_x r1) (r_y r1) (r_visible r1))).
    - unfold value. rewrite map_map. exact D.
    - unfold value. apply in_map_iff. exists r1. auto. }
  clearbody value. clear D. induction H as [|r1 r3 l l' H1 H2 IH]; cbn [map]; [reflexivity|]. f_equal; [apply G; [now left|exact H1]|].
  apply IH. intros; apply G; [now right|assumption].
Qed.
Lemma F2_In {A B} (R : A -> B -> Prop) l l' x : Forall2 R l l' -> In x l -> exists y, In y l' /\ R x y.
Proof. induction 1 as [|a b t t' H1 H2 IH]; [intros []|intros [->|Hx]; [exists b|destruct (IH Hx) as (y & Hy & Hr); exists y]; cbn; auto]. Qed.
Lemma F2_map {A B} (R : A -> A -> Prop) (S : B -> B -> Prop) (f : A -> B) l l' : (forall x y, R x y -> S (f x) (f y)) -> Forall2 R l l' -> Forall2 S (map f l) (map f l').
Proof. intros H. induction 1; cbn [map]; constructor; auto. Qed.
Lemma kinds_own (d d' : dict attr) n a : own_kinds d' = own_kinds d -> dget n d = Some a -> exists a', dget n d' = Some a' /\ kind a' = kind a.
Proof.
  revert d'. induction d as [|[k b] r IH]; intros [|[k' b'] r'] H E; try discriminate. unfold own_kinds in H. cbn [map fst snd] in H. injection H as H1 H2 H3 H4 H5. cbn [dget] in *. rewrite H1.
  destruct (String.eqb n k); [|now apply IH]. injection E as ->. exists b'. split; [reflexivity|]. unfold kind. congruence.
Qed.
Lemma map_get (f : V -> V) (d : dict V) n : dget n (map (fun nv => (fst nv, f (snd nv))) d) = option_map f (dget n d).
Proof. induction d as [|[k v] r IH]; cbn [map fst snd dget option_map]; [reflexivity|]. destruct (String.eqb n k); auto. Qed.
Lemma own_map_get (d : dict attr) n : dget n (map (fun na => (fst na, js (a_value (snd na)))) d) = option_map (fun a => js (a_value a)) (dget n d).
Proof. induction d as [|[k v] r IH]; cbn [map fst snd dget option_map]; [reflexivity|]. destruct (String.eqb n k); auto. Qed.

(* the child named: c's settings as saved in m1 are those of c4 *)
Definition settings_back (c1 c4 : child) : Prop :=
  forall n a i, dget n (ch_attrs c1) = Some a -> a_config a = Some i -> ~ In n (ch_nosave c1) ->
  exists a4, dget n (ch_attrs c4) = Some a4 /\ (a_value a4 = a_validate a (js (a_value a)) \/ eqv (a_value a4) (js (a_value a)) = true).
Theorem C22_restored parts ports own files os1 d m2 os2 m4 :
  let m1 := run (made parts ports own files) os1 in let d' := if String.eqb d "" then m_design m1 else d in
  NoDup (map ch_name parts) -> (forall c, In c parts -> NoDup (dkeys (ch_attrs c))) -> NoDup (dkeys own) -> NoDup (map fst (m_exports m1)) ->
  do_save m1 d = Some m2 -> spared (before_json d') m2 os2 -> do_load (run m2 os2) d' false = Some m4 ->
  m_layout m4 = m_layout m1 /\ m_exports m4 = m_exports m1 /\ m_modified m4 = false /\
  (forall n a, dget n (m_own m1) = Some a -> exists a4, dget n (m_own m4) = Some a4 /\ a_value a4 = a_validate a (js (a_value a))) /\
  (forall c1, In c1 (m_parts m1) -> exists c4, In c4 (m_parts m4) /\ ch_name c4 = ch_name c1 /\ settings_back c1 c4).
Proof.
  cbn zeta. intros D Da Do De Es Hs El. destruct (ever parts ports own files os1) as (L1 & Lt1 & N1 & S1 & O1).
  set (m1 := run (made parts ports own files) os1) in *. set (d' := if String.eqb d "" then m_design m1 else d) in *.
  pose proof (do_save_laid js m1 d m2 L1 Es) as L2. pose proof (do_save_same js m1 d m2 Es) as S2.
  apply do_save_fields in Es as (_ & _ & _ & _ & _ & _ & _ & B8 & _ & B10 & B11 & B12). fold d' in B10, B12.
  destruct (run_keeps none vstr eqv same js os2 m2 L2 B11) as (L3 & _ & S3 & O3).
  pose proof (spared_file _ os2 m2 Hs) as F3. rewrite B10, dget_dset_same in F3. set (m3 := run m2 os2) in *.
  unfold Mgr_Model.do_load in El. destruct (String.eqb_spec d' "") as [X|_]; [contradiction|]. rewrite F3 in El. injection El as <-.
  pose proof (same_parts_trans _ _ _ S2 S3) as S13. rewrite B8 in O3.
  assert (Dl : NoDup (map r_name (m_layout m1))). { destruct L1 as (L1 & _). rewrite L1, map_map. change (NoDup (names m1)). now rewrite N1. }
  assert (Hv : map (fun nd => let '(n, (x, y, v)) := nd in mkRow n "" x y v) (f_layout (file_of js m1)) = map (fun r => mkRow (r_name r) "" (r_x r) (r_y r) (r_visible r)) (m_layout m1)).
  { cbn [file_of f_layout]. rewrite (dict_of r_name (fun r => (r_x r, r_y r, r_visible r))) by exact Dl. now rewrite map_map. }
  destruct (load_file_fields none vstr eqv same m3 (file_of js m1) d') as (A1 & A2 & A3 & A4 & A5 & A6 & A7 & _ & _ & _ & A11). cbn zeta in A1, A2. rewrite Hv in A1, A2.
  set (m4 := load_file m3 (file_of js m1) d' false) in *. set (value := map (fun r => mkRow _ _ _ _ _) (m_layout m1)) in *.
  split; [|split; [|split; [|split]]].
  - rewrite A2. rewrite laid_placed by exact L3. apply placed_back; [|exact Dl]. destruct L1 as (L1 & _). destruct L3 as (L3 & _). rewrite L1, L3.
    eapply (F2_map fixed); [|exact S13]. intros x y (P & Q & _). split; [exact P|exact Q].
  - rewrite A3. cbn [file_of f_exports]. rewrite (dict_of fst snd) by exact De. clear. induction (m_exports m1) as [|[a b] r IH]; cbn [map]; [reflexivity|]. now rewrite IH.
  - unfold lit in A11. rewrite A11. apply not_true_iff_false. intros X. apply is_modified_iff in X as [(r & d0 & _ & _ & H & _)|[H|H]].
    + rewrite A6 in H. discriminate.
    + apply H. exact A4.
    + apply H. congruence.
  - intros n a Ha. rewrite A7. destruct (kinds_own (m_own m1) (m_own m3) n a O3 Ha) as (a3 & Ha3 & K).
    rewrite own_load_get.
    + rewrite Ha3. cbn [file_of f_own]. rewrite own_map_get, Ha. cbn [option_map]. exists (revalued a3 (a_validate a3 (js (a_value a)))). split; [reflexivity|].
      unfold kind in K. cbn [revalued a_value]. now replace (a_validate a3) with (a_validate a) by congruence.
    + cbn [file_of f_own]. rewrite map_map. cbn [fst]. change (NoDup (dkeys (m_own m1))).
      replace (dkeys (m_own m1)) with (dkeys own); [exact Do|]. unfold own_kinds in O1. apply (f_equal (map fst)) in O1. rewrite !map_map in O1. symmetry. exact O1.
  - intros c1 H1. destruct (F2_In _ _ _ _ S13 H1) as (c3 & H3 & K3).
    set (v := f_children (file_of js m1)).
    set (lay := on_layout (m_ports m3) value). set (c3' := fst (lay c3)).
    assert (K3' : fixed c1 c3') by (eapply fixed_trans; [exact K3|]; apply (on_layout_spec none eqv same vstr)).
    assert (H3' : In c3' (m_parts (set_layout m3 value))).
    { destruct (set_layout_fields none vstr eqv same m3 value) as (Z & _). rewrite Z. destruct (hooked_spec lay m3) as (Y & _). unfold lay in Y. rewrite Y. apply (in_map (fun c => fst (lay c))). exact H3. }
    set (st := match dget (ch_name c3') v with Some s => s | None => [] end).
    set (c4 := fst (on_load false st c3')). exists c4. split; [|split].
    + rewrite A1. apply in_map_iff. exists c3'. split; [reflexivity|exact H3'].
    + transitivity (ch_name c3'); [apply (fixed_on_load none eqv same st c3')|apply K3'].
    + assert (Est : st = map (fun nv => (fst nv, js (snd nv))) (structure c1)).
      { unfold st, v. replace (ch_name c3') with (ch_name c1) by (symmetry; apply K3'). cbn [file_of f_children].
        replace (dget (ch_name c1) _) with (Some (map (fun nv => (fst nv, js (snd nv))) (structure c1))); [reflexivity|]. symmetry.
        apply dget_In_nodup.
        - unfold dkeys. rewrite map_map. cbn [fst]. change (NoDup (names m1)). now rewrite N1.
        - apply in_map_iff. exists c1. auto. }
      intros n a i Ha Hc Hn. destruct (fixed_attr c1 c3' n a K3' Ha) as (a3 & Ha3 & Ka).
      assert (Ds : NoDup (map fst st)).
      { rewrite Est, map_map. cbn [fst]. apply structure_nodup. destruct (F2_In fixed (m_parts m1) parts c1) as (c0 & H0 & K0); [|exact H1|].
        - clear -S1. induction S1; constructor; auto using fixed_sym.
        - rewrite <- (fixed_keys c1 c0 K0). now apply Da. }
      pose proof (on_load_attr none eqv same st c3' n a3 Ds Ha3) as Z. fold c4 in Z.
      assert (T : tracked c1 n = true) by (apply tracked_iff; eauto).
      rewrite Est, map_get, structure_get, T, Ha in Z. cbn [option_map] in Z.
      unfold kind in Ka. assert (Hc3 : a_config a3 = Some i) by congruence. rewrite Hc3 in Z. eexists. split; [exact Z|].
      unfold loaded. destruct (eqv (a_value a3) (js (a_value a))) eqn:E; [right; exact E|left]. cbn [revalued a_value]. now replace (a_validate a3) with (a_validate a) by congruence.
Qed.
(* so with == that is equality, and settings that go through JSON and the meta unchanged *)
Corollary C22_restored_exactly parts ports own files os1 d m2 os2 m4 :
  let m1 := run (made parts ports own files) os1 in let d' := if String.eqb d "" then m_design m1 else d in
  (forall a b, eqv a b = true -> a = b) ->
  NoDup (map ch_name parts) -> (forall c, In c parts -> NoDup (dkeys (ch_attrs c))) -> NoDup (dkeys own) -> NoDup (map fst (m_exports m1)) ->
  do_save m1 d = Some m2 -> spared (before_json d') m2 os2 -> do_load (run m2 os2) d' false = Some m4 ->
  forall c1 n a i, In c1 (m_parts m1) -> dget n (ch_attrs c1) = Some a -> a_config a = Some i -> ~ In n (ch_nosave c1) ->
    js (a_value a) = a_value a -> a_validate a (a_value a) = a_value a ->
    exists c4 a4, In c4 (m_parts m4) /\ ch_name c4 = ch_name c1 /\ dget n (ch_attrs c4) = Some a4 /\ a_value a4 = a_value a.
Proof.
  cbn zeta. intros He D Da Do De Es Hs El c1 n a i H1 Ha Hc Hn J K.
  destruct (C22_restored parts ports own files os1 d m2 os2 m4 D Da Do De Es Hs El) as (_ & _ & _ & _ & H). destruct (H c1 H1) as (c4 & H4 & N4 & B).
  destruct (B n a i Ha Hc Hn) as (a4 & A4 & V4). exists c4, a4. repeat split; auto. rewrite J in V4. destruct V4 as [V4|V4]; [congruence|now apply He].
Qed.

(* ================= C23, again ================= *)
(* -- no change is missed, over saves and loads -- *)
Definition wok (c : child) : Prop :=
  NoDup (dkeys (ch_msgs c)) /\
  forall n new o a, tracked c n = true -> dget n (ch_msgs c) = Some (new, o) -> dget n (ch_attrs c) = Some a -> a_value a = new.
Definition wdiff (c : child) : Prop := forall n, differs c n -> In n (dkeys (ch_msgs c)).
Definition watch (c c' : child) (r : report) : Prop :=
  wok c -> wok c' /\ (wdiff c -> wdiff c' /\ forall n, differs c' n -> match r with Some d => In n (dkeys d) | None => differs c n end).
Lemma watch_refl c : watch c c None.
Proof. intros H. split; [exact H|]. intros D. split; auto. Qed.
Lemma watch_trans a b c r1 r2 : watch a b r1 -> watch b c r2 -> watch a c (later r1 r2).
Proof.
  intros A B H. destruct (A H) as [Hb A2]. destruct (B Hb) as [Hc B2]. split; [exact Hc|]. intros D. destruct (A2 D) as [Db A3]. destruct (B2 Db) as [Dc B3].
  split; [exact Dc|]. intros n Hn. specialize (B3 n Hn). destruct r2; cbn [later]; [exact B3|]. now apply A3.
Qed.
Hypothesis exact_text : forall a b, same a b = true -> a = b.
Lemma watch_set c n v : watch c (fst (set_attr c n v)) (snd (set_attr c n v)).
Proof.
  unfold Mgr_Model.set_attr. destruct (dget n (ch_attrs c)) as [a|] eqn:E; [|apply watch_refl].
  set (c1 := with_attrs c (dset n (revalued a v) (ch_attrs c))).
  assert (F : fixed c c1).
  { repeat split. unfold kinds. cbn [c1 with_attrs ch_attrs]. apply (map_dset_same _ n (revalued a v) (ch_attrs c) a E). reflexivity. }
  assert (Hd : forall k, k <> n -> (differs c1 k <-> differs c k)).
  { intros k N. rewrite !(differs_iff none eqv), (fixed_tracked c c1 k F). cbn [c1 with_attrs ch_attrs ch_saved]. rewrite dget_dset_other by congruence. tauto. }
  assert (Ho : forall k a0, k <> n -> dget k (ch_attrs c1) = Some a0 -> dget k (ch_attrs c) = Some a0).
  { intros k a0 N H. cbn [c1 with_attrs ch_attrs] in H. now rewrite dget_dset_other in H by congruence. }
  assert (Hn : forall a0, dget n (ch_attrs c1) = Some a0 -> a_value a0 = v).
  { intros a0 H. cbn [c1 with_attrs ch_attrs] in H. rewrite dget_dset_same in H. injection H as <-. reflexivity. }
  intros [W1 W2]. destruct (tracked c n) eqn:T; cbn [fst snd].
  - set (o := match dget n (ch_saved c) with Some w => w | None => none end).
    assert (Dn : differs c1 n <-> eqv o v = false).
    { rewrite (differs_iff none eqv), (fixed_tracked c c1 n F), T. cbn [c1 with_attrs ch_attrs ch_saved]. rewrite dget_dset_same. split.
      - intros (_ & a0 & H & X). injection H as <-. exact X.
      - intros X. split; [reflexivity|]. exists (revalued a v). split; [reflexivity|exact X]. }
    assert (Put : forall m, watch c (with_msgs c1 (dset n (v, m) (ch_msgs c))) (Some (dset n (v, m) (ch_msgs c)))).
    { intros m _. split; [split|].
      - cbn [with_msgs ch_msgs]. now apply dset_nodup.
      - intros k new o' a0 Tk Hm Ha. change (dget k (ch_attrs c1) = Some a0) in Ha. change (tracked c1 k = true) in Tk. cbn [with_msgs ch_msgs] in Hm.
        rewrite (fixed_tracked c c1 k F) in Tk. destruct (string_dec k n) as [->|N].
        + rewrite dget_dset_same in Hm. rewrite (Hn a0 Ha). congruence.
        + rewrite dget_dset_other in Hm by congruence. eapply W2; eauto.
      - intros D. assert (X : wdiff (with_msgs c1 (dset n (v, m) (ch_msgs c)))).
        { intros k Hk. change (differs c1 k) in Hk. cbn [with_msgs ch_msgs]. apply In_dkeys_dset. destruct (string_dec k n) as [->|N]; [now left|right].
          apply D. now apply Hd. }
        split; [exact X|]. intros k Hk. now apply X in Hk. }
    unfold Mgr_Model.send_modified. cbn [c1 with_attrs ch_saved ch_msgs]. fold o. fold c1. destruct (eqv o v) eqn:Ev.
    + destruct (dget n (ch_msgs c)) as [b|] eqn:Em; cbn [fst snd].
      * split; [split|].
        -- cbn [with_msgs ch_msgs]. now apply ddel_nodup.
        -- intros k new o' a0 Tk Hm Ha. change (dget k (ch_attrs c1) = Some a0) in Ha. change (tracked c1 k = true) in Tk. cbn [with_msgs ch_msgs] in Hm.
           rewrite (fixed_tracked c c1 k F) in Tk. rewrite dget_ddel in Hm by exact W1. destruct (String.eqb_spec k n) as [->|N]; [discriminate|]. eapply W2; eauto.
        -- intros D. assert (X : wdiff (with_msgs c1 (ddel n (ch_msgs c)))).
           { intros k Hk. change (differs c1 k) in Hk. cbn [with_msgs ch_msgs]. destruct (string_dec k n) as [->|N]; [apply Dn in Hk; discriminate|].
             apply Hd in Hk; [|exact N]. apply D in Hk. apply dmem_In. apply dmem_In in Hk. unfold dmem in *. rewrite dget_ddel by exact W1.
             destruct (String.eqb_spec k n); [contradiction|exact Hk]. }
           split; [exact X|]. intros k Hk. now apply X in Hk.
      * split; [split|].
        -- exact W1.
        -- intros k new o' a0 Tk Hm Ha. rewrite (fixed_tracked c c1 k F) in Tk. destruct (string_dec k n) as [->|N].
           ++ change (dget n (ch_msgs c) = Some (new, o')) in Hm. congruence.
           ++ eapply W2; eauto.
        -- intros D. assert (X : forall k, differs c1 k -> differs c k).
           { intros k Hk. destruct (string_dec k n) as [->|N]; [apply Dn in Hk; discriminate|now apply Hd]. }
           split; [|exact X]. intros k Hk. apply X in Hk. now apply D in Hk.
    + destruct (dget n (ch_msgs c)) as [b|] eqn:Em; [|apply Put; now split]. destruct (same (v, o) b) eqn:Es; cbn [negb fst snd]; [|apply Put; now split].
      apply exact_text in Es. subst b.
      assert (Va : a_value a = v) by (eapply W2; eauto).
      assert (X : forall k, differs c1 k -> differs c k).
      { intros k Hk. destruct (string_dec k n) as [->|N]; [|now apply Hd]. apply (differs_iff none eqv). split; [exact T|]. exists a. split; [exact E|]. now rewrite Va. }
      split; [split|].
      * exact W1.
      * intros k new o' a0 Tk Hm Ha. rewrite (fixed_tracked c c1 k F) in Tk. destruct (string_dec k n) as [->|N].
        -- change (dget n (ch_msgs c) = Some (new, o')) in Hm. rewrite (Hn a0 Ha). congruence.
        -- eapply W2; eauto.
      * intros D. split; [|exact X]. intros k Hk. apply X in Hk. now apply D in Hk.
  - assert (X : forall k, differs c1 k -> differs c k).
    { intros k Hk. destruct (string_dec k n) as [->|N]; [|now apply Hd]. apply (differs_iff none eqv) in Hk as [Hk _]. rewrite (fixed_tracked c c1 n F) in Hk. congruence. }
    split; [split|].
    + exact W1.
    + intros k new o' a0 Tk Hm Ha. rewrite (fixed_tracked c c1 k F) in Tk. destruct (string_dec k n) as [->|N]; [congruence|]. eapply W2; eauto.
    + intros D. split; [|exact X]. intros k Hk. apply X in Hk. now apply D in Hk.
Qed.
Lemma watch_puts l : forall c, watch c (fst (put_attrs c l)) (snd (put_attrs c l)).
Proof.
  induction l as [|[n v] r IH]; intros c; cbn [Mgr_Model.put_attrs]; [apply watch_refl|].
  assert (H : watch c (fst (put_attr none eqv same c n v)) (snd (put_attr none eqv same c n v))).
  { unfold put_attr. destruct (dget n (ch_attrs c)); [apply watch_set|apply watch_refl]. }
  destruct (put_attr none eqv same c n v) as [c1 r1]. specialize (IH c1). destruct (put_attrs c1 r) as [c2 r2]. eapply watch_trans; eauto.
Qed.
Lemma watch_place c x y b : watch c (with_place c x y b) None.
Proof. intros [A B]. split; [split; [exact A|exact B]|]. intros D. split; [exact D|auto]. Qed.
Lemma watch_pvis c p : watch c (with_pvis c p) None.
Proof. intros [A B]. split; [split; [exact A|exact B]|]. intros D. split; [exact D|auto]. Qed.
Lemma watch_rows ports l : forall c, watch c (fst (layout_rows none vstr eqv same ports c l)) (snd (layout_rows none vstr eqv same ports c l)).
Proof.
  induction l as [|r t IH]; intros c; cbn [layout_rows]; [apply watch_refl|].
  assert (H : forall x, watch c (fst (sever none vstr eqv same c ports x)) (snd (sever none vstr eqv same c ports x))) by (intros; apply watch_puts).
  destruct (String.eqb (r_name r) (ch_name c)).
  - set (cr := match ch_visible c with Some true => if r_visible r then (c, None) else sever none vstr eqv same c ports None | _ => (c, None) end).
    assert (M : watch c (fst cr) (snd cr)) by (unfold cr; destruct (ch_visible c) as [[|]|]; [destruct (r_visible r)| |]; auto using watch_refl).
    destruct cr as [c0 r0]. cbn [fst snd] in M. set (c1 := with_place _ _ _ _). specialize (IH c1). destruct (layout_rows none vstr eqv same ports c1 t) as [c2 r2]. cbn [fst snd] in *.
    eapply watch_trans; [|exact IH]. change (watch c c1 (later r0 None)). eapply watch_trans; [exact M|apply watch_place].
  - set (cr := if _ && negb (r_visible r) then sever none vstr eqv same c ports (Some (r_name r)) else (c, None)).
    assert (M : watch c (fst cr) (snd cr)) by (unfold cr; destruct (_ && negb (r_visible r)); auto using watch_refl).
    destruct cr as [c0 r0]. cbn [fst snd] in M. set (c1 := with_pvis _ _). specialize (IH c1). destruct (layout_rows none vstr eqv same ports c1 t) as [c2 r2]. cbn [fst snd] in *.
    eapply watch_trans; [|exact IH]. change (watch c c1 (later r0 None)). eapply watch_trans; [exact M|apply watch_pvis].
Qed.
Lemma watch_layout ports value c : watch c (fst (on_layout ports value c)) (snd (on_layout ports value c)).
Proof.
  unfold Mgr_Model.on_layout. pose proof (watch_rows ports value c) as H. destruct (layout_rows none vstr eqv same ports c value) as [c1 r1]. cbn [fst snd] in H.
  set (c2 := if match ch_pvis c with [] => true | _ => false end then with_pvis c1 _ else c1).
  assert (H2 : watch c c2 r1).
  { unfold c2. destruct (match ch_pvis c with [] => true | _ => false end); [|exact H]. change (watch c (with_pvis c1 (calc_visibility vstr eqv ports (ch_pvis c1))) (later r1 None)).
    eapply watch_trans; [exact H|apply watch_pvis]. }
  clearbody c2. destruct (ch_visible c2); cbn [fst snd]; [exact H2|].
  change r1 with (later r1 None). eapply watch_trans; [exact H2|apply watch_place].
Qed.
Lemma watch_iterations rest is : forall c, watch c (fst (load_iterations none eqv same rest c is)) (snd (load_iterations none eqv same rest c is)).
Proof.
  induction is as [|i t IH]; intros c; cbn [load_iterations]; [apply watch_refl|].
  assert (H : watch c (fst (load_iteration none eqv same rest c i)) (snd (load_iteration none eqv same rest c i))) by apply watch_puts.
  destruct (load_iteration none eqv same rest c i) as [c1 r1]. specialize (IH c1). destruct (load_iterations none eqv same rest c1 t) as [c2 r2]. eapply watch_trans; eauto.
Qed.
Definition seen (m : mgr) : Prop := laid m /\ lit m /\ NoDup (names m) /\
  forall c, In c (m_parts m) -> wok c /\ wdiff c /\ forall n, differs c n -> exists d, dget (ch_name c) (m_partmod m) = Some d /\ In n (dkeys d).
Lemma seen_hooked (f : child -> child * report) m : NoDup (names m) -> (forall c, fixed c (fst (f c)) /\ watch c (fst (f c)) (snd (f c))) ->
  (forall c, In c (m_parts m) -> wok c /\ wdiff c /\ forall n, differs c n -> exists d, dget (ch_name c) (m_partmod m) = Some d /\ In n (dkeys d)) ->
  forall c, In c (m_parts (hooked f m)) -> wok c /\ wdiff c /\ forall n, differs c n -> exists d, dget (ch_name c) (m_partmod (hooked f m)) = Some d /\ In n (dkeys d).
Proof.
  intros D F H c Hc. destruct (hooked_spec f m) as (A1 & _). rewrite A1 in Hc. apply in_map_iff in Hc as (c0 & <- & Hc).
  destruct (F c0) as (F1 & F2). destruct (H c0 Hc) as (W & Wd & Hs). destruct (F2 W) as [W' X]. destruct (X Wd) as [Wd' Y].
  split; [exact W'|]. split; [exact Wd'|]. intros n Hn. specialize (Y n Hn). assert (N : ch_name (fst (f c0)) = ch_name c0) by apply F1. rewrite N.
  rewrite (hooked_partmod f m c0 D); [|intros c Hc'; now apply F|exact Hc]. destruct (snd (f c0)) as [d|]; [exists d; auto|]. now apply Hs.
Qed.
Lemma seen_light m : seen m -> changed m -> m_modified m = true.
Proof.
  intros ((L1 & _) & Hl & _ & H) X. unfold lit in Hl. rewrite Hl. apply is_modified_iff. destruct X as [(c & n & Hc & Hv & Hd)|X]; [left|now right].
  destruct (H c Hc) as (_ & _ & Hs). destruct (Hs n Hd) as (d & E & Hi). exists (row_of c), d. rewrite L1. split; [now apply in_map|].
  cbn [row_of r_name r_visible]. rewrite Hv. split; [reflexivity|]. split; [exact E|]. intros ->. destruct Hi.
Qed.
(* the loads of a history leave the children at what is in the file *)
Fixpoint loads_taken (m : mgr) (os : list op) : Prop :=
  match os with
  | [] => True
  | o :: r =>
    match o with Load d => forall m' c n, do_load m d false = Some m' -> In c (m_parts m') -> ~ differs c n | _ => True end /\ loads_taken (step m o) r
  end.
Lemma load_wok m f d c : (forall c, In c (m_parts m) -> wok c) -> In c (m_parts (load_file m f d false)) -> wok c.
Proof.
  intros H Hc. destruct (load_file_fields none vstr eqv same m f d) as (A & _). rewrite A in Hc. clear A. set (value := map _ (f_layout f)) in *.
  apply in_map_iff in Hc as (c1 & <- & Hc). destruct (set_layout_fields none vstr eqv same m value) as (A & _). rewrite A in Hc.
  destruct (hooked_spec (on_layout (m_ports m) value) m) as (B & _). rewrite B in Hc. apply in_map_iff in Hc as (c0 & <- & Hc).
  assert (W : wok (fst (on_layout (m_ports m) value c0))) by (apply watch_layout; now apply H).
  set (c1 := fst (on_layout _ _ c0)) in *. set (st := match dget _ (f_children f) with Some s => s | None => [] end).
  unfold Mgr_Model.on_load. set (is := fold_left _ _ _). pose proof (watch_iterations (restorable c1 false st) is (with_saved c1 st)) as I.
  destruct (load_iterations none eqv same (restorable c1 false st) (with_saved c1 st) is) as [c2 r2]. cbn [fst snd] in *. apply I. exact W.
Qed.
Lemma step_seen m o : (forall v, eqv v v = true) -> loads_taken m [o] -> seen m -> seen (step m o).
Proof.
  intros Hr Ht (L & Hl & D & H). split; [now apply step_laid|]. split; [now apply step_lit|].
  split; [now rewrite (same_names m _ (step_same none vstr eqv same js m o))|]. destruct Ht as [Ht _]. destruct o; cbn [Mgr_Model.step].
  - destruct (set_layout_fields none vstr eqv same m value) as (A1 & _ & _ & _ & _ & _ & _ & A8 & _). rewrite A1, A8.
    apply seen_hooked; auto. intros c. split; [|apply watch_layout]. apply (on_layout_spec none eqv same vstr).
  - exact H.
  - apply (seen_hooked (on_part none eqv same part n v)); auto. intros c. split; [eapply moved_fixed, on_part_moved|].
    unfold on_part. destruct (String.eqb (ch_name c) part); [apply watch_set|apply watch_refl].
  - exact H.
  - destruct (do_save m design) as [m'|] eqn:E; [|exact H]. apply do_save_fields in E as (A1 & _). rewrite A1. intros c Hc.
    apply in_map_iff in Hc as (c0 & <- & Hc). destruct (H c0 Hc) as (W & _). split; [exact W|]. split.
    + intros n X. exfalso. revert X. now apply saved_same.
    + intros n X. exfalso. revert X. now apply saved_same.
  - destruct (do_load m design false) as [m'|] eqn:E; [|exact H]. intros c Hc. split; [|split].
    + unfold Mgr_Model.do_load in E. destruct (String.eqb design "").
      * injection E as <-. eapply load_wok; [|exact Hc]. intros c0 H0. now apply H.
      * destruct (dget (before_json design) (m_files m)) as [f|]; [|discriminate]. injection E as <-. eapply load_wok; [|exact Hc]. intros c0 H0. now apply H.
    + intros n X. exfalso. revert X. eapply Ht; eauto.
    + intros n X. exfalso. revert X. eapply Ht; eauto.
Qed.
(* == of a value to itself holds, texts of different messages differ, and the children take what a
   load puts: nothing that differs is ever missed *)
Theorem C23_never_missed parts ports own files os : (forall v, eqv v v = true) -> NoDup (map ch_name parts) ->
  (forall c, In c parts -> ch_msgs c = [] /\ forall n, ~ differs c n) ->
  loads_taken (made parts ports own files) os ->
  changed (run (made parts ports own files) os) -> m_modified (run (made parts ports own files) os) = true.
Proof.
  intros Hr D H Ht. apply seen_light. assert (S : seen (made parts ports own files)).
  { destruct (made_laid none vstr eqv same parts ports own files) as [L Hl]. split; [exact L|]. split; [exact Hl|].
    set (m0 := mkM parts ports [] [] None [] [] false own "" files). unfold Mgr_Model.made. fold m0.
    split; [now rewrite (same_names m0 _ (set_layout_same none vstr eqv same m0 []))|].
    destruct (set_layout_fields none vstr eqv same m0 []) as (A1 & _ & _ & _ & _ & _ & _ & A8 & _). rewrite A1, A8. apply seen_hooked; [exact D| |].
    - intros c. split; [|apply watch_layout]. apply (on_layout_spec none eqv same vstr).
    - intros c Hc. destruct (H c Hc) as [A B]. split; [|split].
      + split; rewrite A; [constructor|]. intros. discriminate.
      + intros n X. now apply B in X.
      + intros n X. now apply B in X. }
  revert Ht S. generalize (made parts ports own files). induction os as [|o r IH]; intros m Ht S; cbn [Mgr_Model.run fold_left]; [exact S|].
  apply IH; [apply Ht|]. apply step_seen; auto. split; [apply Ht|exact I].
Qed.
End P.

(* ================= cases ================= *)
Local Open Scope string_scope.
Local Open Scope list_scope.
(* None, numbers, strings *)
Inductive val := VN | VI (n : nat) | VS (s : string).
Definition val_eqb (a b : val) : bool :=
  match a, b with VN, VN => true | VI x, VI y => Nat.eqb x y | VS x, VS y => String.eqb x y | _, _ => false end.
Definition msg_eqb (a b : val * val) : bool := val_eqb (fst a) (fst b) && val_eqb (snd a) (snd b).
Definition js0 (v : val) : val := v.
Lemma val_eqb_iff a b : val_eqb a b = true <-> a = b.
Proof. destruct a, b; cbn; try (split; congruence); rewrite ?Nat.eqb_eq, ?String.eqb_eq; split; congruence. Qed.
Lemma val_refl v : val_eqb v v = true. Proof. now apply val_eqb_iff. Qed.
Lemma msg_exact a b : msg_eqb a b = true -> a = b.
Proof. unfold msg_eqb. destruct a, b. cbn [fst snd]. intros H. apply andb_true_iff in H as [H1 H2]. apply val_eqb_iff in H1, H2. congruence. Qed.
Notation mrun := (run VN VS val_eqb msg_eqb js0).
Notation mmade := (made VN VS val_eqb msg_eqb).
(* nothing differs, decided *)
Definition same_b (c : @child val) : bool :=
  forallb (fun na => negb (tracked c (fst na)) ||
    match dget (fst na) (ch_attrs c) with Some a => val_eqb (match dget (fst na) (ch_saved c) with Some v => v | None => VN end) (a_value a) | None => true end) (ch_attrs c).
Lemma same_b_ok c : same_b c = true -> forall n, ~ differs VN val_eqb c n.
Proof.
  intros H n X. apply (differs_iff VN val_eqb) in X as (T & a & Ha & E). unfold same_b in H. rewrite forallb_forall in H. specialize (H (n, a) (dget_Some_In _ _ Ha)).
  cbn [fst] in H. rewrite T, Ha, E in H. discriminate.
Qed.
Definition plain (v : val) : @attr val := mkA v (Some 1) true (fun v => v).
(* A has settings x and y and a source of blocks; B a sink that takes it *)
Definition pA : @child val := mkCh "A" "ML:A" 0 0 None [] [("x", plain (VI 0)); ("y", mkA (VI 0) (Some 2) true (fun v => v)); ("state", mkA (VS "idle") None false (fun v => v))] [] [("x", VI 0); ("y", VI 0)] [].
Definition pB : @child val := mkCh "B" "ML:B" 0 0 None [] [("inp", plain (VS "A.OUT"))] [] [("inp", VS "A.OUT")] [].
Definition pports : dict (list (@portinfo val)) := [("A", [Source "out" 1 "A.OUT"]); ("B", [Sink "inp" 1 "ZERO" (VS "A.OUT")])]%string.
Definition m0 := mmade [pA; pB] pports [("own", plain (VI 7))] [].
Lemma parts_clean c : In c [pA; pB] -> ch_msgs c = [] /\ forall n, ~ differs VN val_eqb c n.
Proof. intros [<-|[<-|[]]]; (split; [reflexivity|]); apply same_b_ok; reflexivity. Qed.
Lemma names_differ : NoDup (map ch_name [pA; pB]).
Proof. cbn. repeat constructor; cbn; intuition discriminate. Qed.

(* they are connected, so shown at first; B moves, is named twice, A stays; an unknown row *)
Example C24_ex : m_layout (mrun m0 []) = [mkRow "A" "ML:A" 0 0 true; mkRow "B" "ML:B" 0 0 true] /\
  m_layout (mrun m0 [SetLayout [mkRow "B" "" 1 1 true; mkRow "Z" "" 9 9 true; mkRow "B" "" 5 6 false]]) =
  [mkRow "A" "ML:A" 0 0 true; mkRow "B" "ML:B" 5 6 false].
Proof. vm_compute. split; reflexivity. Qed.
(* hiding A takes its output away from B, which puts B out of step with what was saved *)
Example C24_ex_severed : let m := mrun m0 [SetLayout [mkRow "A" "" 0 0 false]] in
  map (fun c => map (fun na => (fst na, a_value (snd na))) (ch_attrs c)) (m_parts m) =
  [[("x", VI 0); ("y", VI 0); ("state", VS "idle")]; [("inp", VS "ZERO")]]%string /\ m_modified m = true.
Proof. vm_compute. split; reflexivity. Qed.

(* on and off again; and what is hidden does not count *)
Example C23_ex : let l os := m_modified (mrun m0 os) in
  map l [[]; [ChildSet "A" "x" (VI 5)]; [ChildSet "A" "x" (VI 5); ChildSet "A" "y" (VI 1)]; [ChildSet "A" "x" (VI 5); ChildSet "A" "y" (VI 1); ChildSet "A" "x" (VI 0)];
         [ChildSet "A" "x" (VI 5); ChildSet "A" "y" (VI 1); ChildSet "A" "x" (VI 0); ChildSet "A" "y" (VI 0)]; [ChildSet "A" "state" (VS "busy")];
         [SetExports [("A.x", "x")]]; [SetExports [("A.x", "x")]; SetExports []]]%string = [false; true; true; true; false; false; true; false].
Proof. vm_compute. reflexivity. Qed.
Fixpoint taken_b (m : @mgr val) (os : list (@op val)) : bool :=
  match os with
  | [] => true
  | o :: r => match o with Load d => match do_load VN VS val_eqb msg_eqb m d false with Some m' => forallb same_b (m_parts m') | None => true end | _ => true end
              && taken_b (step VN VS val_eqb msg_eqb js0 m o) r
  end.
Lemma taken_ok os : forall m, taken_b m os = true -> loads_taken VN VS val_eqb msg_eqb js0 m os.
Proof.
  induction os as [|o r IH]; intros m H; cbn [loads_taken taken_b] in *; [exact I|]. apply andb_true_iff in H as [H1 H2]. split; [|now apply IH].
  destruct o; try exact I. intros m' c n E Hc. rewrite E in H1. rewrite forallb_forall in H1. now apply same_b_ok, H1.
Qed.
Example C23_ex_hyps : NoDup (map ch_name [pA; pB]) /\ (forall c, In c [pA; pB] -> ch_msgs c = [] /\ forall n, ~ differs VN val_eqb c n) /\ (forall v, val_eqb v v = true) /\
  (forall a b, msg_eqb a b = true -> a = b) /\
  loads_taken VN VS val_eqb msg_eqb js0 m0 [ChildSet "A" "x" (VI 5); Save "d"; ChildSet "A" "x" (VI 6); Load "d"; ChildSet "A" "y" (VI 1)] /\
  m_modified (mrun m0 [ChildSet "A" "x" (VI 5); Save "d"; ChildSet "A" "x" (VI 6); Load "d"; ChildSet "A" "y" (VI 1)]) = true.
Proof.
  split; [exact names_differ|]. split; [exact parts_clean|]. split; [exact val_refl|]. split; [exact msg_exact|]. split; [|vm_compute; reflexivity].
  apply taken_ok. vm_compute. reflexivity.
Qed.

(* finding: messages of before a save are still sent after it, though nothing differs *)
Theorem C23_stale_refuted : exists os, let m := mrun m0 os in m_modified m = true /\ ~ changed VN val_eqb m.
Proof.
  exists [ChildSet "A" "x" (VI 5); Save "d"; ChildSet "A" "y" (VI 1); ChildSet "A" "y" (VI 0)]. cbn zeta. split; [vm_compute; reflexivity|].
  set (m := mrun m0 _). assert (G : forallb same_b (m_parts m) = true) by (vm_compute; reflexivity). rewrite forallb_forall in G.
  intros [(c & n & Hc & _ & X)|[H|H]].
  - revert X. now apply same_b_ok, G.
  - apply H. vm_compute. reflexivity.
  - apply H. vm_compute. reflexivity.
Qed.
(* finding: a child that makes another value of what a load puts differs from what was saved, and
   the light is off *)
Definition pC : @child val := mkCh "C" "ML:C" 0 0 (Some true) [] [("x", mkA (VI 5) (Some 1) true (fun v => match v with VI n => VI (Nat.min n 3) | _ => v end))] [] [("x", VI 5)] [].
Theorem C23_settled_elsewhere_refuted : exists os, let m := mrun (mmade [pC] [] [] []) os in m_modified m = false /\ changed VN val_eqb m.
Proof.
  exists [Save "d"; ChildSet "C" "x" (VI 0); Load "d"]. cbn zeta. split; [vm_compute; reflexivity|]. left.
  exists (hd pC (m_parts (mrun (mmade [pC] [] [] []) [Save "d"; ChildSet "C" "x" (VI 0); Load "d"]))), "x"%string. split; [vm_compute; now left|]. split; [vm_compute; reflexivity|].
  exists (mkA (VI 3) (Some 1) true (fun v => match v with VI n => VI (Nat.min n 3) | _ => v end)), 1. split; [vm_compute; reflexivity|]. split; [reflexivity|]. split; [vm_compute; tauto|]. vm_compute. reflexivity.
Qed.

(* saved, changed in every way, loaded *)
Definition ops1 : list (@op val) := [ChildSet "A" "x" (VI 5); SetLayout [mkRow "B" "" 5 6 true]; SetExports [("A.x", "x"); ("B.inp", "in")]; OwnSet "own" (VI 8)]%string.
Definition ops2 : list (@op val) := [ChildSet "A" "y" (VI 2); SetLayout [mkRow "A" "" 1 1 false]; SetExports []; OwnSet "own" (VI 9); Save "other"; ChildSet "A" "x" (VI 1)]%string.
Example C22_ex : let m1 := mrun m0 ops1 in
  match do_save js0 m1 "d" with
  | None => False
  | Some m2 => spared VN VS val_eqb msg_eqb js0 (before_json "d") m2 ops2 /\
    match do_load VN VS val_eqb msg_eqb (mrun m2 ops2) "d" false with
    | None => False
    | Some m4 => m_layout m4 = [mkRow "A" "ML:A" 0 0 true; mkRow "B" "ML:B" 5 6 true] /\ m_exports m4 = [("A.x", "x"); ("B.inp", "in")]%string /\
                 map (fun c => map (fun na => a_value (snd na)) (ch_attrs c)) (m_parts m4) = [[VI 5; VI 0; VS "idle"]; [VS "A.OUT"]] /\
                 map (fun na => a_value (snd na)) (m_own m4) = [VI 8] /\ m_modified m4 = false
    end
  end.
Proof. vm_compute. repeat split. discriminate. Qed.
Example C22_ex_hyps : NoDup (map ch_name [pA; pB]) /\ (forall c, In c [pA; pB] -> NoDup (dkeys (ch_attrs c))) /\ NoDup (map fst (m_exports (mrun m0 ops1))).
Proof.
  split; [exact names_differ|]. split.
  - intros c [<-|[<-|[]]]; cbn; repeat constructor; cbn; intuition discriminate.
  - vm_compute. repeat constructor; cbn; intuition discriminate.
Qed.
(* finding: exports are saved by source: of two exports of one source the first is lost *)
Theorem C22_same_source_refuted : exists e m2 m4, do_save js0 (mrun m0 [SetExports e]) "d" = Some m2 /\ do_load VN VS val_eqb msg_eqb m2 "d" false = Some m4 /\
  m_exports m4 <> e.
Proof. exists [("A.x", "one"); ("A.x", "two")]%string. do 2 eexists. split; [vm_compute; reflexivity|]. split; [vm_compute; reflexivity|]. vm_compute. discriminate. Qed.
(* finding: designs of different names share a file *)
Theorem C22_same_file_refuted : exists d e m2 m3 m4, d <> e /\ do_save js0 (mrun m0 [ChildSet "A" "x" (VI 5)]) d = Some m2 /\
  do_save js0 (mrun m2 [ChildSet "A" "x" (VI 6)]) e = Some m3 /\ do_load VN VS val_eqb msg_eqb m3 d false = Some m4 /\
  option_map a_value (dget "x" (ch_attrs (hd pA (m_parts m4)))) = Some (VI 6).
Proof. exists "foo"%string, "foo.json.bak"%string. do 3 eexists. split; [discriminate|]. split; [vm_compute; reflexivity|]. split; [vm_compute; reflexivity|]. split; [vm_compute; reflexivity|]. vm_compute. reflexivity. Qed.

Print Assumptions C24_only_named_rows.
Print Assumptions C24_one_row_each.
Print Assumptions C23_exact.
Print Assumptions C23_exact_after_save.
Print Assumptions C23_save_cleans.
Print Assumptions C23_never_missed.
Print Assumptions C23_stale_refuted.
Print Assumptions C23_settled_elsewhere_refuted.
Print Assumptions C22_restored.
Print Assumptions C22_restored_exactly.
Print Assumptions C22_same_source_refuted.
Print Assumptions C22_same_file_refuted.
