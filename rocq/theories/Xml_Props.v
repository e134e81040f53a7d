(* C102: what detectors are told in XML is what was meant. *)
From Coq Require Import String Ascii Bool Arith QArith DecimalString Lia List.
From Verif Require Import Base Hdf_Model Xml_Model Xml_Spec.
Import ListNotations.
Local Open Scope nat_scope.
Local Open Scope string_scope.
Local Open Scope list_scope.

(* ---- which trees ---- *)
Fixpoint all (f : ascii -> bool) (s : string) : bool :=
  match s with EmptyString => true | String c r => f c && all f r end.
(* A text that may be in a document. *)
Definition text (s : string) : Prop := all legal s = true.
(* A name. *)
Definition proper (s : string) : Prop :=
  match s with EmptyString => False | String c r => name_start c = true /\ all name_more r = true end.
Inductive good : el -> Prop :=
| Good tag attrs kids : proper tag -> NoDup (map fst attrs) -> Forall (fun kv => proper (fst kv) /\ text (snd kv)) attrs ->
    Forall good kids -> good (El tag attrs kids).

(* ---- proofs ---- *)
Lemma app_s_assoc a b c : (a +++ b) +++ c = a +++ (b +++ c).
Proof. induction a as [|x a IH]; [reflexivity|]. cbn. now rewrite IH. Qed.
Lemma app_s_nil a : a +++ "" = a.
Proof. induction a as [|x a IH]; [reflexivity|]. cbn. now rewrite IH. Qed.
Lemma len_app a b : String.length (a +++ b) = String.length a + String.length b.
Proof. induction a as [|x a IH]; [reflexivity|]. cbn. now rewrite IH. Qed.

(* A character that ends a name. *)
Definition ends (s : string) : Prop := match s with String c _ => name_more c = false | EmptyString => True end.
Lemma more_app n r : all name_more n = true -> ends r -> more (n +++ r) = (n, r).
Proof.
  induction n as [|c n IH]; intros A E.
  - destruct r as [|c r]; [reflexivity|]. cbn in *. rewrite E. reflexivity.
  - cbn in A. apply andb_true_iff in A as [A1 A2]. cbn. rewrite A1, (IH A2 E). reflexivity.
Qed.
Lemma name_app n r : proper n -> ends r -> name (n +++ r) = Some (n, r).
Proof.
  destruct n as [|c n]; [intros []|]. intros [A B] E. cbn. rewrite A, (more_app n r B E). reflexivity.
Qed.

Lemma value_escape v r : text v -> value None (escape v +++ (quote +++ r)) = Some (v, r).
Proof.
  induction v as [|c v IH]; intros T.
  - reflexivity.
  - unfold text in T. cbn in T. apply andb_true_iff in T as [T1 T2]. specialize (IH T2).
    cbn [escape]. rewrite app_s_assoc. set (rest := escape v +++ (quote +++ r)) in *.
    assert (CH : forall s, s = escape_char c -> value None (s +++ rest) = Some (String c v, r)).
    { intros s Es. unfold escape_char in Es.
      assert (NC : c = ascii_of_nat (nat_of_ascii c)) by (symmetry; apply ascii_nat_embedding).
      destruct (Nat.eqb_spec (nat_of_ascii c) 38) as [N|N1];
        [subst s; rewrite N in NC; rewrite NC; cbn; rewrite IH; reflexivity|].
      destruct (Nat.eqb_spec (nat_of_ascii c) 60) as [N|N2];
        [subst s; rewrite N in NC; rewrite NC; cbn; rewrite IH; reflexivity|].
      destruct (Nat.eqb_spec (nat_of_ascii c) 62) as [N|N3];
        [subst s; rewrite N in NC; rewrite NC; cbn; rewrite IH; reflexivity|].
      destruct (Nat.eqb_spec (nat_of_ascii c) 34) as [N|N4];
        [subst s; rewrite N in NC; rewrite NC; cbn; rewrite IH; reflexivity|].
      destruct (Nat.eqb_spec (nat_of_ascii c) 13) as [N|N5];
        [subst s; rewrite N in NC; rewrite NC; cbn; rewrite IH; reflexivity|].
      destruct (Nat.eqb_spec (nat_of_ascii c) 10) as [N|N6];
        [subst s; rewrite N in NC; rewrite NC; cbn; rewrite IH; reflexivity|].
      destruct (Nat.eqb_spec (nat_of_ascii c) 9) as [N|N7];
        [subst s; rewrite N in NC; rewrite NC; cbn; rewrite IH; reflexivity|].
      subst s. cbn [String.append value]. unfold is, code.
      rewrite (proj2 (Nat.eqb_neq _ _) N4), (proj2 (Nat.eqb_neq _ _) N1), (proj2 (Nat.eqb_neq _ _) N2), T1, IH.
      unfold space, is, code.
      rewrite (proj2 (Nat.eqb_neq _ _) N5), (proj2 (Nat.eqb_neq _ _) N6), (proj2 (Nat.eqb_neq _ _) N7).
      destruct (Nat.eqb_spec (nat_of_ascii c) 32) as [N|N8]; [|reflexivity].
      rewrite N in NC. rewrite NC. reflexivity. }
    apply CH. reflexivity.
Qed.

Lemma not_space_start n r : proper n -> skip (n +++ r) = n +++ r.
Proof.
  destruct n as [|c n]; [intros []|]. intros [A _]. cbn. 
  assert (S : space c = false).
  { unfold name_start, is, code in A. unfold space, is, code.
    destruct (Nat.eqb_spec (nat_of_ascii c) 32) as [E|_]; [rewrite E in A; discriminate|].
    destruct (Nat.eqb_spec (nat_of_ascii c) 9) as [E|_]; [rewrite E in A; discriminate|].
    destruct (Nat.eqb_spec (nat_of_ascii c) 10) as [E|_]; [rewrite E in A; discriminate|].
    destruct (Nat.eqb_spec (nat_of_ascii c) 13) as [E|_]; [rewrite E in A; discriminate|]. reflexivity. }
  rewrite S. reflexivity.
Qed.
Lemma start_not n c r : proper n -> n = String c r -> is 62 c = false /\ is 47 c = false.
Proof.
  intros P ->. destruct P as [A _]. unfold name_start, is, code in A. unfold is, code.
  destruct (Nat.eqb_spec (nat_of_ascii c) 62) as [E|_]; [rewrite E in A; discriminate|].
  destruct (Nat.eqb_spec (nat_of_ascii c) 47) as [E|_]; [rewrite E in A; discriminate|]. auto.
Qed.

(* What comes after the attributes. *)
Lemma attributes_write l tail empty r : NoDup (map fst l) ->
  Forall (fun kv => proper (fst kv) /\ text (snd kv)) l ->
  (tail = " />" /\ empty = true \/ tail = ">" /\ empty = false) ->
  forall fuel, length l < fuel ->
  attributes fuel (write_attrs l +++ (tail +++ r)) = Some (l, empty, r).
Proof.
  induction l as [|[k v] l IH]; intros ND F T fuel Hf; (destruct fuel as [|fuel]; [cbn in Hf; lia|]).
  - destruct T as [[-> ->]|[-> ->]]; reflexivity.
  - inversion ND as [|? ? ND1 ND2]; subst. inversion F as [|? ? [Fk Fv] F2]; subst.
    cbn [fst snd] in Fk, Fv. cbn [length] in Hf. assert (Hf2 : length l < fuel) by lia.
    specialize (IH ND2 F2 T fuel Hf2).
    cbn [write_attrs]. rewrite !app_s_assoc.
    assert (SK : skip (" " +++ (k +++ ("=" +++ (quote +++ (escape v +++ (quote +++ (write_attrs l +++ (tail +++ r)))))))) =
                 k +++ ("=" +++ (quote +++ (escape v +++ (quote +++ (write_attrs l +++ (tail +++ r))))))).
    { change (skip (" " +++ ?x)) with (skip x). apply not_space_start, Fk. }
    cbn [attributes]. rewrite SK.
    destruct k as [|c k]; [destruct Fk|].
    destruct (start_not _ c k Fk eq_refl) as [S1 S2].
    cbn [String.append]. rewrite S1, S2.
    change (space " ") with true. cbv iota.
    pose proof (name_app (String c k) ("=" +++ (quote +++ (escape v +++ (quote +++ (write_attrs l +++ (tail +++ r)))))) Fk eq_refl) as N.
    cbn [String.append] in N. rewrite N. cbn [String.append].
    change (is 61 "=" && is 34 (ascii_of_nat 34)) with true. cbv iota.
    pose proof (value_escape v (write_attrs l +++ (tail +++ r)) Fv) as V. cbn [String.append quote] in V.
    unfold quote in V |- *. cbn [String.append] in V |- *. rewrite V, IH.
    assert (D : dmem (String c k) l = false) by (apply dmem_false; exact ND1).
    rewrite D. reflexivity.
Qed.

(* Induction over trees. *)
Fixpoint el_ind2 (P : el -> Prop) (H : forall tag attrs kids, Forall P kids -> P (El tag attrs kids)) (e : el) : P e :=
  match e with
  | El tag attrs kids =>
      H tag attrs kids ((fix go (l : list el) : Forall P l :=
        match l with [] => Forall_nil P | k :: r => Forall_cons k (el_ind2 P H k) (go r) end) kids)
  end.

Definition write_all (l : list el) : string :=
  (fix all (l : list el) : string := match l with [] => "" | k :: r => write k +++ all r end) l.
Lemma write_all_cons k r : write_all (k :: r) = write k +++ write_all r.
Proof. reflexivity. Qed.
Lemma write_empty tag attrs : write (El tag attrs []) = "<" +++ (tag +++ (write_attrs attrs +++ " />")).
Proof. reflexivity. Qed.
Lemma write_full tag attrs k r :
  write (El tag attrs (k :: r)) =
  "<" +++ (tag +++ (write_attrs attrs +++ (">" +++ (write_all (k :: r) +++ ("</" +++ (tag +++ ">")))))).
Proof. reflexivity. Qed.

(* How much fuel is needed. *)
Fixpoint size (e : el) : nat :=
  match e with
  | El _ _ kids => S ((fix all (l : list el) : nat := match l with [] => 1 | k :: r => S (size k + all r) end) kids)
  end.
Definition sizes (l : list el) : nat :=
  (fix all (l : list el) : nat := match l with [] => 1 | k :: r => S (size k + all r) end) l.
Lemma size_El tag attrs kids : size (El tag attrs kids) = S (sizes kids).
Proof. reflexivity. Qed.
Lemma sizes_cons k r : sizes (k :: r) = S (size k + sizes r).
Proof. reflexivity. Qed.

Lemma attrs_len l : Forall (fun kv => proper (fst kv) /\ text (snd kv)) l -> length l <= String.length (write_attrs l).
Proof.
  induction 1 as [|[k v] l _ _ IH]; [auto|]. cbn [write_attrs length]. rewrite !len_app. cbn. lia.
Qed.
Lemma proper_len n : proper n -> 1 <= String.length n.
Proof. destruct n; [intros []|cbn; lia]. Qed.

Lemma size_len e : good e -> size e < String.length (write e).
Proof.
  induction e as [tag attrs kids IH] using el_ind2; intros G. inversion G as [? ? ? P ND FA FK]; subst.
  apply proper_len in P. destruct kids as [|k r].
  - rewrite write_empty, !len_app. cbn. lia.
  - rewrite write_full, !len_app, size_El. cbn [String.length].
    assert (X : sizes (k :: r) <= S (String.length (write_all (k :: r)))).
    { clear - IH FK. revert IH FK. generalize (k :: r) as l. clear. induction l as [|k l IHl]; intros H F; [auto|].
      inversion H; subst. inversion F; subst. rewrite sizes_cons, write_all_cons, len_app.
      specialize (IHl H3 H5). specialize (H2 H4). lia. }
    lia.
Qed.

Lemma starts e r : exists c s, write e +++ r = String "<" (String c s) /\ (good e -> is 47 c = false).
Proof.
  destruct e as [tag attrs kids].
  assert (X : exists s, write (El tag attrs kids) +++ r = String "<" (tag +++ s) /\ (s = "" -> False)).
  { destruct kids as [|k l].
    - rewrite write_empty, !app_s_assoc. eexists. split; [reflexivity|].
      intros E. apply (f_equal String.length) in E. rewrite !len_app in E. cbn in E. lia.
    - rewrite write_full, !app_s_assoc. eexists. split; [reflexivity|].
      intros E. apply (f_equal String.length) in E. rewrite !len_app in E. cbn in E. lia. }
  destruct X as (s & -> & NE). destruct tag as [|c tag].
  - destruct s as [|c s]; [exfalso; auto|]. exists c, s. split; [reflexivity|].
    intros G. inversion G as [? ? ? P]; subst. destruct P.
  - exists c, (tag +++ s). split; [reflexivity|]. intros G. inversion G as [? ? ? P]; subst.
    apply (start_not _ c tag P eq_refl).
Qed.

Lemma read_all e : good e -> forall fuel r, size e <= fuel -> element fuel (write e +++ r) = Some (e, r).
Proof.
  induction e as [tag attrs kids IH] using el_ind2; intros G fuel r Hf.
  inversion G as [? ? ? P ND FA FK]; subst. rewrite size_El in Hf.
  destruct fuel as [|fuel]; [lia|].
  pose proof (attrs_len attrs FA) as LA.
  assert (EN : forall tail, ends (tail) -> ends (write_attrs attrs +++ tail)).
  { destruct attrs as [|[k v] l]; [auto|]. intros tail _. reflexivity. }
  destruct kids as [|k l].
  - rewrite write_empty, !app_s_assoc. cbn [String.append element].
    change (is 60 "<") with true. cbv iota.
    rewrite name_app; [|exact P|apply EN; reflexivity].
    rewrite (attributes_write attrs " />" true r ND FA); [reflexivity|auto|].
    rewrite !len_app. cbn. lia.
  - rewrite write_full, !app_s_assoc. cbn [String.append element].
    change (is 60 "<") with true. cbv iota.
    rewrite name_app; [|exact P|apply EN; reflexivity].
    rewrite (attributes_write attrs ">" false (write_all (k :: l) +++ ("</" +++ (tag +++ (">" +++ r)))) ND FA); [|auto|rewrite !len_app; cbn; lia].
    assert (X : forall m fl, Forall good m ->
      Forall (fun e => good e -> forall fuel r, size e <= fuel -> element fuel (write e +++ r) = Some (e, r)) m ->
      forall r', sizes m <= fl -> elements fl (write_all m +++ ("</" +++ r')) = Some (m, r')).
    { clear. induction m as [|k m IHm]; intros fl Gm Hm r' Hfl; (destruct fl as [|fl]; [cbn in Hfl; lia|]).
      - reflexivity.
      - inversion Gm; subst. inversion Hm; subst. rewrite sizes_cons in Hfl.
        rewrite write_all_cons, app_s_assoc.
        destruct (starts k (write_all m +++ ("</" +++ r'))) as (c & s & E & NS).
        cbn [elements]. rewrite E. specialize (NS H1). rewrite NS, andb_false_r. rewrite <- E.
        rewrite (H3 H1 fl) by lia. rewrite (IHm fl H2 H4 r') by lia. reflexivity. }
    change ("</" +++ (tag +++ (">" +++ r))) with ("</" +++ (tag +++ (">" +++ r))) in *.
    rewrite (X (k :: l) fuel FK IH (tag +++ (">" +++ r))) by lia.
    rewrite name_app; [|exact P|reflexivity].
    cbn [String.append]. rewrite String.eqb_refl. change (is 62 ">") with true. reflexivity.
Qed.

Lemma after_app p s : after p (p +++ s) = Some s.
Proof. induction p as [|c p IH]; [destruct s; reflexivity|]. cbn. rewrite Ascii.eqb_refl. exact IH. Qed.

(* ---- theorems ---- *)
(* A reader of the file gets the very tree that was written: values with quotes, angle brackets, ampersands and line
   ends included. *)
Theorem C102_read : forall e, good e -> read (et_to_string e) = Some e.
Proof.
  intros e G. unfold read, et_to_string.
  change declaration with opening. rewrite after_app.
  pose proof (size_len e G) as L.
  rewrite <- (app_s_nil (write e)) at 2. rewrite read_all; [reflexivity|exact G|]. lia.
Qed.
Print Assumptions C102_read.

(* ---- the table of attributes ---- *)
(* What the driver has to be told about a row. *)
Definition meant (r : row) : el :=
  let typed := match r_stype r, r_dtype r with
               | PV, INT => [("type", "EPICS_PV"); ("dbrtype", "DBR_LONG")]
               | PV, DOUBLE => [("type", "EPICS_PV"); ("dbrtype", "DBR_DOUBLE")]
               | PV, STRING => [("type", "EPICS_PV"); ("dbrtype", "DBR_STRING")]
               | PV, DBRNATIVE => [("type", "EPICS_PV"); ("dbrtype", "DBR_NATIVE")]
               | PARAM, INT => [("type", "PARAM"); ("datatype", "INT")]
               | PARAM, DOUBLE => [("type", "PARAM"); ("datatype", "DOUBLE")]
               | PARAM, STRING => [("type", "PARAM"); ("datatype", "STRING")]
               | PARAM, DBRNATIVE => []
               end in
  El "Attribute" ([("name", r_name r)] ++ typed ++ [("description", r_desc r); ("source", r_source r)]) [].
Definition row_text (r : row) : Prop := text (r_name r) /\ text (r_desc r) /\ text (r_source r).

Ltac nodup := repeat (constructor; [cbn; intuition discriminate|]); constructor.
Lemma attribute_good r : row_text r -> good (attribute_el r).
Proof.
  intros (A & B & C). unfold attribute_el.
  destruct (r_stype r); (constructor; [split; reflexivity|nodup| |constructor]);
    repeat (constructor; [split; [split; reflexivity|]|]); try constructor; auto; try reflexivity;
    destruct (r_dtype r); reflexivity.
Qed.

(* A table that was taken has no parameter of the native type; any other is taken, and a table that is refused is
   refused for that. *)
Theorem C102_taken : forall rows,
  (set_extra_attributes rows = Some rows /\ (forall r, In r rows -> r_stype r = PARAM -> r_dtype r <> DBRNATIVE)) \/
  (set_extra_attributes rows = None /\ exists r, In r rows /\ r_stype r = PARAM /\ r_dtype r = DBRNATIVE).
Proof.
  intros rows. unfold set_extra_attributes.
  destruct (existsb _ rows) eqn:E.
  - right. split; [reflexivity|]. apply existsb_exists in E as (r & I & H). exists r.
    destruct (r_stype r), (r_dtype r); try discriminate; auto.
  - left. split; [reflexivity|]. intros r I S D.
    assert (X : existsb (fun r => match r_stype r, r_dtype r with PARAM, DBRNATIVE => true | _, _ => false end) rows = true).
    { apply existsb_exists. exists r. rewrite S, D. auto. }
    congruence.
Qed.
Print Assumptions C102_taken.

(* Of a table that was taken, the driver reads the rows in their order, each with its name, its source, its
   description and the type of its kind. *)
Theorem C102_table : forall rows rows', set_extra_attributes rows = Some rows' -> Forall row_text rows ->
  rows' = rows /\ read (build_attribute_xml rows') = Some (El "Attributes" [] (map meant rows)).
Proof.
  intros rows rows' S T.
  destruct (C102_taken rows) as [[S' N]|[S' _]]; [|congruence].
  rewrite S' in S. injection S as <-. split; [reflexivity|].
  unfold build_attribute_xml. rewrite C102_read.
  - f_equal. f_equal. apply map_ext_in. intros r I. specialize (N r I). revert N.
    unfold attribute_el, meant. destruct (r_stype r), (r_dtype r); intros N; try reflexivity. destruct (N eq_refl eq_refl).
  - constructor; [split; reflexivity|constructor|constructor|].
    apply Forall_forall. intros e I. apply in_map_iff in I as (r & <- & I).
    apply attribute_good. rewrite Forall_forall in T. auto.
Qed.
Print Assumptions C102_table.

Lemma text_app a b : text a -> text b -> text (a +++ b).
Proof.
  unfold text. induction a as [|c a IH]; [auto|]. cbn. intros A B. apply andb_true_iff in A as [A1 A2].
  rewrite A1. cbn. auto.
Qed.

(* The statistics plugin is told of its one statistic. *)
Theorem C102_stats : forall title value, text title -> text value ->
  exists attrs, read (stats_xml title value) = Some (El "Attributes" [] [El "Attribute" attrs []]) /\
    dget "name" attrs = Some ("STATS_" +++ value) /\ dget "source" attrs = Some value /\
    dget "type" attrs = Some "PARAM" /\ dget "datatype" attrs = Some "DOUBLE" /\
    dget "description" attrs = Some (title +++ " of the array").
Proof.
  intros title value T V. unfold stats_xml. rewrite C102_read.
  - eexists. split; [reflexivity|]. repeat split.
  - constructor; [split; reflexivity|constructor|constructor|]. constructor; [|constructor].
    constructor; [split; reflexivity|nodup| |constructor].
    repeat (constructor; [split; [split; reflexivity|]|]); try constructor; auto; try reflexivity;
      apply text_app; auto; reflexivity.
Qed.
Print Assumptions C102_stats.

(* ---- the layout of the file ---- *)
Lemma text_concat l : Forall text l -> text (String.concat "," l).
Proof.
  induction 1 as [|x l Hx H IH]; [reflexivity|]. destruct l as [|y l]; [exact Hx|].
  cbn [String.concat] in *. apply text_app; [exact Hx|]. apply (text_app ","); [reflexivity|exact IH].
Qed.
Lemma text_digits u : text (NilEmpty.string_of_uint u).
Proof. unfold text. induction u; cbn; auto. Qed.
Lemma text_str n : text (str n).
Proof. apply text_digits. Qed.
Lemma good_attribute n v : text n -> text v -> good (attribute n v).
Proof.
  intros A B. constructor; [split; reflexivity|nodup| |constructor].
  repeat (constructor; [split; [split; reflexivity|]|]); try constructor; auto; reflexivity.
Qed.

(* What names the parts of the layout. *)
Record plain (fmt : Q -> string) (g : gen) (p : part_info) : Prop := mkPlain {
  pl_fmt : forall x, text (fmt x);
  pl_axes : forall d a, In d (g_dims g) -> In a (d_axes d) -> text a;
  pl_units : forall a, text (g_units g a);
  pl_calc : forall n a, In (n, a) (filter_values is_calc p) -> text n /\ text a;
  pl_attr : forall n t a, In (n, t, a) (filter_values is_attr p) -> text n /\ text a }.

Lemma enum_In {A} (l : list A) : forall i x, In x (enum i l) -> In (snd x) l.
Proof. induction l as [|y l IH]; intros i x; [intros []|]. cbn. intros [<-|I]; [auto|right; eauto]. Qed.

Lemma good_nxdata fmt g p name rank remove link more :
  plain fmt g p -> text name -> Forall good more -> good (make_nxdata fmt name rank g remove link more).
Proof.
  intros [Pf Pa Pu Pc Pt] T M. unfold make_nxdata.
  constructor; [split; reflexivity|nodup|repeat constructor; auto|].
  apply Forall_app. split; [|exact M]. unfold nxdata_kids.
  constructor; [apply good_attribute; [reflexivity|exact T]|].
  destruct remove; [constructor|].
  constructor; [apply good_attribute; [reflexivity|]|constructor; [apply good_attribute; reflexivity|]].
  - apply text_concat. unfold pad_dims. apply Forall_app. split.
    + apply Forall_forall. intros x I. apply in_map_iff in I as (d & <- & I).
      specialize (Pa d). destruct (d_axes d) as [|a [|b l]]; try reflexivity.
      apply text_app; [apply Pa; cbn; auto|reflexivity].
    + apply Forall_forall. intros x I. apply repeat_spec in I. subst. reflexivity.
  - apply Forall_forall. intros e I. apply in_flat_map in I as (id & I1 & I2).
    apply in_flat_map in I2 as (a & I3 & I4). apply enum_In in I1.
    pose proof (Pa _ a I1 I3) as Ta.
    destruct I4 as [<-|[<-|[]]].
    + apply good_attribute; [apply text_app; [exact Ta|reflexivity]|apply text_str].
    + destruct link.
      * constructor; [split; reflexivity|nodup| |constructor].
        repeat (constructor; [split; [split; reflexivity|]|]); try constructor.
        -- apply text_app; [exact Ta|reflexivity].
        -- apply (text_app "/entry/detector/"); [reflexivity|]. apply text_app; [exact Ta|reflexivity].
      * unfold make_set_points. constructor; [split; reflexivity|nodup| |].
        -- repeat (constructor; [split; [split; reflexivity|]|]); try constructor; try reflexivity.
           ++ apply text_app; [exact Ta|reflexivity].
           ++ apply text_concat. apply Forall_forall. intros x I. apply in_map_iff in I as (q & <- & _). apply Pf.
        -- specialize (Pu a). destruct (g_units g a) as [|c u]; [constructor|].
           constructor; [|constructor]. exact (good_attribute "units" (String c u) eq_refl Pu).
Qed.

(* The file writer reads the very layout that was made. *)
Theorem C102_layout : forall fmt g p write_all remove, plain fmt g p ->
  read (et_to_string (make_layout_xml fmt g p write_all remove)) = Some (make_layout_xml fmt g p write_all remove).
Proof.
  intros fmt g p wa remove P. apply C102_read. pose proof P as [Pf Pa Pu Pc Pt].
  assert (ND : forall n a, text n -> text a ->
    good (El "dataset" [("name", n); ("source", "ndattribute"); ("ndattribute", a)] [])).
  { intros n a Tn Ta. constructor; [split; reflexivity|nodup| |constructor].
    repeat (constructor; [split; [split; reflexivity|]|]); try constructor; auto; reflexivity. }
  unfold make_layout_xml. generalize (match filter_values is_ndarray p with [] => 2 | r :: _ => r end) as rank. intros rank.
  constructor; [split; reflexivity|nodup|constructor|]. constructor; [|constructor].
  constructor; [split; reflexivity|nodup|repeat constructor|].
  constructor; [apply good_attribute; reflexivity|].
  constructor.
  { apply (good_nxdata _ _ p); [exact P|reflexivity|]. constructor; [|constructor].
    constructor; [split; reflexivity|nodup| |constructor; [apply good_attribute; reflexivity|constructor]].
    repeat (constructor; [split; [split; reflexivity|]|]); try constructor; reflexivity. }
  apply Forall_app. split; [|apply Forall_app; split].
  - apply Forall_forall. intros e I. apply in_map_iff in I as ([n a] & <- & I). apply Pc in I as [Tn Ta].
    apply (good_nxdata _ _ p); [exact P|exact Tn|]. constructor; [apply ND; auto|constructor].
  - apply Forall_forall. intros e I. apply in_map_iff in I as ([[n t] a] & <- & I). apply Pt in I as [Tn Ta].
    apply (good_nxdata _ _ p); [exact P|exact Tn|]. constructor; [apply ND; auto|constructor].
  - constructor; [|constructor]. constructor; [split; reflexivity|nodup| |].
    + repeat (constructor; [split; [split; reflexivity|]|]); try constructor; destruct wa; reflexivity.
    + constructor; [apply good_attribute; reflexivity|]. repeat (constructor; [apply ND; reflexivity|]). constructor.
Qed.
Print Assumptions C102_layout.

(* ---- from scan to scan ---- *)
Definition drive (ops : list dop) : driver := fold_left driver_step ops new_driver.
Definition named (ops : list dop) : Prop := forall f, In (ConfigureIn f) ops -> f <> "".
(* A table that may be set, and the one that is in force. *)
Definition allowed (rows : list row) : Prop := forall r, In r rows -> ~ (r_stype r = PARAM /\ r_dtype r = DBRNATIVE).
Definition in_force (ops : list dop) (rows : list row) : Prop :=
  (exists a b, ops = a ++ SetTable rows :: b /\ allowed rows /\ forall t, In (SetTable t) b -> ~ allowed t) \/
  (rows = [] /\ forall t, In (SetTable t) ops -> ~ allowed t).
(* Between two scans there is a reset; [busy]: a scan was configured and not reset. *)
Fixpoint in_turn (busy : bool) (ops : list dop) : Prop :=
  match ops with
  | [] => True
  | ConfigureIn _ :: r => busy = false /\ in_turn true r
  | ResetDriver :: r => in_turn false r
  | SetTable _ :: r => in_turn busy r
  end.

Lemma drive_snoc ops o : drive (ops ++ [o]) = driver_step (drive ops) o.
Proof. unfold drive. rewrite fold_left_app. reflexivity. Qed.

Lemma set_cases rows : (set_extra_attributes rows = Some rows /\ allowed rows) \/
  (set_extra_attributes rows = None /\ ~ allowed rows).
Proof.
  destruct (C102_taken rows) as [[E H]|[E (r & I & A & B)]]; [left|right]; split; auto.
  - intros r I [A B]. exact (H r I A B).
  - intros H. exact (H r I (conj A B)).
Qed.

(* The table of the part is the one that is in force. *)
Theorem C102_in_force : forall ops rows, v_rows (drive ops) = rows <-> in_force ops rows.
Proof.
  assert (F : forall ops, in_force ops (v_rows (drive ops))).
  { intros ops. induction ops as [|o ops IH] using rev_ind; [right; split; [reflexivity|intros t []]|].
    rewrite drive_snoc.
    assert (K : forall t, (forall u, o = SetTable u -> ~ allowed u) -> in_force ops t -> in_force (ops ++ [o]) t).
    { intros t N [(a & b & E & A & Hb)|[E Hb]].
      - left. exists a, (b ++ [o]). split; [|split; [exact A|]].
        + rewrite E, <- app_assoc. reflexivity.
        + intros u I. apply in_app_or in I as [I|[I|[]]]; auto.
      - right. split; [exact E|]. intros u I. apply in_app_or in I as [I|[I|[]]]; auto. }
    destruct o as [t|f|]; cbn [driver_step].
    - destruct (set_cases t) as [[E A]|[E A]]; rewrite E.
      + left. exists ops, []. cbn. split; [reflexivity|split; [exact A|intros u []]].
      + apply K; [|exact IH]. intros u Eu. injection Eu as <-. exact A.
    - assert (X : forall v, v_rows (match v_rows v with [] => v | rows =>
        let xml := build_attribute_xml rows in mkDriver rows f (dset f xml (v_disk v)) (Some xml) end) = v_rows v).
      { intros v. destruct (v_rows v) eqn:E; [exact E|reflexivity]. }
      rewrite X. apply K; [intros u Eu; discriminate|exact IH].
    - assert (X : forall v, v_rows (if negb (String.eqb (v_file v) "") && dmem (v_file v) (v_disk v)
        then mkDriver (v_rows v) (v_file v) (ddel (v_file v) (v_disk v)) None else v) = v_rows v).
      { intros v. destruct (_ && _); reflexivity. }
      rewrite X. apply K; [intros u Eu; discriminate|exact IH]. }
  assert (U : forall ops t u, in_force ops t -> in_force ops u -> t = u).
  { intros ops. induction ops as [|o ops IH] using rev_ind; intros t u Ht Hu.
    - destruct Ht as [(a & b & E & _)|[-> _]]; [destruct a; discriminate|].
      destruct Hu as [(a & b & E & _)|[-> _]]; [destruct a; discriminate|reflexivity].
    - assert (P : forall t, in_force (ops ++ [o]) t -> (o = SetTable t /\ allowed t) \/
                            ((forall u, o = SetTable u -> ~ allowed u) /\ in_force ops t)).
      { intros x [(a & b & E & A & Hb)|[E Hb]].
        - induction b as [|y b _] using rev_ind.
          + apply app_inj_tail in E as [-> ->]. left. auto.
          + rewrite app_comm_cons, app_assoc in E. apply app_inj_tail in E as [E <-]. right. split.
            * intros w ->. apply Hb. apply in_or_app. right. cbn; auto.
            * left. exists a, b. split; [exact E|split; [exact A|]]. intros w I. apply Hb, in_or_app. auto.
        - right. split; [intros w ->; apply Hb, in_or_app; right; cbn; auto|].
          right. split; [exact E|]. intros w I. apply Hb, in_or_app. auto. }
      destruct (P t Ht) as [[Et At]|[Nt Ft]], (P u Hu) as [[Eu Au]|[Nu Fu]].
      + congruence.
      + destruct (Nu _ Et At).
      + destruct (Nt _ Eu Au).
      + apply (IH _ _ Ft Fu). }
  intros ops rows. split; [intros <-; apply F|]. intros H. apply (U ops); [apply F|exact H].
Qed.
Print Assumptions C102_in_force.

Definition sound (v : driver) : Prop :=
  NoDup (dkeys (v_disk v)) /\ forall x, v_loaded v = Some x -> v_file v <> "" /\ dget (v_file v) (v_disk v) = Some x.
Lemma drive_sound ops : named ops -> sound (drive ops).
Proof.
  induction ops as [|o ops IH] using rev_ind; intros N.
  - split; [constructor|discriminate].
  - rewrite drive_snoc. assert (N' : named ops) by (intros f I; apply N, in_or_app; auto).
    specialize (IH N'). destruct IH as [ND L]. destruct o as [t|f|]; cbn [driver_step].
    + destruct (set_extra_attributes t); [|split; auto]. split; [exact ND|exact L].
    + destruct (v_rows (drive ops)) as [|r rs]; [split; auto|]. split; cbn.
      * apply dset_nodup. exact ND.
      * intros x E. injection E as <-. split; [apply N, in_or_app; right; cbn; auto|apply dget_dset_same].
    + destruct (_ && _) eqn:E; [|split; auto]. split; [apply ddel_nodup; exact ND|discriminate].
Qed.

(* After a reset the driver has no file of an earlier scan. *)
Theorem C102_reset : forall ops, named ops -> v_loaded (drive (ops ++ [ResetDriver])) = None.
Proof.
  intros ops N. rewrite drive_snoc. destruct (drive_sound ops N) as [ND L]. cbn [driver_step].
  destruct (_ && _) eqn:E; [reflexivity|].
  destruct (v_loaded (drive ops)) as [x|] eqn:EL; [|reflexivity].
  destruct (L x eq_refl) as [A B]. apply andb_false_iff in E as [E|E].
  - apply negb_false_iff, String.eqb_eq in E. congruence.
  - apply dmem_false in E. apply dget_Some_key in B. contradiction.
Qed.
Print Assumptions C102_reset.

(* In a scan that follows a reset, the driver has the attributes of the table that is in force, and none if it is
   empty. *)
Theorem C102_loaded : forall ops tables f rows, named ops -> f <> "" ->
  (forall o, In o tables -> exists t, o = SetTable t) ->
  in_force (ops ++ ResetDriver :: tables) rows -> Forall row_text rows ->
  match v_loaded (drive ((ops ++ ResetDriver :: tables) ++ [ConfigureIn f])) with
  | Some x => rows <> [] /\ read x = Some (El "Attributes" [] (map meant rows))
  | None => rows = []
  end.
Proof.
  intros ops tables f rows N Nf HT IF T.
  pose proof IF as IF'. apply C102_in_force in IF.
  assert (AL : allowed rows).
  { destruct IF' as [(a & b & _ & A & _)|[-> _]]; [exact A|intros r []]. }
  assert (L : forall tables, (forall o, In o tables -> exists t, o = SetTable t) ->
    v_loaded (drive (ops ++ ResetDriver :: tables)) = None).
  { clear - N. intros tables. induction tables as [|o l IH] using rev_ind; intros HT.
    - apply C102_reset. exact N.
    - rewrite app_comm_cons, app_assoc, drive_snoc.
      destruct (HT o) as (t & ->); [apply in_or_app; right; cbn; auto|].
      cbn [driver_step]. destruct (set_extra_attributes t); cbn; apply IH; intros o I; apply HT, in_or_app; auto. }
  rewrite drive_snoc. cbn [driver_step]. rewrite IF. destruct rows as [|r rs].
  - rewrite (L tables HT). reflexivity.
  - cbn [v_loaded]. split; [discriminate|].
    destruct (set_cases (r :: rs)) as [[E _]|[_ NA]]; [|contradiction].
    apply (C102_table (r :: rs) (r :: rs) E T).
Qed.
Print Assumptions C102_loaded.

Lemma one_mem f (x : string) : dmem f [(f, x)] = true.
Proof. apply dmem_In. left. reflexivity. Qed.
Lemma one_del f (x : string) : ddel f [(f, x)] = [].
Proof. cbn. rewrite String.eqb_refl. reflexivity. Qed.
(* No file is left when there is a reset after every scan. *)
Theorem C102_no_file : forall ops, named ops -> in_turn false ops -> v_disk (drive (ops ++ [ResetDriver])) = [].
Proof.
  assert (G : forall ops v busy, named ops -> in_turn busy ops ->
    (v_disk v = [] \/ (busy = true /\ exists x, v_file v <> "" /\ v_disk v = [(v_file v, x)])) ->
    v_disk (fold_left driver_step (ops ++ [ResetDriver]) v) = []).
  { intros ops. induction ops as [|o ops IH]; intros v busy N T D.
    - cbn [app fold_left driver_step]. destruct D as [D|(_ & x & A & D)].
      + rewrite D. cbn. rewrite andb_false_r. exact D.
      + rewrite D, one_mem, one_del. apply String.eqb_neq in A. rewrite A. reflexivity.
    - assert (N' : named ops) by (intros f I; apply N; cbn; auto).
      cbn [app fold_left]. destruct o as [t|f|]; cbn [in_turn] in T.
      + apply (IH _ busy N' T). cbn [driver_step]. destruct (set_extra_attributes t); exact D.
      + destruct T as [-> T]. apply (IH _ true N' T). destruct D as [D|[D _]]; [|discriminate].
        cbn [driver_step]. destruct (v_rows v) as [|r rs]; [left; exact D|].
        right. split; [reflexivity|]. eexists. cbn [v_file v_disk]. rewrite D. split; [|reflexivity].
        apply N. cbn; auto.
      + apply (IH _ false N' T). left. cbn [driver_step]. destruct D as [D|(_ & x & A & D)].
        * rewrite D. cbn. rewrite andb_false_r. exact D.
        * rewrite D, one_mem, one_del. apply String.eqb_neq in A. rewrite A. reflexivity. }
  intros ops N T. apply (G ops new_driver false N T). left. reflexivity.
Qed.
Print Assumptions C102_no_file.

(* ---- what does not hold ---- *)
(* A description with a control character is taken and gives a file that no reader takes. *)
Theorem C102_any_text_refuted : exists rows, set_extra_attributes rows = Some rows /\ read (build_attribute_xml rows) = None.
Proof.
  exists [mkRow "x" "BL:X" (String (ascii_of_nat 7) "bell") PV DOUBLE]. split; vm_compute; reflexivity.
Qed.
Print Assumptions C102_any_text_refuted.

(* ---- cases ---- *)
Definition a_row := mkRow "temp" "BL-TEMP" "T < 5 & ""cold""" PV DOUBLE.
Definition b_row := mkRow "gain" "GAIN" (String (ascii_of_nat 10) "x") PARAM INT.
Example C102_ex_text : Forall row_text [a_row; b_row].
Proof. repeat constructor. Qed.
Example C102_ex_xml : build_attribute_xml [a_row] =
  "<?xml version=""1.0"" ?><Attributes><Attribute name=""temp"" type=""EPICS_PV"" dbrtype=""DBR_DOUBLE"" description=""T &lt; 5 &amp; &quot;cold&quot;"" source=""BL-TEMP"" /></Attributes>".
Proof. vm_compute. reflexivity. Qed.
Example C102_ex_read : read (build_attribute_xml [a_row; b_row]) = Some (El "Attributes" [] [meant a_row; meant b_row]).
Proof. vm_compute. reflexivity. Qed.
Example C102_ex_refused : set_extra_attributes [a_row; mkRow "g" "G" "" PARAM DBRNATIVE] = None.
Proof. reflexivity. Qed.
Example C102_ex_life :
  let ops := [SetTable [a_row]; ConfigureIn "/d/DET.xml"; ResetDriver; SetTable [b_row]] in
  named ops /\ in_turn false ops /\ in_force ops [b_row] /\
  v_disk (drive ops) = [] /\ v_loaded (drive (ops ++ [ConfigureIn "/e/DET.xml"])) = Some (build_attribute_xml [b_row]).
Proof.
  split; [intros f I; cbn in I; intuition; try discriminate; congruence|].
  split; [cbn; auto|]. split; [apply C102_in_force; reflexivity|]. split; vm_compute; reflexivity.
Qed.
(* Without a reset between them the file of the first scan stays. *)
Example C102_ex_left :
  v_disk (drive [SetTable [a_row]; ConfigureIn "/d/DET.xml"; ConfigureIn "/e/DET.xml"; ResetDriver]) <> [].
Proof. vm_compute. discriminate. Qed.
Definition a_gen : gen := mkGen [mkDim ["x"; "y"] 3 (fun _ => [1#1; 2#1; 3#1]%Q)] ["x"; "y"] (fun _ => "mm").
Definition a_info : part_info := [("det", Some [INDArray 2; ICalc "sum" "STATS_TOTAL"]); ("panda", Some [IAttr "enc" POSITION_MIN "ENC1"])].
Example C102_ex_plain : plain (fun _ => "1.5") a_gen a_info.
Proof.
  constructor.
  - reflexivity.
  - intros d a [<-|[]] [<-|[<-|[]]]; reflexivity.
  - reflexivity.
  - intros n a I. cbn in I. destruct I as [E|[]]. injection E as <- <-. split; reflexivity.
  - intros n t a I. cbn in I. destruct I as [E|[]]. injection E as <- <- <-. split; reflexivity.
Qed.
Example C102_ex_bad : read "<?xml version=""1.0"" ?><A b=""1"" b=""2"" />" = None /\
  read "<?xml version=""1.0"" ?><A><B /></C>" = None /\ read "<?xml version=""1.0"" ?><A b=""x<y"" />" = None /\
  read "<?xml version=""1.0"" ?><A  b=""x&apos;y"" ></A>" = Some (El "A" [("b", "x'y")] []).
Proof. vm_compute. auto. Qed.
