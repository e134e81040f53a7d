(* Lemmas for C84 and C85. *)
From Coq Require Import String Bool Arith ZArith Lia List.
From Verif Require Import Base Pva_Model Pva_Spec.
Import ListNotations.
Local Open Scope string_scope.
Local Open Scope list_scope.

(* ---- induction over the trees ---- *)
Section PyInd.
Variable P : py -> Prop.
Hypothesis H1 : forall t n, P (YNum t n).
Hypothesis H2 : forall s, P (YStr s).
Hypothesis H3 : forall s, P (YEnum s).
Hypothesis H4 : forall n, P (YSev n).
Hypothesis H5 : forall l, P (YArrEnum l).
Hypothesis H6 : forall l, Forall P l -> P (YArrObj l).
Hypothesis H7 : forall t l, P (YArr t l).
Hypothesis H8 : forall d t l, P (YNd d t l).
Hypothesis H9 : forall l, Forall P l -> P (YList l).
Hypothesis H10 : forall fs, Forall (fun kv => P (snd kv)) fs -> P (YDict fs).
Hypothesis H11 : P YNone.
Fixpoint py_induct (y : py) : P y :=
  let all := fix all (l : list py) : Forall P l :=
    match l with [] => Forall_nil _ | x :: r => Forall_cons x (py_induct x) (all r) end in
  match y with
  | YNum t n => H1 t n | YStr s => H2 s | YEnum s => H3 s | YSev n => H4 n | YArrEnum l => H5 l
  | YArrObj l => H6 l (all l)
  | YArr t l => H7 t l | YNd d t l => H8 d t l
  | YList l => H9 l (all l)
  | YDict fs => H10 fs ((fix allf (fs : list (string * py)) : Forall (fun kv => P (snd kv)) fs :=
      match fs with [] => Forall_nil _ | kv :: r => Forall_cons kv (py_induct (snd kv)) (allf r) end) fs)
  | YNone => H11
  end.
End PyInd.
Section PvInd.
Variable P : pv -> Prop.
Hypothesis H1 : forall t n, P (VNum t n).
Hypothesis H2 : forall s, P (VStr s).
Hypothesis H3 : forall t l, P (VArr t l).
Hypothesis H4 : forall l, Forall P l -> P (VAv l).
Hypothesis H5 : forall id fs, Forall (fun kv => P (snd kv)) fs -> P (VStruct id fs).
Fixpoint pv_induct (v : pv) : P v :=
  match v with
  | VNum t n => H1 t n | VStr s => H2 s | VArr t l => H3 t l
  | VAv l => H4 l ((fix all (l : list pv) : Forall P l :=
      match l with [] => Forall_nil _ | x :: r => Forall_cons x (pv_induct x) (all r) end) l)
  | VStruct id fs => H5 id fs ((fix allf (fs : list (string * pv)) : Forall (fun kv => P (snd kv)) fs :=
      match fs with [] => Forall_nil _ | kv :: r => Forall_cons kv (pv_induct (snd kv)) (allf r) end) fs)
  end.
End PvInd.

(* ---- the local functions by name ---- *)
Definition element (x : py) : option pv := match x with YNone => Some (VStruct "structure" []) | YDict _ => conv x | _ => None end.
Fixpoint elements (l : list py) : option (list pv) :=
  match l with
  | [] => Some []
  | x :: r => match element x, elements r with Some v, Some vs => Some (v :: vs) | _, _ => None end
  end.
Fixpoint cfields (fs : list (string * py)) : option (list (string * pv)) :=
  match fs with
  | [] => Some []
  | (k, x) :: r => if String.eqb k "typeid" then cfields r
                   else match conv x, cfields r with Some v, Some vs => Some ((k, v) :: vs) | _, _ => None end
  end.
Definition ctypeid (fs : list (string * py)) : option string :=
  match dget "typeid" fs with Some (YStr i) => Some i | Some _ => None | None => Some "structure" end.
Lemma conv_list l : conv (YList l) = match elements l with Some vs => Some (VAv vs) | None => None end.
Proof. reflexivity. Qed.
Lemma conv_objs l : conv (YArrObj l) = match elements l with Some vs => Some (VAv vs) | None => None end.
Proof. reflexivity. Qed.
Lemma conv_dict fs : conv (YDict fs) =
  match ctypeid fs, cfields fs with
  | Some id, Some vs =>
      if String.eqb id NTTable
      then match table_labels (YDict fs) with Some ls => make_struct id (("labels", VArr "s" (Strs ls)) :: vs) | None => None end
      else make_struct id vs
  | _, _ => None
  end.
Proof. reflexivity. Qed.

Lemma specifier t : dget t type_specifiers = if String.eqb (pva_type t) "" then None else Some (pva_type t).
Proof.
  unfold type_specifiers.
  repeat (cbn [dget]; match goal with |- context [String.eqb ?a ?b] =>
    match a with t => destruct (String.eqb_spec a b) as [->|?]; [vm_compute; reflexivity|] | _ => match b with t => destruct (String.eqb_spec a b) as [<-|?]; [vm_compute; reflexivity|] end end end).
  cbn [dget]. unfold pva_type, smem. cbn [existsb].
  repeat match goal with |- context [String.eqb ?a ?b] => match a with t => destruct (String.eqb_spec a b); [congruence|] | _ => match b with t => destruct (String.eqb_spec a b); [congruence|] end end end.
  reflexivity.
Qed.
Lemma specifier_some t s : dget t type_specifiers = Some s <-> s = pva_type t /\ pva_type t <> "".
Proof.
  rewrite specifier. destruct (String.eqb_spec (pva_type t) "") as [E|E]; split; try discriminate.
  - intros [_ X]. congruence.
  - intros X. injection X as <-. auto.
  - intros [-> _]. reflexivity.
Qed.
Lemma has_dup_iff l : has_dup l = false <-> NoDup l.
Proof.
  induction l as [|x l IH]; cbn [has_dup]; [split; [constructor|reflexivity]|]. rewrite orb_false_iff, IH, smem_false. split.
  - intros [A B]. now constructor.
  - intros N. inversion N; auto.
Qed.
Lemma make_struct_some id fs v : make_struct id fs = Some v <-> v = VStruct id fs /\ NoDup (map fst fs).
Proof.
  unfold make_struct. destruct (has_dup (map fst fs)) eqn:E.
  - split; [discriminate|]. intros [_ N]. apply has_dup_iff in N. congruence.
  - apply has_dup_iff in E. split; [intros H; injection H as <-; auto|intros [-> _]; reflexivity].
Qed.

(* ---- values that p4p can have ---- *)
Fixpoint wellpv (v : pv) : Prop :=
  match v with
  | VStruct id fs =>
      NoDup (map fst fs) /\ (id = NTTable -> exists l r, fs = ("labels", VArr "s" l) :: r)
      /\ (fix all (fs : list (string * pv)) : Prop := match fs with [] => True | (_, x) :: r => wellpv x /\ all r end) fs
  | _ => True
  end.
Lemma wellpv_struct id fs : wellpv (VStruct id fs) <->
  NoDup (map fst fs) /\ (id = NTTable -> exists l r, fs = ("labels", VArr "s" l) :: r) /\ Forall (fun kv => wellpv (snd kv)) fs.
Proof.
  cbn [wellpv]. assert (E : (fix all (fs : list (string * pv)) : Prop := match fs with [] => True | (_, x) :: r => wellpv x /\ all r end) fs
    <-> Forall (fun kv => wellpv (snd kv)) fs).
  { induction fs as [|[k x] fs IH]; [split; auto|]. rewrite IH. split; [intros [A B]; constructor; auto|intros F; inversion F; auto]. }
  rewrite E. reflexivity.
Qed.

(* the fields that a client is shown *)
Definition body (id : string) (fs : list (string * pv)) : list (string * pv) := if String.eqb id NTTable then tl fs else fs.
Definition oid (id : string) : option string := if String.eqb id "structure" then None else Some id.
Definition ofields (fs : list (string * pv)) : list (string * out) := map (fun kv => (fst kv, unconv (snd kv))) fs.
Lemma unconv_struct id fs : wellpv (VStruct id fs) -> unconv (VStruct id fs) = ODict (oid id) (ofields (body id fs)).
Proof.
  intros W. apply wellpv_struct in W as (N & T & _). cbn [unconv]. f_equal. unfold body. destruct (String.eqb_spec id NTTable) as [->|E]; cbn [andb].
  - destruct (T eq_refl) as (l & r & ->). clear T. cbn [tl flat_map fst]. rewrite String.eqb_refl. cbn [Datatypes.app]. cbn [map fst] in N. inversion N as [|? ? N1 _]; subst. clear N.
    induction r as [|[k x] r IH]; [reflexivity|]. cbn [flat_map fst snd]. cbn [map fst In] in N1. destruct (String.eqb_spec k "labels") as [->|Nk]; [tauto|].
    cbn [Datatypes.app ofields map fst snd]. f_equal. apply IH. tauto.
  - clear. induction fs as [|[k x] r IH]; [reflexivity|]. cbn [flat_map fst snd ofields map Datatypes.app]. f_equal; exact IH.
Qed.

(* ---- conversion ---- *)
Lemma cfields_spec fs : Forall (fun kv => forall v, conv (snd kv) = Some v -> wellpv v /\ unconv v = seen (snd kv)) fs ->
  forall vs, cfields fs = Some vs ->
  map fst vs = filter (fun k => negb (String.eqb k "typeid")) (map fst fs) /\ Forall (fun kv => wellpv (snd kv)) vs
  /\ ofields vs = flat_map (fun kv => if String.eqb (fst kv) "typeid" then [] else [(fst kv, seen (snd kv))]) fs.
Proof.
  induction 1 as [|[k x] fs H F IH]; intros vs C; cbn [cfields] in C.
  - injection C as <-. split; [reflexivity|]. split; [constructor|reflexivity].
  - cbn [map fst snd filter flat_map]. destruct (String.eqb k "typeid"); cbn [negb]; [apply IH, C|].
    destruct (conv x) as [v|] eqn:E; [|discriminate]. destruct (cfields fs) as [us|]; [|discriminate]. injection C as <-.
    destruct (IH us eq_refl) as (A & B & D). destruct (H v E) as [W U]. cbn [snd] in *. split; [cbn [map fst]; now rewrite A|].
    split; [constructor; auto|]. cbn [ofields map fst snd Datatypes.app]. rewrite U. f_equal. exact D.
Qed.
Lemma elements_spec l : Forall (fun x => forall v, conv x = Some v -> wellpv v /\ unconv v = seen x) l ->
  forall vs, elements l = Some vs -> map unconv vs = map seen l.
Proof.
  induction 1 as [|x l H F IH]; intros vs C; cbn [elements] in C; [injection C as <-; reflexivity|].
  destruct (element x) as [v|] eqn:E; [|discriminate]. destruct (elements l) as [us|]; [|discriminate]. injection C as <-.
  cbn [map]. rewrite (IH us eq_refl). f_equal. destruct x; try discriminate; cbn [element] in E.
  - apply (H v E).
  - injection E as <-. reflexivity.
Qed.
Lemma ctypeid_spec fs id : ctypeid fs = Some id -> typeid fs = oid id.
Proof. unfold ctypeid, typeid, oid. destruct (dget "typeid" fs) as [[]|]; intros H; try discriminate; injection H as <-; reflexivity. Qed.
Lemma conv_spec y : forall v, conv y = Some v -> wellpv v /\ unconv v = seen y.
Proof.
  induction y as [t n|s|s|n|l|l F|t l|d t l|l F|fs F|] using py_induct; intros v C; cbn [seen].
  - cbn [conv] in C. destruct (dget t type_specifiers) as [sp|] eqn:E; [|discriminate]. injection C as <-. apply specifier_some in E as [-> _]. split; [exact I|reflexivity].
  - injection C as <-. split; [exact I|reflexivity].
  - injection C as <-. split; [exact I|reflexivity].
  - injection C as <-. split; [exact I|reflexivity].
  - injection C as <-. split; [exact I|reflexivity].
  - rewrite conv_objs in C. destruct (elements l) as [vs|] eqn:E; [|discriminate]. injection C as <-. split; [exact I|]. cbn [unconv]. now rewrite (elements_spec l F vs E).
  - cbn [conv] in C. destruct (dget t type_specifiers) as [sp|] eqn:E; [|discriminate]. injection C as <-. apply specifier_some in E as [-> _]. split; [exact I|reflexivity].
  - cbn [conv] in C. destruct (Nat.eqb d 1); [|discriminate]. destruct (dget t type_specifiers) as [sp|] eqn:E; [|discriminate]. injection C as <-. apply specifier_some in E as [-> _]. split; [exact I|reflexivity].
  - rewrite conv_list in C. destruct (elements l) as [vs|] eqn:E; [|discriminate]. injection C as <-. split; [exact I|]. cbn [unconv]. now rewrite (elements_spec l F vs E).
  - rewrite conv_dict in C. destruct (ctypeid fs) as [id|] eqn:T; [|discriminate]. destruct (cfields fs) as [vs|] eqn:E; [|discriminate].
    destruct (cfields_spec fs F vs E) as (A & B & D). destruct (String.eqb_spec id NTTable) as [->|N].
    + destruct (table_labels (YDict fs)) as [ls|]; [|discriminate]. apply make_struct_some in C as [-> ND].
      assert (W : wellpv (VStruct NTTable (("labels", VArr "s" (Strs ls)) :: vs))) by (apply wellpv_struct; split; [exact ND|]; split; [eauto|]; constructor; [exact I|exact B]).
      split; [exact W|]. rewrite (unconv_struct _ _ W). unfold body. cbn [tl]. rewrite String.eqb_refl, D, (ctypeid_spec fs _ T). reflexivity.
    + apply make_struct_some in C as [-> ND].
      assert (W : wellpv (VStruct id vs)) by (apply wellpv_struct; split; [exact ND|]; split; [congruence|exact B]).
      split; [exact W|]. rewrite (unconv_struct _ _ W). unfold body. destruct (String.eqb_spec id NTTable); [congruence|]. rewrite D, (ctypeid_spec fs _ T). reflexivity.
  - discriminate.
Qed.

(* ---- what can be sent ---- *)
Fixpoint objects (l : list py) : Prop :=
  match l with [] => True | x :: r => (match x with YNone => True | YDict _ => sendable x | _ => False end) /\ objects r end.
Fixpoint sfields (fs : list (string * py)) : Prop :=
  match fs with [] => True | (k, x) :: r => (k = "typeid" \/ sendable x) /\ sfields r end.
Lemma sendable_dict fs : sendable (YDict fs) =
  (sfields fs /\ NoDup (filter (fun k => negb (String.eqb k "typeid")) (map fst fs))
      /\ (forall x, dget "typeid" fs = Some x -> exists i, x = YStr i)
      /\ (is_table fs -> ~ In "labels" (map fst fs)
          /\ exists ms es, dget "meta" fs = Some (YDict ms) /\ dget "elements" ms = Some (YDict es)
             /\ forall k e, In (k, e) es -> exists cs s, e = YDict cs /\ dget "label" cs = Some (YStr s))).
Proof. reflexivity. Qed.
Lemma elements_ok l : Forall (fun x => sendable x <-> exists v, conv x = Some v) l -> (objects l <-> exists vs, elements l = Some vs).
Proof.
  induction 1 as [|x l H F IH]; cbn [objects elements]; [split; eauto|]. rewrite IH. split.
  - intros [A [vs ->]]. assert (E : exists v, element x = Some v) by (destruct x; try contradiction; cbn [element]; [apply H, A|eauto]).
    destruct E as [v ->]. eauto.
  - intros [vs E]. destruct (element x) as [v|] eqn:Ex; [|discriminate]. destruct (elements l) as [us|]; [|discriminate]. split; [|eauto].
    destruct x; try discriminate; [|exact I]. apply H. eauto.
Qed.
Lemma cfields_ok fs : Forall (fun kv => sendable (snd kv) <-> exists v, conv (snd kv) = Some v) fs -> (sfields fs <-> exists vs, cfields fs = Some vs).
Proof.
  induction 1 as [|[k x] fs H F IH]; cbn [sfields cfields]; [split; eauto|]. cbn [snd] in H. rewrite IH. destruct (String.eqb_spec k "typeid") as [->|N].
  - intuition.
  - split.
    + intros [[A|A] [vs ->]]; [contradiction|]. apply H in A as [v ->]. eauto.
    + intros [vs E]. destruct (conv x) as [v|] eqn:Ex; [|discriminate]. destruct (cfields fs) as [us|]; [|discriminate]. split; [|eauto]. right. apply H. eauto.
Qed.
Lemma cfields_names fs : forall vs, cfields fs = Some vs -> map fst vs = filter (fun k => negb (String.eqb k "typeid")) (map fst fs).
Proof.
  induction fs as [|[k x] fs IH]; intros vs C; cbn [cfields] in C; [injection C as <-; reflexivity|]. cbn [map fst filter].
  destruct (String.eqb k "typeid"); cbn [negb]; [apply IH, C|]. destruct (conv x); [|discriminate]. destruct (cfields fs) as [us|]; [|discriminate].
  injection C as <-. cbn [map fst]. f_equal. now apply IH.
Qed.
Lemma labels_ok fs : (exists ls, table_labels (YDict fs) = Some ls) <->
  exists ms es, dget "meta" fs = Some (YDict ms) /\ dget "elements" ms = Some (YDict es)
     /\ forall k e, In (k, e) es -> exists cs s, e = YDict cs /\ dget "label" cs = Some (YStr s).
Proof.
  unfold table_labels, item. split.
  - intros [ls H]. destruct (dget "meta" fs) as [m|]; [|discriminate]. destruct m as [| | | | | | | | |ms|]; try discriminate.
    destruct (dget "elements" ms) as [e|] eqn:E; [|discriminate]. destruct e as [| | | | | | | | |es|]; try discriminate. exists ms, es. split; [reflexivity|]. split; [exact E|].
    revert ls H. clear E. induction es as [|[k0 e0] es IH]; intros ls H k e []; cbn [fold_right fst snd] in H.
    + injection H0 as -> ->. destruct e as [| | | | | | | | |cs|]; try discriminate. destruct (dget "label" cs) as [[]|] eqn:L; try discriminate. eauto.
    + destruct (match e0 with YDict fs => dget "label" fs | _ => None end) as [[]|]; try discriminate.
      destruct (fold_right _ (Some []) es) as [r|]; [|discriminate]. exact (IH r eq_refl k e H0).
  - intros (ms & es & -> & -> & L). clear -L. induction es as [|[k0 e0] es IH]; [exists []; reflexivity|]. cbn [fold_right fst snd].
    destruct (IH (fun k e H => L k e (or_intror H))) as [r ->]. destruct (L k0 e0 (or_introl eq_refl)) as (cs & s & -> & ->). eauto.
Qed.
Lemma sendable_iff y : sendable y <-> exists v, conv y = Some v.
Proof.
  induction y as [t n|s|s|n|l|l F|t l|d t l|l F|fs F|] using py_induct.
  - cbn [sendable conv]. rewrite specifier. destruct (String.eqb_spec (pva_type t) ""); split; eauto; try contradiction. intros [? [=]].
  - cbn [sendable conv]. split; eauto.
  - cbn [sendable conv]. split; eauto.
  - cbn [sendable conv]. split; eauto.
  - cbn [sendable conv]. split; eauto.
  - change (objects l <-> exists v, conv (YArrObj l) = Some v). rewrite conv_objs, (elements_ok l F). split; intros [vs E]; [rewrite E; eauto|]. destruct (elements l); [eauto|discriminate].
  - cbn [sendable conv]. rewrite specifier. destruct (String.eqb_spec (pva_type t) ""); split; eauto; try contradiction. intros [? [=]].
  - cbn [sendable conv]. rewrite specifier. destruct (Nat.eqb_spec d 1); [|split; [intros [? _]; contradiction|intros [? [=]]]].
    destruct (String.eqb_spec (pva_type t) ""); split; eauto; try tauto. intros [? [=]].
  - change (objects l <-> exists v, conv (YList l) = Some v). rewrite conv_list, (elements_ok l F). split; intros [vs E]; [rewrite E; eauto|]. destruct (elements l); [eauto|discriminate].
  - rewrite sendable_dict, conv_dict, (cfields_ok fs F).
    assert (T : (forall x, dget "typeid" fs = Some x -> exists i, x = YStr i) <-> exists id, ctypeid fs = Some id).
    { unfold ctypeid. destruct (dget "typeid" fs) as [x|]; [|split; [eauto|intros _ x [=]]]. split.
      - intros H. destruct (H x eq_refl) as [i ->]. eauto.
      - intros [id H] x' [=<-]. destruct x; try discriminate. eauto. }
    rewrite T. split.
    + intros ([vs E] & N & [id Ti] & L). rewrite E, Ti. pose proof (cfields_names fs vs E) as Nm. destruct (String.eqb_spec id NTTable) as [->|Ne].
      * assert (Tb : is_table fs) by (unfold is_table; rewrite (ctypeid_spec fs _ Ti); reflexivity). destruct (L Tb) as [NL X]. apply labels_ok in X as [ls ->].
        eexists. apply make_struct_some. split; [reflexivity|]. cbn [map fst]. constructor; [|now rewrite Nm]. rewrite Nm. intros I. apply filter_In in I. tauto.
      * eexists. apply make_struct_some. split; [reflexivity|]. now rewrite Nm.
    + intros [v C]. destruct (ctypeid fs) as [id|] eqn:Ti; [|discriminate]. destruct (cfields fs) as [vs|] eqn:E; [|discriminate]. pose proof (cfields_names fs vs E) as Nm.
      split; [eauto|]. destruct (String.eqb_spec id NTTable) as [->|Ne].
      * destruct (table_labels (YDict fs)) as [ls|] eqn:TL; [|discriminate]. apply make_struct_some in C as [_ N]. cbn [map fst] in N. inversion N as [|? ? N1 N2]; subst. rewrite Nm in N1, N2.
        split; [exact N2|]. split; [eauto|]. intros _. split; [|apply labels_ok; eauto]. intros I. apply N1. apply filter_In. split; [exact I|reflexivity].
      * apply make_struct_some in C as [_ N]. rewrite Nm in N. split; [exact N|]. split; [eauto|]. intros Tb. unfold is_table in Tb. rewrite (ctypeid_spec fs _ Ti) in Tb. unfold oid in Tb.
        destruct (String.eqb id "structure"); [discriminate|]. injection Tb as ->. exfalso. apply Ne. reflexivity.
  - cbn [sendable conv]. split; [contradiction|intros [? [=]]].
Qed.

(* ---- setting a value of the same type ---- *)
Fixpoint sets (fs : list (string * pv)) (gs : dict pv) : option (dict pv) :=
  match fs with
  | [] => Some gs
  | (k, x) :: r => match dget k gs with
                   | None => None
                   | Some o => match assign x o with Some o' => sets r (dset k o' gs) | None => None end
                   end
  end.
Lemma assign_struct i fs id gs : assign (VStruct i fs) (VStruct id gs) = match sets fs gs with Some gs' => Some (VStruct id gs') | None => None end.
Proof. reflexivity. Qed.
Fixpoint osames (fs gs : list (string * out)) : Prop :=
  match fs, gs with
  | [], [] => True
  | (k, x) :: r, (l, y) :: s => k = l /\ osame x y /\ osames r s
  | _, _ => False
  end.
Lemma osame_dict i fs j gs : osame (ODict i fs) (ODict j gs) = (i = j /\ osames fs gs).
Proof. reflexivity. Qed.
Lemma oid_inj i j : oid i = oid j -> i = j.
Proof. unfold oid. destruct (String.eqb_spec i "structure"), (String.eqb_spec j "structure"); congruence. Qed.
Lemma dget_mid (A : Type) k (x : A) pre s : ~ In k (map fst pre) -> dget k (pre ++ (k, x) :: s) = Some x.
Proof.
  induction pre as [|[l y] pre IH]; cbn [Datatypes.app dget map fst In]; intros N; [now rewrite String.eqb_refl|].
  destruct (String.eqb_spec k l) as [->|_]; [tauto|]. apply IH. tauto.
Qed.
Lemma dset_mid (A : Type) k (x y : A) pre s : ~ In k (map fst pre) -> dset k y (pre ++ (k, x) :: s) = pre ++ (k, y) :: s.
Proof.
  induction pre as [|[l z] pre IH]; cbn [Datatypes.app dset map fst In]; intros N; [now rewrite String.eqb_refl|].
  destruct (String.eqb_spec k l) as [->|_]; [tauto|]. f_equal. apply IH. tauto.
Qed.
Lemma sets_same fs : Forall (fun kv => forall b, wellpv (snd kv) -> wellpv b -> osame (unconv (snd kv)) (unconv b) -> assign (snd kv) b = Some (snd kv)) fs ->
  forall gs pre, Forall (fun kv => wellpv (snd kv)) fs -> Forall (fun kv => wellpv (snd kv)) gs -> osames (ofields fs) (ofields gs) -> NoDup (map fst (pre ++ gs)) ->
  sets fs (pre ++ gs) = Some (pre ++ fs).
Proof.
  induction 1 as [|[k x] fs H F IH]; intros [|[l y] gs] pre Wf Wg S N; cbn [ofields map osames fst snd] in S; try contradiction; [reflexivity|].
  destruct S as (-> & S & Ss). inversion Wf as [|? ? W1 Wf']; subst. inversion Wg as [|? ? W2 Wg']; subst. cbn [snd] in *.
  assert (NI : ~ In l (map fst pre)).
  { rewrite map_app in N. cbn [map fst] in N. apply NoDup_remove_2 in N. intros I. apply N. apply in_or_app. auto. }
  cbn [sets]. rewrite dget_mid by exact NI. rewrite (H y W1 W2 S). rewrite dset_mid by exact NI.
  specialize (IH gs (pre ++ [(l, x)]) Wf' Wg' Ss). rewrite <- !app_assoc in IH. cbn [Datatypes.app] in IH. apply IH.
  rewrite map_app in *. cbn [map fst] in *. exact N.
Qed.
Lemma assign_same a : forall b, wellpv a -> wellpv b -> osame (unconv a) (unconv b) -> assign a b = Some a.
Proof.
  induction a as [t n|s|t l|l F|id fs F] using pv_induct; intros [t' n'|s'|t' l'|l'|id' gs] Wa Wb S; cbn [unconv osame] in S; try contradiction; cbn [assign].
  - subst. now rewrite String.eqb_refl.
  - reflexivity.
  - subst. now rewrite String.eqb_refl.
  - reflexivity.
  - change (osame (unconv (VStruct id fs)) (unconv (VStruct id' gs))) in S. rewrite (unconv_struct _ _ Wa), (unconv_struct _ _ Wb), osame_dict in S. destruct S as [I S]. apply oid_inj in I as <-.
    apply wellpv_struct in Wa as (Na & Ta & Fa). apply wellpv_struct in Wb as (Nb & Tb & Fb).
    change (match sets fs gs with Some gs' => Some (VStruct id gs') | None => None end = Some (VStruct id fs)).
    enough (E : sets fs gs = Some fs) by now rewrite E. apply (sets_same fs F gs [] Fa Fb); [|exact Nb]. unfold body in S.
    destruct (String.eqb_spec id NTTable) as [->|Ne]; [|exact S]. destruct (Ta eq_refl) as (la & ra & ->). destruct (Tb eq_refl) as (lb & rb & ->).
    cbn [tl] in S. cbn [ofields map osames fst snd unconv osame]. auto.
Qed.

(* ---- update_path ---- *)
Lemma dget_ofields k fs : dget k (ofields fs) = option_map unconv (dget k fs).
Proof. induction fs as [|[l x] fs IH]; cbn [ofields map dget fst snd option_map]; [reflexivity|]. destruct (String.eqb k l); [reflexivity|exact IH]. Qed.
Lemma dset_ofields k v fs : ofields (dset k v fs) = dset k (unconv v) (ofields fs).
Proof. induction fs as [|[l x] fs IH]; cbn [ofields map dset fst snd]; [reflexivity|]. destruct (String.eqb k l); cbn [map fst snd]; [reflexivity|]. f_equal. exact IH. Qed.
Lemma dget_body id fs k : wellpv (VStruct id fs) -> (id = NTTable -> k <> "labels") -> dget k (body id fs) = dget k fs.
Proof.
  intros W K. apply wellpv_struct in W as (_ & T & _). unfold body. destruct (String.eqb_spec id NTTable) as [E|E]; [|reflexivity].
  destruct (T E) as (l & r & ->). cbn [tl dget]. specialize (K E). destruct (String.eqb_spec k "labels"); [contradiction|reflexivity].
Qed.
Lemma dset_body id fs k v : wellpv (VStruct id fs) -> (id = NTTable -> k <> "labels") -> body id (dset k v fs) = dset k v (body id fs).
Proof.
  intros W K. apply wellpv_struct in W as (_ & T & _). unfold body. destruct (String.eqb_spec id NTTable) as [E|E]; [|reflexivity].
  destruct (T E) as (l & r & ->). specialize (K E). cbn [dset]. destruct (String.eqb_spec k "labels"); [contradiction|reflexivity].
Qed.
Lemma dset_well id fs k v o : wellpv (VStruct id fs) -> (id = NTTable -> k <> "labels") -> dget k fs = Some o -> wellpv v -> wellpv (VStruct id (dset k v fs)).
Proof.
  intros W K G Wv. apply wellpv_struct in W as (N & T & F). apply wellpv_struct. split; [apply dset_nodup, N|]. split.
  - intros E. destruct (T E) as (l & r & ->). specialize (K E). cbn [dset]. destruct (String.eqb_spec k "labels"); [contradiction|eauto].
  - clear -F Wv. induction fs as [|[l x] fs IH]; cbn [dset]; [constructor; [exact Wv|constructor]|]. inversion F; subst. destruct (String.eqb k l); constructor; auto.
Qed.
Lemma oget_labels id fs k r x : wellpv (VStruct id fs) -> oget (unconv (VStruct id fs)) (k :: r) = Some x ->
  (id = NTTable -> k <> "labels") /\ exists o, dget k fs = Some o /\ wellpv o /\ oget (unconv o) r = Some x.
Proof.
  intros W G. rewrite (unconv_struct _ _ W) in G. cbn [oget] in G. rewrite dget_ofields in G.
  assert (K : id = NTTable -> k <> "labels").
  { intros E ->. apply wellpv_struct in W as (N & T & _). destruct (T E) as (l & s & ->). unfold body in G. subst id. rewrite String.eqb_refl in G. cbn [tl] in G. cbn [map fst] in N. inversion N as [|? ? N1 _]; subst.
    destruct (dget "labels" s) as [o|] eqn:D; [|discriminate]. apply N1. exact (dget_Some_key _ _ D). }
  split; [exact K|]. rewrite (dget_body id fs k W K) in G. destruct (dget k fs) as [o|] eqn:D; [|discriminate]. exists o. split; [reflexivity|]. split; [|exact G].
  apply wellpv_struct in W as (_ & _ & F). rewrite Forall_forall in F. exact (F (k, o) (dget_Some_In _ _ D)).
Qed.
Lemma update_one id fs k u : update_path (VStruct id fs) [k] u =
  match dget k fs with Some o => match assign u o with Some o' => Some (VStruct id (dset k o' fs)) | None => None end | None => None end.
Proof. reflexivity. Qed.
Lemma update_more id fs k k' p u : update_path (VStruct id fs) (k :: k' :: p) u =
  match dget k fs with Some o => match update_path o (k' :: p) u with Some o' => Some (VStruct id (dset k o' fs)) | None => None end | None => None end.
Proof. reflexivity. Qed.
Lemma update_same p : forall v u old, p <> [] -> wellpv v -> wellpv u -> oget (unconv v) p = Some old -> osame (unconv u) old ->
  exists v', update_path v p u = Some v' /\ wellpv v' /\ unconv v' = oput p (unconv u) (unconv v).
Proof.
  induction p as [|k p IH]; intros v u old Np W Wu G S; [congruence|]. clear Np.
  destruct v as [t n|s|t l|l|id fs]; try discriminate. destruct (oget_labels id fs k p old W G) as (K & o & D & Wo & Go).
  assert (X : exists o', (match p with [] => assign u o | _ => update_path o p u end) = Some o' /\ wellpv o' /\ unconv o' = oput p (unconv u) (unconv o)).
  { destruct p as [|k' p]; [|apply (IH o u old); auto; discriminate]. cbn [oget] in Go. injection Go as <-. exists u. split; [now apply assign_same|]. auto. }
  destruct X as (o' & E & Wo' & U). exists (VStruct id (dset k o' fs)). split; [|split; [exact (dset_well id fs k o' o W K D Wo')|]].
  - destruct p as [|k' p]; [rewrite update_one|rewrite update_more]; rewrite D, E; reflexivity.
  - rewrite (unconv_struct _ _ W), (unconv_struct _ _ (dset_well id fs k o' o W K D Wo')). cbn [oput]. rewrite dget_ofields, (dget_body id fs k W K), D. cbn [option_map].
    rewrite (dset_body id fs k o' W K), dset_ofields, U. reflexivity.
Qed.
Lemma update_none p : forall v u, p <> [] -> wellpv v -> ~ In "labels" p -> oget (unconv v) p = None -> update_path v p u = None.
Proof.
  induction p as [|k p IH]; intros v u Np W NL G; [congruence|]. destruct v as [t n|s|t l|l|id fs]; try reflexivity; try (now destruct p).
  assert (K : id = NTTable -> k <> "labels") by (intros _ ->; apply NL; now left).
  rewrite (unconv_struct _ _ W) in G. cbn [oget] in G. rewrite dget_ofields, (dget_body id fs k W K) in G. destruct (dget k fs) as [o|] eqn:D; cbn [option_map] in G.
  - destruct p as [|k' p]; [discriminate|]. rewrite update_more, D.
    rewrite (IH o u); [reflexivity|discriminate| |firstorder|exact G]. apply wellpv_struct in W as (_ & _ & F). rewrite Forall_forall in F. exact (F (k, o) (dget_Some_In _ _ D)).
  - destruct p; [rewrite update_one|rewrite update_more]; now rewrite D.
Qed.

(* ---- a change of the block ---- *)
Definition vis (fs : list (string * py)) : list (string * out) := flat_map (fun kv => if String.eqb (fst kv) "typeid" then [] else [(fst kv, seen (snd kv))]) fs.
Lemma seen_dict fs : seen (YDict fs) = ODict (typeid fs) (vis fs).
Proof. reflexivity. Qed.
Lemma dget_vis k fs : k <> "typeid" -> dget k (vis fs) = option_map seen (dget k fs).
Proof.
  intros N. induction fs as [|[l x] fs IH]; [reflexivity|]. cbn [vis flat_map fst snd dget]. destruct (String.eqb_spec l "typeid") as [->|Nl].
  - destruct (String.eqb_spec k "typeid"); [contradiction|exact IH].
  - cbn [Datatypes.app dget]. destruct (String.eqb k l); [reflexivity|exact IH].
Qed.
Lemma dset_vis k v fs o : k <> "typeid" -> dget k fs = Some o -> vis (dset k v fs) = dset k (seen v) (vis fs).
Proof.
  intros N. induction fs as [|[l x] fs IH]; cbn [dget]; [discriminate|]. destruct (String.eqb_spec k l) as [->|Nl]; intros G; cbn [dset]; rewrite ?String.eqb_refl.
  - cbn [vis flat_map fst snd]. destruct (String.eqb_spec l "typeid"); [contradiction|]. cbn [Datatypes.app dset]. now rewrite String.eqb_refl.
  - destruct (String.eqb_spec k l); [contradiction|]. cbn [vis flat_map fst snd]. destruct (String.eqb l "typeid"); cbn [Datatypes.app dset]; [exact (IH G)|].
    destruct (String.eqb_spec k l); [contradiction|]. f_equal. exact (IH G).
Qed.
Lemma typeid_dset k v fs : k <> "typeid" -> typeid (dset k v fs) = typeid fs.
Proof. intros N. unfold typeid. now rewrite dget_dset_other. Qed.
Lemma seen_change p : forall y u old, ~ In "typeid" p -> oget (seen y) p = Some old -> seen (ychange p (Some u) y) = oput p (seen u) (seen y).
Proof.
  induction p as [|k p IH]; intros y u old N G; [reflexivity|]. destruct y as [| | | | | | | | |fs|]; try discriminate.
  assert (Nk : k <> "typeid") by (intros ->; apply N; now left). assert (Np : ~ In "typeid" p) by firstorder.
  rewrite seen_dict in *. cbn [oget] in G. rewrite (dget_vis k fs Nk) in G. destruct (dget k fs) as [o|] eqn:D; [|discriminate]. cbn [option_map] in G.
  cbn [oput]. rewrite (dget_vis k fs Nk), D. cbn [option_map]. rewrite <- (IH o u old Np G). destruct p as [|k' p]; cbn [ychange]; rewrite ?D; rewrite seen_dict, (typeid_dset _ _ _ Nk), (dset_vis _ _ _ _ Nk D); reflexivity.
Qed.
