(* C84: a value sent over pvAccess is what the client reads.  C85: while a PV is open its value is the
   block. *)
From Coq Require Import String Bool Arith ZArith Lia List.
From Verif Require Import Base Pva_Model Pva_Spec Pva_Proofs.
Import ListNotations.
Local Open Scope string_scope.
Local Open Scope list_scope.

(* ---- C84 ---- *)
Theorem C84_round : forall y v, convert_dict_to_value y = Some v -> unconv v = seen y.
Proof. intros [| | | | | | | | |fs|] v H; try discriminate; [now apply conv_spec|]. injection H as <-. reflexivity. Qed.
Print Assumptions C84_round.

Theorem C84_accepted : forall y, (exists v, convert_dict_to_value y = Some v) <-> (y = YNone \/ (exists fs, y = YDict fs) /\ sendable y).
Proof.
  intros [| | | | | | | | |fs|]; cbn [convert_dict_to_value]; try solve [split; [intros [? [=]]|intros [[=]|[[? [=]] _]]]].
  - change ((exists v, conv (YDict fs) = Some v) <-> (YDict fs = YNone \/ (exists fs0, YDict fs = YDict fs0) /\ sendable (YDict fs))).
    rewrite <- sendable_iff. split; [intros S; right; eauto|intros [[=]|[_ S]]; exact S].
  - cbn [convert_dict_to_value]. split; [auto|eauto].
Qed.
Print Assumptions C84_accepted.

(* Each item of what is sent, by its path, and nothing else: not the labels of a table. *)
Theorem C84_item : forall y v p, convert_dict_to_value y = Some v -> ~ In "typeid" p -> oget (unconv v) p = option_map seen (yget y p).
Proof.
  intros y v p C N. rewrite (C84_round y v C). clear C v. revert y. induction p as [|k p IH]; intros y; [reflexivity|].
  cbn [yget]. destruct y as [| | | | | | | | |fs|]; try reflexivity. rewrite seen_dict. cbn [oget]. rewrite (dget_vis k fs) by (intros ->; apply N; now left).
  destruct (dget k fs) as [x|]; [|reflexivity]. apply IH. firstorder.
Qed.
Print Assumptions C84_item.

(* The labels sent with a table, anywhere in what is sent: for each column of its meta, in that order,
   the label the meta gives, or the name of the column if that label is empty. *)
Inductive labelled : list (string * py) -> list string -> Prop :=
| lab_nil : labelled [] []
| lab_own : forall k cs l es ls, dget "label" cs = Some (YStr l) -> l <> "" -> labelled es ls -> labelled ((k, YDict cs) :: es) (l :: ls)
| lab_name : forall k cs es ls, dget "label" cs = Some (YStr "") -> labelled es ls -> labelled ((k, YDict cs) :: es) (k :: ls).
Fixpoint vget (v : pv) (p : list string) : option pv :=
  match p with [] => Some v | k :: r => match v with VStruct _ fs => match dget k fs with Some x => vget x r | None => None end | _ => None end end.
Lemma cfields_get fs : forall vs k x, cfields fs = Some vs -> k <> "typeid" -> dget k fs = Some x -> exists v, dget k vs = Some v /\ conv x = Some v.
Proof.
  induction fs as [|[k0 x0] fs IH]; intros vs k x C N D; [discriminate|]. cbn [cfields dget] in *. destruct (String.eqb_spec k0 "typeid") as [->|N0].
  - destruct (String.eqb_spec k "typeid"); [contradiction|]. eapply IH; eassumption.
  - destruct (conv x0) as [v0|] eqn:C0; [|discriminate]. destruct (cfields fs) as [us|]; [|discriminate]. injection C as <-. cbn [dget].
    destruct (String.eqb_spec k k0) as [->|Nk]; [injection D as <-; eauto|]. eapply IH; [reflexivity|exact N|exact D].
Qed.
Lemma labels_exact fs ls : table_labels (YDict fs) = Some ls -> exists ms es, dget "meta" fs = Some (YDict ms) /\ dget "elements" ms = Some (YDict es) /\ labelled es ls.
Proof.
  unfold table_labels, item. intros H. destruct (dget "meta" fs) as [m|]; [|discriminate]. destruct m as [| | | | | | | | |ms|]; try discriminate.
  destruct (dget "elements" ms) as [e|] eqn:E; [|discriminate]. destruct e as [| | | | | | | | |es|]; try discriminate. exists ms, es. split; [reflexivity|]. split; [exact E|].
  clear E. revert ls H. induction es as [|[k e] es IH]; intros ls H; cbn [fold_right fst snd] in H; [injection H as <-; constructor|].
  destruct e as [| | | | | | | | |cs|]; try discriminate. destruct (dget "label" cs) as [[]|] eqn:L; try discriminate.
  destruct (fold_right _ (Some []) es) as [r|]; [|discriminate]. injection H as <-.
  destruct (String.eqb_spec s "") as [->|Ns]; [apply lab_name|apply lab_own]; auto.
Qed.
Theorem C84_labels : forall y v p fs, convert_dict_to_value y = Some v -> ~ In "typeid" p -> yget y p = Some (YDict fs) -> is_table fs ->
  exists ms es ls, dget "meta" fs = Some (YDict ms) /\ dget "elements" ms = Some (YDict es) /\ labelled es ls
    /\ vget v (p ++ ["labels"]) = Some (VArr "s" (Strs ls)).
Proof.
  intros y v p fs C N G T. assert (Cv : conv y = Some v).
  { destruct y as [| | | | | | | | |gs|]; try discriminate C; [exact C|]. destruct p; cbn in G; discriminate. }
  clear C. revert y v Cv G. induction p as [|k p IH]; intros y v C G.
  - injection G as ->. rewrite conv_dict in C. destruct (ctypeid fs) as [id|] eqn:Ti; [|discriminate]. destruct (cfields fs) as [vs|] eqn:E; [|discriminate].
    destruct (String.eqb_spec id NTTable) as [->|Ne].
    + destruct (table_labels (YDict fs)) as [ls|] eqn:L; [|discriminate]. apply make_struct_some in C as [-> _]. destruct (labels_exact fs ls L) as (ms & es & A & B & D).
      exists ms, es, ls. repeat split; assumption.
    + exfalso. unfold is_table in T. rewrite (ctypeid_spec fs _ Ti) in T. unfold oid in T. unfold NTTable in Ne. destruct (String.eqb id "structure"); congruence.
  - cbn [yget] in G. destruct y as [| | | | | | | | |gs|]; try discriminate. destruct (dget k gs) as [x|] eqn:Dk; [|discriminate].
    rewrite conv_dict in C. destruct (ctypeid gs) as [id|] eqn:Ti; [|discriminate]. destruct (cfields gs) as [vs|] eqn:E; [|discriminate].
    destruct (cfields_get gs vs k x E ltac:(intros ->; apply N; now left) Dk) as (u & Du & Cu).
    assert (X : exists id' us, v = VStruct id' us /\ dget k us = Some u).
    { destruct (String.eqb_spec id NTTable) as [->|Ne].
      - destruct (table_labels (YDict gs)) as [ls|]; [|discriminate]. apply make_struct_some in C as [-> ND]. do 2 eexists. split; [reflexivity|].
        cbn [dget]. destruct (String.eqb_spec k "labels") as [->|_]; [|exact Du]. exfalso. cbn [map fst] in ND. inversion ND as [|? ? N1 N2]; subst. apply N1.
        apply (dget_Some_key _ _ Du).
      - apply make_struct_some in C as [-> ND]. do 2 eexists. split; [reflexivity|exact Du]. }
    destruct X as (id' & us & -> & Dus). cbn [Datatypes.app vget]. rewrite Dus. apply (IH ltac:(firstorder) x u Cu G).
Qed.
Print Assumptions C84_labels.

(* A table of two columns in a block. *)
Definition column (label : string) : py := YDict [("typeid", YStr "malcolm:core/NumberArrayMeta:1.0"); ("dtype", YStr "float64"); ("label", YStr label)].
Definition table : py := YDict [("typeid", YStr "epics:nt/NTTable:1.0");
  ("meta", YDict [("typeid", YStr "malcolm:core/TableMeta:1.0"); ("elements", YDict [("x", column "X pos"); ("y", column "")])]);
  ("value", YDict [("typeid", YStr "malcolm:core/Table:1.0"); ("x", YArr "np.float64" (Nums [1; 2]%Z)); ("y", YArr "np.float64" (Nums [5]%Z))]);
  ("alarm", YDict [("typeid", YStr "alarm_t"); ("severity", YSev 0); ("message", YStr "")])].
Definition block : py := YDict [("typeid", YStr "malcolm:core/Block:1.0"); ("counts", YDict [("typeid", YStr "epics:nt/NTScalar:1.0"); ("value", YNum "int" 3)]); ("rows", table)].
Example C84_ex : exists v, convert_dict_to_value block = Some v /\ oget (unconv v) ["rows"; "value"; "y"] = Some (OArr "d" (Nums [5]%Z))
  /\ oget (unconv v) ["rows"; "labels"] = None /\ sendable block.
Proof. eexists. split; [vm_compute; reflexivity|]. split; [vm_compute; reflexivity|]. split; [vm_compute; reflexivity|]. apply sendable_iff. eexists. vm_compute. reflexivity. Qed.
Example C84_labels_ex : yget block ["rows"] = Some table /\ exists v, convert_dict_to_value block = Some v /\ vget v ["rows"; "labels"] = Some (VArr "s" (Strs ["X pos"; "y"])).
Proof. split; [reflexivity|]. eexists. split; vm_compute; reflexivity. Qed.
(* A number of no known type is refused, and with it all of the block. *)
Example C84_ex2 : convert_dict_to_value (YDict [("x", YNum "complex" 3)]) = None /\ convert_dict_to_value (YDict [("x", YNd 2 "np.int32" (Nums [1; 2]%Z))]) = None.
Proof. split; reflexivity. Qed.

(* ---- C85 ---- *)
(* What happens to a PV of a block: the block changes (the handler gets the changes while it is
   subscribed), the first client connects, the last one goes. *)
Inductive event := Changed (cs : list change) | Connected | Disconnected.
Definition world := (py * handler)%type.
Definition step (w : world) (e : event) : world :=
  match e with
  | Changed cs => (ychanges cs (fst w), handle cs (snd w))
  | Connected => (fst w, first_connect (fst w) (snd w))
  | Disconnected => (fst w, last_disconnect (snd w))
  end.
(* Changes, each made to the block as it is by then. *)
Fixpoint fits (b : py) (cs : list change) : Prop :=
  match cs with [] => True | c :: r => (keeps b c \/ reshapes b c) /\ fits (ychange (fst c) (snd c) b) r end.
Fixpoint allowed (b : py) (es : list event) : Prop :=
  match es with
  | [] => True
  | Changed cs :: r => fits b cs /\ allowed (ychanges cs b) r
  | _ :: r => allowed b r
  end.
Definition copy (w : world) : Prop :=
  match snd w with Pv (Some v) true => wellpv v /\ unconv v = seen (fst w) | _ => True end.

Lemma update_keeps b v c : wellpv v -> unconv v = seen b -> keeps b c ->
  exists p u u' v', c = (p, Some u) /\ p <> [] /\ conv u = Some u' /\ update_path v p u' = Some v' /\ wellpv v' /\ unconv v' = seen (ychange p (Some u) b).
Proof.
  intros W E. destruct c as [p [u|]]; [|intros []]. intros (Np & Nt & S & old & G & O). apply sendable_iff in S as [u' C]. destruct (conv_spec u u' C) as [Wu Eu].
  rewrite <- E in G. rewrite <- Eu in O. destruct (update_same p v u' old Np W Wu G O) as (v' & U & W' & E'). exists p, u, u', v'. rewrite E in G.
  rewrite (seen_change p b u old Nt G), E', Eu, E. auto 10.
Qed.
Lemma update_reshapes b v c r : wellpv v -> unconv v = seen b -> reshapes b c -> update_value v (c :: r) = None.
Proof.
  intros W E. destruct c as [[|k p] [u|]]; try reflexivity. intros [[=]|(G & _ & L)]. cbn [update_value]. destruct (conv u) as [u'|]; [|reflexivity].
  rewrite (update_none (k :: p) v u'); [reflexivity|discriminate|exact W|exact L|now rewrite E].
Qed.
Lemma update_fits cs : forall b v v', wellpv v -> unconv v = seen b -> fits b cs -> update_value v cs = Some v' -> wellpv v' /\ unconv v' = seen (ychanges cs b).
Proof.
  induction cs as [|c cs IH]; intros b v v' W E F U; [injection U as <-; auto|]. destruct F as [[K|R] F].
  - destruct (update_keeps b v c W E K) as (p & u & u' & v1 & -> & Np & C & U1 & W1 & E1). destruct p as [|k p]; [congruence|]. cbn [update_value] in U.
    rewrite C, U1 in U. exact (IH _ v1 v' W1 E1 F U).
  - rewrite (update_reshapes b v c cs W E R) in U. discriminate.
Qed.
Lemma create_copy cs b v : create_initial cs = Some v -> wellpv v /\ unconv v = seen (ychanges cs b).
Proof.
  destruct cs as [|[[|? ?] [y|]] [|? ?]]; try discriminate. cbn [create_initial]. intros H. unfold ychanges. cbn [fold_left fst snd ychange].
  split; [|now apply C84_round]. destruct y; try discriminate; [now apply conv_spec in H|]. injection H as <-. apply wellpv_struct. split; [constructor|]. split; [intros [=]|constructor].
Qed.
Lemma handle_copy cs b h : copy (b, h) -> fits b cs -> copy (ychanges cs b, handle cs h).
Proof.
  unfold copy. cbn [fst snd]. intros I F. destruct h as [|[v|] o]; [exact Logic.I| |].
  - destruct o; [|exact Logic.I]. destruct I as [W E]. cbn [handle]. destruct cs as [|c cs]; [exact Logic.I|].
    destruct (update_value v (c :: cs)) as [v'|] eqn:U; [|exact Logic.I]. exact (update_fits _ b v v' W E F U).
  - cbn [handle]. destruct (create_initial cs) as [v|] eqn:C; [|exact Logic.I]. exact (create_copy cs b v C).
Qed.

Theorem C85_copy : forall es b w v, allowed b es -> fold_left step es (b, NoPv) = w -> snd w = Pv (Some v) true -> unconv v = seen (fst w).
Proof.
  intros es b w v A E O. assert (C : copy w).
  { assert (G : forall es b h, copy (b, h) -> allowed b es -> copy (fold_left step es (b, h))); [|rewrite <- E; apply G; [exact I|exact A]].
    clear. induction es as [|e es IH]; intros b h I A; [exact I|]. cbn [fold_left]. destruct e as [cs| |]; cbn [allowed] in A; unfold step at 2; cbn [fst snd].
    - destruct A as [F A]. apply IH; [|exact A]. now apply handle_copy.
    - apply IH; [|exact A]. destruct h as [|[v|] o]; try exact I. exact (handle_copy [([], Some b)] b (Pv None false) Logic.I (conj (or_intror (or_introl eq_refl)) Logic.I)).
    - now apply IH. }
  unfold copy in C. rewrite O in C. apply C.
Qed.
Print Assumptions C85_copy.

(* The whole list of changes keeps the types. *)
Fixpoint all_keep (b : py) (cs : list change) : Prop :=
  match cs with [] => True | c :: r => keeps b c /\ all_keep (ychange (fst c) (snd c) b) r end.
Fixpoint quiet (b : py) (es : list (list change)) : Prop :=
  match es with [] => True | cs :: r => cs <> [] /\ all_keep b cs /\ quiet (ychanges cs b) r end.
(* A PV of a block that can be sent opens, and stays open while the types stay. *)
Theorem C85_open : forall b es, (exists fs, b = YDict fs) -> sendable b -> quiet b es ->
  exists v, snd (fold_left step (Connected :: map Changed es) (b, NoPv)) = Pv (Some v) true
            /\ unconv v = seen (fold_left (fun b cs => ychanges cs b) es b).
Proof.
  intros b es [fs ->] S Q. cbn [fold_left map]. unfold step at 2. cbn [fst snd first_connect handle create_initial convert_dict_to_value]. apply sendable_iff in S as [v C]. rewrite C.
  destruct (conv_spec _ _ C) as [W E]. clear C. revert v W E Q. generalize (YDict fs) as b. induction es as [|cs es IH]; intros b v W E Q; [exists v; auto|].
  destruct Q as (N & K & Q). cbn [map fold_left]. unfold step at 2. cbn [fst snd handle]. destruct cs as [|c cs]; [congruence|].
  assert (U : forall cs b v, wellpv v -> unconv v = seen b -> all_keep b cs -> exists v', update_value v cs = Some v' /\ wellpv v' /\ unconv v' = seen (ychanges cs b)).
  { clear. induction cs as [|c cs IH]; intros b v W E K; [exists v; auto|]. destruct K as [K Ks].
    destruct (update_keeps b v c W E K) as (p & u & u' & v1 & -> & Np & C & U1 & W1 & E1). destruct p as [|k p]; [congruence|]. cbn [update_value]. rewrite C, U1. exact (IH _ v1 W1 E1 Ks). }
  destruct (U (c :: cs) b v W E K) as (v' & -> & W' & E'). exact (IH _ v' W' E' Q).
Qed.
Print Assumptions C85_open.

(* A change that does not keep the shape closes the PV, and it stays closed until the last client has
   gone. *)
Theorem C85_closed : forall b cs c cs' v es, wellpv v -> unconv v = seen b -> all_keep b cs -> reshapes (ychanges cs b) c ->
  exists v', snd (fold_left step (Changed (cs ++ c :: cs') :: map Changed es) (b, Pv (Some v) true)) = Pv (Some v') false.
Proof.
  intros b cs c cs' v es W E K R. assert (U : update_value v (cs ++ c :: cs') = None).
  { revert b v W E K R. induction cs as [|d cs IH]; intros b v W E K R; cbn [Datatypes.app]; [exact (update_reshapes b v c cs' W E R)|]. destruct K as [K Ks].
    destruct (update_keeps b v d W E K) as (p & u & u' & v1 & -> & Np & C & U1 & W1 & E1). destruct p as [|k p]; [congruence|]. cbn [update_value]. rewrite C, U1. exact (IH _ v1 W1 E1 Ks R). }
  exists v. cbn [fold_left]. unfold step at 2. cbn [fst snd].
  assert (D : handle (cs ++ c :: cs') (Pv (Some v) true) = Pv (Some v) false) by (revert U; destruct (cs ++ c :: cs') as [|x l]; intros U; cbn [handle]; [reflexivity|]; now rewrite U). rewrite D.
  generalize (ychanges (cs ++ c :: cs') b) as b'. induction es as [|e es IH]; intros b'; [reflexivity|]. cbn [map fold_left]. unfold step at 2. cbn [fst snd handle]. apply IH.
Qed.
Print Assumptions C85_closed.

(* After the last client has gone, the next one gets the block as it is. *)
Theorem C85_again : forall b h fs, b = YDict fs -> sendable b -> exists v, snd (fold_left step [Disconnected; Connected] (b, h)) = Pv (Some v) true /\ unconv v = seen b.
Proof.
  intros b h fs -> S. cbn [fold_left step fst snd last_disconnect first_connect handle create_initial convert_dict_to_value]. apply sendable_iff in S as [v C]. rewrite C. exists v. split; [reflexivity|]. now apply conv_spec.
Qed.
Print Assumptions C85_again.

(* The block, with a count and a whole table changed, then an attribute added. *)
Definition history : list event :=
  [Connected; Changed [(["counts"; "value"], Some (YNum "int" 4))];
   Changed [(["rows"], Some (YDict [("typeid", YStr "epics:nt/NTTable:1.0");
     ("meta", YDict [("typeid", YStr "malcolm:core/TableMeta:1.0"); ("elements", YDict [("x", column "X"); ("y", column "")])]);
     ("value", YDict [("typeid", YStr "malcolm:core/Table:1.0"); ("x", YArr "np.float64" (Nums [9]%Z)); ("y", YArr "np.float64" (Nums [])%Z)]);
     ("alarm", YDict [("typeid", YStr "alarm_t"); ("severity", YSev 2); ("message", YStr "bad")])]))]].
Example C85_ex : allowed block history /\ exists v, snd (fold_left step history (block, NoPv)) = Pv (Some v) true
  /\ oget (unconv v) ["rows"; "value"; "x"] = Some (OArr "d" (Nums [9]%Z)) /\ oget (unconv v) ["counts"; "value"] = Some (ONum "l" 4).
Proof.
  split.
  - unfold history. cbn [allowed fits]. split; [split; [left|exact I]|split; [split; [left|exact I]|exact I]].
    + split; [discriminate|]. split; [cbn; intuition discriminate|]. split; [cbn; discriminate|]. exists (ONum "l" 3). split; [vm_compute; reflexivity|vm_compute; reflexivity].
    + split; [discriminate|]. split; [cbn; intuition discriminate|]. split; [apply sendable_iff; eexists; vm_compute; reflexivity|]. eexists. split; [vm_compute; reflexivity|]. vm_compute. tauto.
  - eexists. split; [vm_compute; reflexivity|]. split; vm_compute; reflexivity.
Qed.
Example C85_ex2 : reshapes block (["new"], Some (YDict [])) /\ exists v, snd (fold_left step (history ++ [Changed [(["new"], Some (YDict []))]]) (block, NoPv)) = Pv (Some v) false.
Proof. split; [right; cbn; intuition discriminate|]. eexists. vm_compute. reflexivity. Qed.

(* The finding: a change that takes an item out of a dict that is sent whole (the elements of the meta
   of a method, say, in a change of the whole meta) is not seen: p4p sets the items that are given, the
   PV stays open with the old item in it. *)
Theorem C85_fewer_refuted : exists b c v, sendable b /\ sendable (ychange (fst c) (snd c) b)
  /\ snd (fold_left step [Connected; Changed [c]] (b, NoPv)) = Pv (Some v) true /\ unconv v <> seen (ychange (fst c) (snd c) b).
Proof.
  exists (YDict [("m", YDict [("typeid", YStr "malcolm:core/Map:1.0"); ("a", YStr "x"); ("b", YStr "y")])]), (["m"], Some (YDict [("typeid", YStr "malcolm:core/Map:1.0"); ("a", YStr "z")])).
  eexists. split; [apply sendable_iff; eexists; vm_compute; reflexivity|]. split; [apply sendable_iff; eexists; vm_compute; reflexivity|]. split; [vm_compute; reflexivity|]. vm_compute. discriminate.
Qed.
Print Assumptions C85_fewer_refuted.
