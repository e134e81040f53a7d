(** C51, C52, specification: what a layout puts in the file. *)
From Coq Require Import String Ascii Bool QArith List.
From Verif Require Import Base Hdf_Model.
Import ListNotations.
Local Open Scope nat_scope.
Local Open Scope string_scope.
Local Open Scope list_scope.

(** What can be at a path: the arrays of the detector, an attribute of each array, a constant, or
    a link to another path. *)
Inductive thing := TDet | TNd (attr : string) | TConst (text : string) | TLink (target : string) | TUnknown.

Definition xattr (k : string) (d : dict string) : string := match dget k d with Some v => v | None => "" end.
Definition source (d : dict string) : thing :=
  if String.eqb (xattr "source" d) "detector" then TDet
  else if String.eqb (xattr "source" d) "ndattribute" then TNd (xattr "ndattribute" d)
  else if String.eqb (xattr "source" d) "constant" then TConst (xattr "value" d)
  else TUnknown.

(** The datasets and links of a layout with their paths. *)
Fixpoint contents (at_ : string) (e : el) : list (string * thing) :=
  match e with El tag d kids =>
    let here := at_ +++ "/" +++ xattr "name" d in
    if String.eqb tag "hdf5_layout" then flat_map (contents at_) kids
    else if String.eqb tag "group" then flat_map (contents here) kids
    else if String.eqb tag "dataset" then [(here, source d)]
    else if String.eqb tag "hardlink" then [(here, TLink (xattr "target" d))]
    else []
  end.

(** The attributes of the groups of a layout. *)
Fixpoint group_attrs (at_ : string) (e : el) : list (string * string * string) :=
  match e with El tag d kids =>
    let here := at_ +++ "/" +++ xattr "name" d in
    if String.eqb tag "hdf5_layout" then flat_map (group_attrs at_) kids
    else if String.eqb tag "group" then flat_map (group_attrs here) kids
    else if String.eqb tag "attribute" then [(at_, xattr "name" d, xattr "value" d)]
    else []
  end.

(** The attributes of its datasets. *)
Fixpoint dataset_attrs (at_ : string) (e : el) : list (string * string * string) :=
  match e with El tag d kids =>
    let here := at_ +++ "/" +++ xattr "name" d in
    if String.eqb tag "hdf5_layout" then flat_map (dataset_attrs at_) kids
    else if String.eqb tag "group" then flat_map (dataset_attrs here) kids
    else if String.eqb tag "dataset" then
      flat_map (fun k => match k with El _ d' _ => [(here, xattr "name" d', xattr "value" d')] end) kids
    else []
  end.

(** Some part reported this. *)
Definition reported (p : part_info) (i : info) : Prop := exists k l, In (k, Some l) p /\ In i l.

(** The demand positions of an axis of the scan, as text. *)
Definition demands (fmt : Q -> string) (g : gen) (a text : string) : Prop :=
  exists d, In d (g_dims g) /\ In a (d_axes d) /\ text = String.concat "," (map fmt (d_pos d a)).

(** What a dataset that is announced to the user should be, for a detector called [name]. *)
Inductive meant (fmt : Q -> string) (name : string) (p : part_info) (g : gen) : produced -> thing -> Prop :=
| meant_primary : forall d r, reported p (INDArray r) -> p_type d = PRIMARY -> p_name d = name +++ ".data" ->
    p_rank d = r + length (g_dims g) -> meant fmt name p g d TDet
| meant_calc : forall d n a, reported p (ICalc n a) -> p_type d = SECONDARY -> p_name d = name +++ "." +++ n ->
    p_rank d = length (g_dims g) -> meant fmt name p g d (TNd a)
| meant_attr : forall d n t a, reported p (IAttr n t a) -> p_type d = t -> p_name d = n ->
    p_rank d = length (g_dims g) -> meant fmt name p g d (TNd a)
| meant_set : forall d a text, In a (g_axes g) -> p_type d = POSITION_SET -> p_name d = a +++ ".value_set" ->
    p_rank d = 1 -> demands fmt g a text -> meant fmt name p g d (TConst text).

(** The axes of the generator are those of its dimensions, each once (scanpointgenerator). *)
Definition axes_ok (g : gen) : Prop :=
  NoDup (flat_map d_axes (g_dims g)) /\ forall a, In a (g_axes g) <-> In a (flat_map d_axes (g_dims g)).

(** The path [q] holds the constant [text], itself or by a link. *)
Definition holds (c : list (string * thing)) (q text : string) : Prop :=
  In (q, TConst text) c \/ exists t, In (q, TLink t) c /\ In (t, TConst text) c.

(** No path separator in a name. *)
Fixpoint no_slash (s : string) : Prop :=
  match s with EmptyString => True | String c r => c <> "/"%char /\ no_slash r end.
