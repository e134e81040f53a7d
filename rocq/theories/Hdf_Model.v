(* The HDF5 file of a detector: what is announced and what is in the layout.
   /repo/malcolm/modules/ADCore/parts/hdfwriterpart.py and ADCore/infos.py,
   ADCore/parts/detectordriverpart.py 311-328, ADCore/parts/statspluginpart.py 46-57,
   ADPandABlocks/parts/pandadatasetbussespart.py 50-95, core/info.py 26-84. *)
From Coq Require Import String Ascii Bool QArith Decimal DecimalString List.
From Verif Require Import Base.
Import ListNotations.
Local Open Scope nat_scope.
Local Open Scope string_scope.
Local Open Scope list_scope.

(* + of strings and f-strings (Python semantics). *)
Infix "+++" := String.append (at level 60, right associativity).
(* str(n) of a natural number (Python semantics). *)
Definition str (n : nat) : string := NilEmpty.string_of_uint (Nat.to_uint n).

(* DatasetType: scanning/infos.py 7-28. *)
Inductive dstype := PRIMARY | SECONDARY | RAW | MONITOR | POSITION_SET | POSITION_VALUE | POSITION_MIN | POSITION_MAX.
(* AttributeDatasetType: ADCore/util.py 15-28. *)
Inductive adtype := ADetector | AMonitor | APosition.

(* The infos that matter here: ADCore/infos.py 52-97; any other is [IOther]. *)
Inductive info :=
| INDArray (rank : nat)
| ICalc (name attr : string)
| IAttr (name : string) (t : dstype) (attr : string)
| IOther.

(* {part name: list of infos}; None for None or an exception: core/info.py 22-40. *)
Definition part_info := dict (option (list info)).
(* Info.filter_values, with filter_parts: core/info.py 22-58. *)
Definition filter_values {A} (sel : info -> list A) (p : part_info) : list A :=
  flat_map (fun kv => match snd kv with Some l => flat_map sel l | None => [] end) p.
(* isinstance(i, NDArrayDatasetInfo): core/info.py 37. *)
Definition is_ndarray (i : info) : list nat := match i with INDArray r => [r] | _ => [] end.
(* isinstance(i, CalculatedNDAttributeDatasetInfo): core/info.py 37. *)
Definition is_calc (i : info) : list (string * string) := match i with ICalc n a => [(n, a)] | _ => [] end.
(* isinstance(i, NDAttributeDatasetInfo): core/info.py 37. *)
Definition is_attr (i : info) : list (string * dstype * string) :=
  match i with IAttr n t a => [(n, t, a)] | _ => [] end.

(* A Dimension and a CompoundGenerator of scanpointgenerator, as far as they are read here
   (hdfwriterpart.py 68, 117, 141-158, 207-245): axes, size and get_positions of each dimension;
   dimensions, axes and units.  get_positions and units are total here; they are only asked for
   axes of the generator. *)
Record dim := mkDim { d_axes : list string; d_size : nat; d_pos : string -> list Q }.
(* CompoundGenerator: see above: read in hdfwriterpart.py 47-391. *)
Record gen := mkGen { g_dims : list dim; g_axes : list string; g_units : string -> string }.

(* DatasetProducedInfo: scanning/infos.py 86-115. *)
Record produced := mkP { p_name : string; p_file : string; p_type : dstype; p_rank : nat;
                         p_path : string; p_uid : string }.

(* s.replace(".", "additional.") (Python semantics): hdfwriterpart.py 126, 258. *)
Fixpoint additional (s : string) : string :=
  match s with
  | EmptyString => ""
  | String c r => if Ascii.eqb c "."%char then "additional." +++ additional r else String c (additional r)
  end.
(* set_path % axis, with the set_path of hdfwriterpart.py 589. *)
Definition set_path (axis : string) : string := "/entry/" +++ axis +++ "_set".

(* The assertion of 74-77: hdfwriterpart.py 74-77. *)
Inductive herr := MoreThanOne | TooManyDims | BadName | BadCapture.

(* create_dataset_infos: hdfwriterpart.py 58-138; an assertion error ends it, as the caller makes
   a list of it (592-601). *)
Definition create_dataset_infos (name : string) (p : part_info) (g : gen) (filename : string) (remove : bool)
  : result herr (list produced) :=
  let uniqueid := "/entry/NDAttributes/NDArrayUniqueId" in
  let grank := length (g_dims g) in
  let rest :=
    map (fun nta => match nta with (n, t, _) =>
           mkP n filename t grank ("/entry/" +++ n +++ "/" +++ n) uniqueid end) (filter_values is_attr p)
    ++ map (fun a => if remove
                     then mkP (a +++ ".value_set") (additional filename) POSITION_SET 1 (set_path a) ""
                     else mkP (a +++ ".value_set") filename POSITION_SET 1 ("/entry/detector/" +++ a +++ "_set") "")
           (g_axes g) in
  match filter_values is_ndarray p with
  | [] => Ok rest
  | [r] => Ok (mkP (name +++ ".data") filename PRIMARY (r + grank) "/entry/detector/detector" uniqueid
               :: map (fun na => mkP (name +++ "." +++ fst na) filename SECONDARY grank
                                     ("/entry/" +++ fst na +++ "/" +++ fst na) uniqueid)
                      (filter_values is_calc p)
               ++ rest)
  | _ => Err MoreThanOne
  end.

(* ElementTree elements: tag, attributes, children (hdfwriterpart.py 4): hdfwriterpart.py 4, 187-391. *)
Inductive el := El (tag : string) (attrs : dict string) (kids : list el).

(* The SubElement "attribute" with source constant and type string: hdfwriterpart.py 196-203,
   212-230, 234-241. *)
Definition attribute (name value : string) : el :=
  El "attribute" [("name", name); ("source", "constant"); ("value", value); ("type", "string")] [].

(* make_set_points: hdfwriterpart.py 163-183; [fmt] is the format .12g of a position. *)
Definition make_set_points (fmt : Q -> string) (d : dim) (axis units : string) : el :=
  El "dataset" [("name", axis +++ "_set"); ("source", "constant"); ("type", "float");
                ("value", String.concat "," (map fmt (d_pos d axis)))]
     (match units with
      | EmptyString => []
      | _ => [El "attribute" [("name", "units"); ("source", "constant"); ("value", units); ("type", "string")] []]
      end).

(* pad_dims: hdfwriterpart.py 205-212. *)
Definition pad_dims (g : gen) (rank : nat) : list string :=
  map (fun d => match d_axes d with [a] => a +++ "_set" | _ => "." end) (g_dims g) ++ repeat "." rank.

(* enumerate: hdfwriterpart.py 231 (Python semantics). *)
Fixpoint enum {A} (i : nat) (l : list A) : list (nat * A) :=
  match l with [] => [] | x :: r => (i, x) :: enum (S i) r end.

(* make_nxdata: hdfwriterpart.py 186-249: the children of the group; the caller appends more and
   the group itself goes at the end of the entry (195). *)
Definition nxdata_kids (fmt : Q -> string) (name : string) (rank : nat) (g : gen) (remove link : bool) : list el :=
  attribute "signal" name ::
  (if remove then []
   else attribute "axes" (String.concat "," (pad_dims g rank)) :: attribute "NX_class" "NXdata" ::
        flat_map (fun id => flat_map (fun axis =>
          [attribute (axis +++ "_set_indices") (str (fst id));
           if link then El "hardlink" [("name", axis +++ "_set"); ("target", "/entry/detector/" +++ axis +++ "_set")] []
           else make_set_points fmt (snd id) axis (g_units g axis)]) (d_axes (snd id)))
          (enum 0 (g_dims g))).
(* The group with its children, and those that the caller appends: hdfwriterpart.py 195, 249. *)
Definition make_nxdata (fmt : Q -> string) (name : string) (rank : nat) (g : gen) (remove link : bool) (more : list el) : el :=
  El "group" [("name", name)] (nxdata_kids fmt name rank g remove link ++ more).

(* make_layout_xml: hdfwriterpart.py 273-391, the tree before et_to_string. *)
Definition make_layout_xml (fmt : Q -> string) (g : gen) (p : part_info) (write_all remove : bool) : el :=
  let rank := match filter_values is_ndarray p with [] => 2 | r :: _ => r end in
  let nd name attr := El "dataset" [("name", name); ("source", "ndattribute"); ("ndattribute", attr)] [] in
  El "hdf5_layout" [] [El "group" [("name", "entry")] (
    attribute "NX_class" "NXentry"
    :: make_nxdata fmt "detector" rank g remove false
         [El "dataset" [("name", "detector"); ("source", "detector"); ("det_default", "true")]
             [attribute "NX_class" "SDS"]]
    :: map (fun na => make_nxdata fmt (fst na) rank g remove true [nd (fst na) (snd na)]) (filter_values is_calc p)
    ++ map (fun nta => match nta with (n, _, a) => make_nxdata fmt n rank g remove true [nd n a] end)
           (filter_values is_attr p)
    ++ [El "group" [("name", "NDAttributes"); ("ndattr_default", if write_all then "true" else "false")]
           [attribute "NX_class" "NXcollection"; nd "NDArrayUniqueId" "NDArrayUniqueId";
            nd "NDArrayTimeStamp" "NDArrayTimeStamp"]])].

(* _write_additional_hdf: hdfwriterpart.py 252-270: the name of the file (after the directory) and
   its datasets. *)
Definition write_additional_hdf (filename : string) (g : gen) : string * list (string * list Q) :=
  (additional filename, flat_map (fun d => map (fun a => (set_path a, d_pos d a)) (d_axes d)) (g_dims g)).

(* SUFFIXES: hdfwriterpart.py 39. *)
Definition suffixes : list string := ["N"; "X"; "Y"; "3"; "4"; "5"; "6"; "7"; "8"; "9"].
(* A value put to the child block: hdfwriterpart.py 144-158. *)
Inductive aval := AInt (z : Z) | AStr (s : string).
(* set_dimensions: hdfwriterpart.py 141-160, the attr_dict. *)
Definition set_dimensions (g : gen) : result herr (dict aval) :=
  let n := length (g_dims g) in
  if Nat.leb n 10 then
    Ok (("numExtraDims", AInt (Z.of_nat n - 1)) ::
        flat_map (fun isf => let i := fst isf in
           if Nat.ltb i n
           then let f := n - i - 1 in
                [("posNameDim" +++ snd isf, AStr ("d" +++ str f));
                 ("extraDimSize" +++ snd isf, AInt (Z.of_nat (nth f (map d_size (g_dims g)) 0)))]
           else [("posNameDim" +++ snd isf, AStr ""); ("extraDimSize" +++ snd isf, AInt 1)])
          (enum 0 suffixes))
  else Err TooManyDims.

(* PART_NAME_RE: core/part.py 42; re.match with $ also takes one newline at the end. *)
Definition name_char (c : ascii) : bool :=
  let n := nat_of_ascii c in
  (Nat.leb 97 n && Nat.leb n 122) || (Nat.leb 65 n && Nat.leb n 90) || (Nat.leb 48 n && Nat.leb n 57)
  || Nat.eqb n 95 || Nat.eqb n 45.
(* The match itself: core/part.py 42. *)
Fixpoint part_name (s : string) : bool :=
  match s with
  | EmptyString => true
  | String c EmptyString => name_char c || Nat.eqb (nat_of_ascii c) 10
  | String c r => name_char c && part_name r
  end.

(* NDAttributeDatasetInfo.from_attribute_type: ADCore/infos.py 90-124. *)
Definition from_attribute_type (name : string) (t : adtype) (attr : string) : result herr info :=
  if part_name name then
    Ok (match t with
        | ADetector => IAttr (name +++ ".data") PRIMARY attr
        | AMonitor => IAttr (name +++ ".data") MONITOR attr
        | APosition => IAttr (name +++ ".value") POSITION_VALUE attr
        end)
  else Err BadName.

(* A loop that appends to a list until it raises (Python semantics): pandadatasetbussespart.py 50-95. *)
Fixpoint gather {A} (f : A -> result herr (list info)) (l : list A) : result herr (list info) :=
  match l with
  | [] => Ok []
  | x :: r => match f x with
              | Err e => Err e
              | Ok a => match gather f r with Ok b => Ok (a ++ b) | Err e => Err e end
              end
  end.
(* One info in a list, or its exception (Python semantics): pandadatasetbussespart.py 50-95. *)
Definition one (r : result herr info) : result herr (list info) :=
  match r with Ok i => Ok [i] | Err e => Err e end.

(* DetectorDriverPart.on_report_status: detectordriverpart.py 311-328; the columns of the table
   are of one length (core/table.py), so they are rows here: name and datasetType. *)
Definition driver_report (useful : bool) (extra : list (string * adtype)) : result herr (list info) :=
  match gather (fun nt => one (from_attribute_type (fst nt) (snd nt) (fst nt))) extra with
  | Ok l => Ok ((if useful then [INDArray 2] else []) ++ l)
  | Err e => Err e
  end.

(* PositionCapture and its values: pandablocks/util.py 44-58. *)
Inductive pcap := NO | VALUE | DIFF | SUM | MEAN | MIN | MAX | MIN_MAX | MIN_MAX_MEAN.
(* capture.value.split(" "): pandadatasetbussespart.py 70. *)
Definition capture_suffixes (c : pcap) : list string :=
  match c with
  | NO => ["No"] | VALUE => ["Value"] | DIFF => ["Diff"] | SUM => ["Sum"] | MEAN => ["Mean"]
  | MIN => ["Min"] | MAX => ["Max"] | MIN_MAX => ["Min"; "Max"] | MIN_MAX_MEAN => ["Min"; "Max"; "Mean"]
  end.
(* Rows of DatasetBitsTable and DatasetPositionsTable: ADPandABlocks/util.py 125-157. *)
Record brow := mkB { b_name : string; b_capture : bool; b_ds : string; b_type : adtype }.
(* The same for positions: ADPandABlocks/util.py 141-157. *)
Record prow := mkR { r_name : string; r_capture : pcap; r_ds : string; r_type : adtype }.

(* list.remove of a member (Python semantics): pandadatasetbussespart.py 50-95. *)
Fixpoint remove1 (x : string) (l : list string) : list string :=
  match l with [] => [] | y :: r => if String.eqb x y then r else y :: remove1 x r end.
(* suffix, suffix.lower(), DatasetType["POSITION_" + suffix.upper()]:
   pandadatasetbussespart.py 73-81. *)
Definition min_max : list (string * string * dstype) := [("Min", "min", POSITION_MIN); ("Max", "max", POSITION_MAX)].
(* The loop over bits: pandadatasetbussespart.py 54-63. *)
Definition bit_infos (b : brow) : result herr (list info) :=
  if negb (String.eqb (b_ds b) "") && b_capture b
  then one (from_attribute_type (b_ds b) (b_type b) (b_name b)) else Ok [].
(* The loop over positions: pandadatasetbussespart.py 66-94. *)
Definition pos_infos (r : prow) : result herr (list info) :=
  match r_capture r with
  | NO => Ok []
  | c =>
      if String.eqb (r_ds r) "" then Ok []
      else
        let sfx := capture_suffixes c in
        let mm := if Nat.ltb 1 (length sfx) then filter (fun x => smem (fst (fst x)) sfx) min_max else [] in
        let first := map (fun x => match x with (s, low, t) =>
                            IAttr (r_ds r +++ "." +++ low) t (r_name r +++ "." +++ s) end) mm in
        match fold_left (fun l x => remove1 (fst (fst x)) l) mm sfx with
        | [] => Ok first
        | [s] => match from_attribute_type (r_ds r) (r_type r) (r_name r +++ "." +++ s) with
                 | Ok i => Ok (first ++ [i])
                 | Err e => Err e
                 end
        | _ => Err BadCapture
        end
  end.
(* PandADatasetBussesPart.on_report_status: pandadatasetbussespart.py 50-95. *)
Definition panda_report (bits : list brow) (pos : list prow) : result herr (list info) :=
  match gather bit_infos bits with
  | Err e => Err e
  | Ok a => match gather pos_infos pos with Ok b => Ok (a ++ b) | Err e => Err e end
  end.
