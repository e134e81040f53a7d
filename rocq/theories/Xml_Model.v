(* The XML files that detectors are given: the attributes to capture (ADCore/parts/detectordriverpart.py 186-226,
   303-311, 424-439, ADCore/parts/statspluginpart.py 58-108) and how a tree is written (compat.py 21-27, with
   ElementTree.tostring of Python 3.9 and later).  Text is bytes; those above 127 stand for the characters they
   are part of. *)
From Coq Require Import String Ascii Bool List.
From Verif Require Import Base Hdf_Model.
Import ListNotations.
Local Open Scope nat_scope.
Local Open Scope string_scope.
Local Open Scope list_scope.

(* ---- ElementTree.tostring ---- *)
(* _escape_attrib, one character (Python semantics): compat.py 24. *)
Definition escape_char (c : ascii) : string :=
  let n := nat_of_ascii c in
  if Nat.eqb n 38 then "&amp;" else if Nat.eqb n 60 then "&lt;" else if Nat.eqb n 62 then "&gt;"
  else if Nat.eqb n 34 then "&quot;" else if Nat.eqb n 13 then "&#13;" else if Nat.eqb n 10 then "&#10;"
  else if Nat.eqb n 9 then "&#09;" else String c "".
(* _escape_attrib (Python semantics): compat.py 24. *)
Fixpoint escape (s : string) : string :=
  match s with EmptyString => "" | String c r => escape_char c +++ escape r end.
(* A double quote: compat.py 24. *)
Definition quote : string := String (ascii_of_nat 34) "".
(* The attributes of an element, in the order in which they were given (Python semantics): compat.py 24. *)
Fixpoint write_attrs (l : dict string) : string :=
  match l with
  | [] => ""
  | (k, v) :: r => " " +++ k +++ "=" +++ quote +++ escape v +++ quote +++ write_attrs r
  end.
(* _serialize_xml of an element without text (Python semantics): compat.py 24. *)
Fixpoint write (e : el) : string :=
  match e with
  | El tag attrs kids =>
      "<" +++ tag +++ write_attrs attrs +++
      match kids with
      | [] => " />"
      | _ => ">" +++ (fix all (l : list el) : string := match l with [] => "" | k :: r => write k +++ all r end) kids
             +++ "</" +++ tag +++ ">"
      end
  end.
(* The first line, without an end: compat.py 22. *)
Definition declaration : string := "<?xml version=" +++ quote +++ "1.0" +++ quote +++ " ?>".
(* et_to_string: compat.py 21-27. *)
Definition et_to_string (e : el) : string := declaration +++ write e.

(* ---- the attributes of a driver ---- *)
(* SourceType and DataType: ADCore/util.py 30-43. *)
Inductive source_type := PARAM | PV.
(* DataType: ADCore/util.py 30-36. *)
Inductive data_type := INT | DOUBLE | STRING | DBRNATIVE.
(* Their values: ADCore/util.py 33-36. *)
Definition data_value (d : data_type) : string :=
  match d with INT => "INT" | DOUBLE => "DOUBLE" | STRING => "STRING" | DBRNATIVE => "DBR_NATIVE" end.
(* A row of the table; the columns are of one length (core/table.py): ADCore/util.py 89-106. *)
Record row := mkRow { r_name : string; r_source : string; r_desc : string; r_stype : source_type; r_dtype : data_type }.
(* The type asked of a PV: detectordriverpart.py 190-199. *)
Definition dbr_type (d : data_type) : string :=
  match d with INT => "DBR_LONG" | DOUBLE => "DBR_DOUBLE" | STRING => "DBR_STRING" | d => data_value d end.
(* One turn of the loop: detectordriverpart.py 188-217. *)
Definition attribute_el (r : row) : el :=
  match r_stype r with
  | PV => El "Attribute" [("name", r_name r); ("type", "EPICS_PV"); ("dbrtype", dbr_type (r_dtype r));
                          ("description", r_desc r); ("source", r_source r)] []
  | PARAM => El "Attribute" [("name", r_name r); ("type", "PARAM"); ("datatype", data_value (r_dtype r));
                             ("description", r_desc r); ("source", r_source r)] []
  end.
(* build_attribute_xml: detectordriverpart.py 186-218. *)
Definition build_attribute_xml (rows : list row) : string :=
  et_to_string (El "Attributes" [] (map attribute_el rows)).
(* set_extra_attributes; None: ValueError, and the table stays: detectordriverpart.py 220-227. *)
Definition set_extra_attributes (rows : list row) : option (list row) :=
  if existsb (fun r => match r_stype r, r_dtype r with PARAM, DBRNATIVE => true | _, _ => false end) rows
  then None else Some rows.

(* StatsPluginPart._make_attributes_xml, with the value of the statistic and its title:
   statspluginpart.py 58-73. *)
Definition stats_xml (title value : string) : string :=
  et_to_string (El "Attributes" []
    [El "Attribute" [("addr", "0"); ("datatype", "DOUBLE"); ("type", "PARAM");
                     ("description", title +++ " of the array"); ("name", "STATS_" +++ value); ("source", value)] []]).

(* ---- the file over scans ---- *)
(* The table, attributes_filename, the files that are there with their text, and what the driver was told: the
   text of the file that it read when attributesFile was put (none when it was put to the empty string): detectordriverpart.py 80, 303-311, 424-439. *)
Record driver := mkDriver { v_rows : list row; v_file : string; v_disk : dict string; v_loaded : option string }.
(* detectordriverpart.py 73-103: nothing yet. *)
Definition new_driver : driver := mkDriver [] "" [] None.
(* What is done: a table is put, a scan is configured with its file name (make_xml_filename, Hlife_Model), a
   reset: detectordriverpart.py 220-227, 303-311, 424-439. *)
Inductive dop := SetTable (rows : list row) | ConfigureIn (file : string) | ResetDriver.
(* detectordriverpart.py 220-227, 303-311, 424-439. *)
Definition driver_step (v : driver) (o : dop) : driver :=
  match o with
  | SetTable rows => match set_extra_attributes rows with
                     | Some rows => mkDriver rows (v_file v) (v_disk v) (v_loaded v)
                     | None => v
                     end
  | ConfigureIn file =>
      match v_rows v with
      | [] => v
      | rows => let xml := build_attribute_xml rows in mkDriver rows file (dset file xml (v_disk v)) (Some xml)
      end
  | ResetDriver =>
      if negb (String.eqb (v_file v) "") && dmem (v_file v) (v_disk v)
      then mkDriver (v_rows v) (v_file v) (ddel (v_file v) (v_disk v)) None else v
  end.
