(* The attributes of a PandA block, and how changes of the device reach them.
   /repo/malcolm/modules/pandablocks/controllers/pandablockcontroller.py, pandamanagercontroller.py,
   parts/pandafieldpart.py, parts/pandalabelpart.py, /repo/malcolm/core/camel.py. *)
From Coq Require Import String Ascii Bool Arith List.
From Verif Require Import Base.
From Verif Require Savu_Model Reg_Model Meta_Model Bus_Model.
Import ListNotations.
Local Open Scope string_scope.
Local Open Scope list_scope.
Local Open Scope nat_scope.

(* used in pandablockcontroller.py 154-357. *)
Notation "a +++ b" := (String.append a b) (at level 60, right associativity).

(* ---- names ---- *)
(* c.upper() for ASCII (Python semantics): camel.py 6-32. *)
Definition upper_char (c : ascii) : ascii :=
  if Reg_Model.lower c then ascii_of_nat (nat_of_ascii c - 32) else c.
(* s.upper() for ASCII (Python semantics): pandablockcontroller.py 105, 106, 193. *)
Fixpoint to_upper (s : string) : string :=
  match s with EmptyString => "" | String c r => String (upper_char c) (to_upper r) end.
(* s.title() for ASCII (Python semantics): a letter after a letter is made lower case, another letter upper
   case.  [after] is whether the character before was a letter: camel.py 6-18. *)
Fixpoint title (after : bool) (s : string) : string :=
  match s with
  | EmptyString => ""
  | String c r => let letter := Reg_Model.lower c || Reg_Model.upper c in
                  String (if after then Bus_Model.lower_char c else upper_char c) (title letter r)
  end.
(* snake_to_camel: camel.py 30-32; None is the IndexError of ret[0]. *)
Definition snake_to_camel (name : string) : option string :=
  match String.concat "" (map (title false) (Savu_Model.split "_"%char name)) with
  | EmptyString => None
  | String c r => Some (String (Bus_Model.lower_char c) r)
  end.
(* field_name.replace(".", "_"): pandafieldpart.py 41, 52. *)
Fixpoint underscored (s : string) : string :=
  match s with
  | EmptyString => ""
  | String c r => String (if Ascii.eqb c "."%char then "_"%char else c) (underscored r)
  end.

(* ---- the parts of a block ---- *)
(* pandablocksclient.py 9, FieldData, without the description: pandablocksclient.py 9-12. *)
Record fdata := mkF { f_type : string; f_sub : string; f_labels : list string }.
(* The metas that are made: pandablockcontroller.py 53-64, 266, 270, 319, 338, 344, 354. *)
Inductive mkind := KChoice (labels : list string) | KBool | KNum (dtype : string) | KString | KTable.
(* What stands in field_parts: pandablockcontroller.py 90.  A PandAFieldPart with the meta, whether it can be
   written and the iteration of its config tag, a PandATablePart (writeable, config tag 1), the label. *)
Inductive handler := HField (k : mkind) (writeable : bool) (config : option nat) | HTable | HLabel.
(* AssertionError of part names or attribute names, IndexError of an empty name, ValueError:
   pandablockcontroller.py 186-357, core/part.py 111-120, 146-150. *)
Inductive berr := Clash | BadName | Unknown.

(* The block as it is made: pandablockcontroller.py 88-94.  b_parts the names of the parts, b_names the names
   of the fields in the registry (part.py 111-120), b_fields is field_parts, with None for those that are
   ignored, b_muxes the keys of mux_metas. *)
Record blk := mkB { b_parts : list string; b_names : list string; b_fields : dict (option handler);
                    b_muxes : list string }.

(* PART_NAME_RE: part.py 42. *)
Fixpoint part_name_ok (s : string) : bool :=
  match s with
  | EmptyString => true
  | String c r => (Reg_Model.lower c || Reg_Model.upper c || Reg_Model.digit c || Ascii.eqb c "_"%char
                   || Ascii.eqb c "-"%char) && part_name_ok r
  end.
(* Part.__init__, add_part and the registration of its one attribute or method: part.py 146-150,
   controller.py 63-68, part.py 111-120. *)
Definition add_part (name : string) (attr : option string) (b : blk) : result berr blk :=
  if negb (part_name_ok name) then Err BadName
  else if smem name (b_parts b) then Err Clash
  else match attr with
       | None => Err BadName
       | Some a => if negb (Reg_Model.camel a) then Err BadName
                   else if smem a (b_names b) then Err Clash
                   else Ok (mkB (b_parts b ++ [name]) (b_names b ++ [a]) (b_fields b) (b_muxes b))
       end.
(* field_parts[k] = h: pandablockcontroller.py 178, 218, 223, 254, 357. *)
Definition set_field_part (k : string) (h : option handler) (b : blk) : blk :=
  mkB (b_parts b) (b_names b) (dset k h (b_fields b)) (b_muxes b).
(* Sequencing of calls that may raise (Python semantics): pandablockcontroller.py 74-97, 186-361. *)
Definition bind {A B} (r : result berr A) (f : A -> result berr B) : result berr B :=
  match r with Ok a => f a | Err e => Err e end.

(* _make_group: pandablockcontroller.py 236-242. *)
Definition make_group (attr_name : string) (b : blk) : result berr blk :=
  if smem attr_name (b_parts b) then Ok b else add_part attr_name (Some attr_name) b.
(* _make_field_part: pandablockcontroller.py 244-254, with pandafieldpart.py 41-58. *)
Definition make_field_part (field_name : string) (k : mkind) (writeable : bool) (iteration : nat) (b : blk)
  : result berr blk :=
  bind (add_part (underscored field_name) (snake_to_camel (underscored field_name)) b)
       (fun b => Ok (set_field_part field_name
                       (Some (HField k writeable (if writeable then Some iteration else None))) b)).
(* make_meta: pandablockcontroller.py 52-66; None is the ValueError. *)
Definition make_meta (sub : string) (labels : list string) : option mkind :=
  if String.eqb sub "enum" then Some (KChoice labels)
  else if String.eqb sub "bit" then Some KBool
  else if smem sub ["uint"; ""] then Some (KNum "uint32")
  else if smem sub ["int"; "pos"] then Some (KNum "int32")
  else if String.eqb sub "scalar" then Some (KNum "float64")
  else if String.eqb sub "lut" then Some KString
  else None.
(* _make_time: pandablockcontroller.py 256-275. *)
Definition make_time (f : string) (writeable : bool) (b : blk) : result berr blk :=
  bind (make_group (if writeable then "parameters" else "readbacks") b) (fun b =>
  bind (make_field_part f (KNum "float64") writeable 2 b) (fun b =>
  make_field_part (f +++ ".UNITS") (KChoice ["min"; "s"; "ms"; "us"]) true 1 b)).
(* _make_action: pandablockcontroller.py 277-287, pandaactionpart.py 32, 42-46. *)
Definition make_action (f : string) (b : blk) : result berr blk :=
  bind (make_group "parameters" b) (fun b => add_part f (snake_to_camel f) b).
(* _make_param: pandablockcontroller.py 289-303. *)
Definition make_param (f : string) (d : fdata) (writeable : bool) (b : blk) : result berr blk :=
  bind (make_group (if writeable then "parameters" else "readbacks") b) (fun b =>
  match make_meta (f_sub d) (f_labels d) with
  | None => Err Unknown
  | Some k => make_field_part f k writeable 1 b
  end).
(* _make_out: pandablockcontroller.py 305-315. *)
Definition make_out (f typ : string) (b : blk) : result berr blk :=
  bind (make_group "outputs" b) (fun b =>
  match make_meta typ [] with
  | None => Err Unknown
  | Some k => make_field_part f k false 1 b
  end).
(* _make_ext_capture: pandablockcontroller.py 317-324. *)
Definition make_ext_capture (f : string) (d : fdata) (b : blk) : result berr blk :=
  bind (make_group "outputs" b) (fun b =>
  make_field_part (f +++ ".CAPTURE") (KChoice (f_labels d)) true 1 b).
(* sorted() of strings (Python semantics): insertion by code points: pandablockcontroller.py 154-357. *)
Fixpoint insert (x : string) (l : list string) : list string :=
  match l with
  | [] => [x]
  | y :: r => if String.leb x y then x :: l else y :: insert x r
  end.
(* ... (Python semantics): pandablockcontroller.py 154-357 *)
Definition sorted (l : list string) : list string := fold_right insert [] l.
(* The labels of a mux: pandablockcontroller.py 330-332. *)
Definition mux_labels (l : list string) : list string :=
  filter (fun x => smem x ["ZERO"; "ONE"]) l ++ sorted (filter (fun x => negb (smem x ["ZERO"; "ONE"])) l).
(* _make_mux: pandablockcontroller.py 326-340; the badge tag is left out, the call of snake_to_camel for it
   can not fail where the part was made. *)
Definition make_mux (f : string) (d : fdata) (b : blk) : result berr blk :=
  bind (make_group "inputs" b) (fun b =>
  bind (make_field_part f (KChoice (mux_labels (f_labels d))) true 1 b) (fun b =>
  Ok (mkB (b_parts b) (b_names b) (b_fields b) (b_muxes b ++ [f])))).
(* _make_mux_delay: pandablockcontroller.py 342-349. *)
Definition make_mux_delay (f : string) (b : blk) : result berr blk :=
  bind (make_group "inputs" b) (fun b => make_field_part (f +++ ".DELAY") (KNum "uint8") true 1 b).
(* _make_table: pandablockcontroller.py 351-357; the questions to the device about the columns are left
   out. *)
Definition make_table (f : string) (b : blk) : result berr blk :=
  bind (make_group "parameters" b) (fun b =>
  bind (add_part (underscored f) (snake_to_camel (underscored f)) b) (fun b =>
  Ok (set_field_part f (Some HTable) b))).
(* The fields of a pos_out that the busses table has: pandablockcontroller.py 217. *)
Definition pos_suffixes : list string := ["CAPTURE"; "UNITS"; "SCALE"; "OFFSET"; "DATA_DELAY"].
(* _make_parts_for: pandablockcontroller.py 186-234. *)
Definition make_parts_for (f : string) (d : fdata) (b : blk) : result berr blk :=
  if String.eqb (to_upper f) "HEALTH" then Ok b
  else
    let typ := f_type d in
    let sub := f_sub d in
    let writeable := negb (String.eqb typ "read") in
    if String.eqb typ "time" || (smem typ ["param"; "read"] && String.eqb sub "time") then make_time f writeable b
    else if String.eqb typ "write" && String.eqb sub "action" then make_action f b
    else if smem typ ["param"; "read"; "write"] then make_param f d writeable b
    else if String.eqb typ "bit_out" then make_out f "bit" b
    else if String.eqb typ "pos_out" then
      bind (make_out f "pos" b) (fun b =>
      Ok (fold_left (fun b s => set_field_part (f +++ "." +++ s) None b) pos_suffixes b))
    else if String.eqb typ "ext_out" then
      if String.eqb sub "bits" then Ok (set_field_part (f +++ ".CAPTURE") None b)
      else make_ext_capture f d b
    else if String.eqb typ "bit_mux" then bind (make_mux f d b) (fun b => make_mux_delay f b)
    else if String.eqb typ "pos_mux" then make_mux f d b
    else if String.eqb typ "table" then make_table f b
    else Err Unknown.
(* The loop of __init__: pandablockcontroller.py 96-97. *)
Fixpoint make_all (fs : dict fdata) (b : blk) : result berr blk :=
  match fs with
  | [] => Ok b
  | (f, d) :: r => bind (make_parts_for f d b) (make_all r)
  end.
(* The health of a BasicController and the icon, label and help: basiccontroller.py 20-23,
   pandablockcontroller.py 166-183. *)
Definition common : blk :=
  mkB ["icon"; "label"; "help"] ["health"; "icon"; "label"; "help"] [("LABEL", Some HLabel)] [].
(* __init__: pandablockcontroller.py 82-97. *)
Definition make_block (fs : dict fdata) : result berr blk := make_all fs common.

(* ---- one field ---- *)
(* PandAFieldPart: pandafieldpart.py 47-48. *)
Record part (V : Type) := mkP { p_value : V; p_pending : bool }.
Arguments mkP {V} _ _.
Arguments p_value {V} _.
Arguments p_pending {V} _.
(* handle_change with the value of validate: pandafieldpart.py 60-67; without alarm and time stamp. *)
Definition handle_change {V} (eqb : V -> V -> bool) (v : V) (p : part V) : part V :=
  if p_pending p then
    if eqb v (p_value p) then mkP (p_value p) false else mkP v false
  else mkP v false.

(* ---- a block's changes ---- *)
(* What can be in field_parts once the block runs: a field part with its validate function (None where it
   raises), the label with its initial value; the table part is modelled in Panda_Model:
   pandablockcontroller.py 99-152. *)
Inductive live (V : Type) :=
| LField (validate : string -> option V) (p : part V)
| LLabel (initial : string) (value : string).
Arguments LField {V} _ _.
Arguments LLabel {V} _ _.
(* A block: field_parts, the tags of the metas of mux_metas, and the alarm message of the fault that the
   device has told of, None for no fault; pandablockcontroller.py 88-94. *)
Record bst (V : Type) := mkBS { s_parts : dict (option (live V)); s_tags : dict (list string);
                                s_fault : option string }.
Arguments mkBS {V} _ _ _.
Arguments s_parts {V} _.
Arguments s_tags {V} _.
Arguments s_fault {V} _.

(* linked_value_tag: tags.py 115-119. *)
Definition linked_value_tag (mri attr : string) : string := "linkedvalue:" +++ attr +++ ":" +++ mri.
(* _handle_mux_update: pandablockcontroller.py 142-152; None is the IndexError of an empty name. *)
Definition mux_tags (mri_prefix v : string) (tags : list string) : option (list string) :=
  let tags := Meta_Model.without_tags "linkedvalue:" tags in
  match Savu_Model.split "."%char v with
  | [block_name; field_name] =>
    match snake_to_camel (underscored field_name) with
    | None => None
    | Some a => Some (tags ++ [linked_value_tag (mri_prefix +++ ":" +++ block_name) a])
    end
  | _ => Some tags
  end.
(* part.handle_change: pandafieldpart.py 60-67, pandalabelpart.py 20-23; None where it raises. *)
Definition live_change {V} (eqb : V -> V -> bool) (v : string) (l : live V) : option (live V) :=
  match l with
  | LField val p => match val v with Some x => Some (LField val (handle_change eqb x p)) | None => None end
  | LLabel ini _ => Some (LLabel ini (if String.eqb v "" then ini else v))
  end.
(* One round of the loop of handle_changes: pandablockcontroller.py 103-130; with whether it raised.  The
   icon is left out. *)
Definition one_change {V} (eqb : V -> V -> bool) (mri_prefix : string) (s : bst V) (k v : string)
  : bst V * bool :=
  if String.eqb (to_upper k) "HEALTH" then
    (mkBS (s_parts s) (s_tags s) (if String.eqb (to_upper v) "OK" then None else Some v), false)
  else match dget k (s_parts s) with
       | None => (s, false)
       | Some None => (s, false)
       | Some (Some l) =>
         match live_change eqb v l with
         | None => (s, true)
         | Some l' =>
           let s' := mkBS (dset k (Some l') (s_parts s)) (s_tags s) (s_fault s) in
           match dget k (s_tags s) with
           | None => (s', false)
           | Some tags => match mux_tags mri_prefix v tags with
                          | None => (s', true)
                          | Some t => (mkBS (s_parts s') (dset k t (s_tags s)) (s_fault s), false)
                          end
           end
         end
       end.
(* The loop: pandablockcontroller.py 103-130. *)
Fixpoint block_changes {V} (eqb : V -> V -> bool) (mri_prefix : string) (s : bst V) (cs : list (string * string))
  : bst V * bool :=
  match cs with
  | [] => (s, false)
  | (k, v) :: r => match one_change eqb mri_prefix s k v with
                   | (s', true) => (s', true)
                   | (s', false) => block_changes eqb mri_prefix s' r
                   end
  end.

(* ---- which block gets a change ---- *)
(* s.split(c, 1) with two results (Python semantics); None where there is one only, which is a ValueError on
   unpacking: pandamanagercontroller.py 271, 274. *)
Fixpoint split1 (c : ascii) (s : string) : option (string * string) :=
  match s with
  | EmptyString => None
  | String x r => if Ascii.eqb x c then Some ("", r)
                  else match split1 c r with Some (a, b) => Some (String x a, b) | None => None end
  end.
(* _handle_change for a key that is not a bit: pandamanagercontroller.py 271-286; block_changes as a dict of
   dicts.  The layout of *METADATA is left out. *)
Definition route (bc : dict (dict string)) (k v : string) : option (dict (dict string)) :=
  let add bn fn := Some (dset bn (dset fn v (match dget bn bc with Some d => d | None => [] end)) bc) in
  match split1 "."%char k with
  | None => None
  | Some (bn, fn) =>
    if String.eqb bn "*METADATA" then
      if Savu_Model.startswith "LABEL_" fn then
        match split1 "_"%char fn with Some (fn', bn') => add bn' fn' | None => None end
      else Some bc
    else add bn fn
  end.
(* The loop over the changes: pandamanagercontroller.py 304-306. *)
Fixpoint route_all (bc : dict (dict string)) (cs : list (string * string)) : option (dict (dict string)) :=
  match cs with
  | [] => Some bc
  | (k, v) :: r => match route bc k v with Some bc' => route_all bc' r | None => None end
  end.

(* ---- a field with its device ---- *)
(* The device's own value and whether it has changed since the last *CHANGES?, the reply of the poll under
   way, the set under way, the part.  pandablocksclient.py 291-312, 351-365; pandafieldpart.py 69-75. *)
Record sys (V : Type) := mkSys { y_dev : V; y_changed : bool; y_reply : option V; y_set : option V;
                                 y_part : part V }.
Arguments mkSys {V} _ _ _ _ _.
Arguments y_dev {V} _.
Arguments y_changed {V} _.
Arguments y_reply {V} _.
Arguments y_set {V} _.
Arguments y_part {V} _.
(* What can happen.  DevChange: the device changes the field.  SetSend: set_field marks the part and the device
   takes the value (pandafieldpart.py 73-74), or refuses it (SetRefused).  SetEnd: the client's OK was received and
   the attribute is set (75).  PollSend: the device answers *CHANGES? (pandablocksclient.py 293).  PollHandle:
   the block handles the answer (pandamanagercontroller.py 140).  The put runs with the lock released
   (controller.py 200-201), so that these can come in any order. *)
Inductive ev (V : Type) := DevChange (v : V) | SetSend (v : V) | SetRefused (v : V) | SetEnd | PollSend | PollHandle.
Arguments DevChange {V} _.
Arguments SetSend {V} _.
Arguments SetRefused {V} _.
Arguments SetEnd {V}.
Arguments PollSend {V}.
Arguments PollHandle {V}.
(* A step, None where it can not happen: only one set and one poll at a time (one client is waited for, one
   poll loop): pandamanagercontroller.py 116-150, pandablocksclient.py 343-372. *)
Definition step {V} (eqb : V -> V -> bool) (e : ev V) (y : sys V) : option (sys V) :=
  let p := y_part y in
  match e with
  | DevChange v => Some (mkSys v true (y_reply y) (y_set y) p)
  | SetSend v => match y_set y with
                 | Some _ => None
                 | None => Some (mkSys v true (y_reply y) (Some v) (mkP (p_value p) true))
                 end
  | SetRefused v => match y_set y with
                    | Some _ => None
                    | None => Some (mkSys (y_dev y) (y_changed y) (y_reply y) None (mkP (p_value p) true))
                    end
  | SetEnd => match y_set y with
              | None => None
              | Some v => Some (mkSys (y_dev y) (y_changed y) (y_reply y) None (mkP v (p_pending p)))
              end
  | PollSend => match y_reply y with
                | Some _ => None
                | None => Some (mkSys (y_dev y) false (if y_changed y then Some (y_dev y) else None) (y_set y) p)
                end
  | PollHandle => match y_reply y with
                  | None => None
                  | Some v => Some (mkSys (y_dev y) (y_changed y) None (y_set y) (handle_change eqb v p))
                  end
  end.
(* Steps one after the other: pandamanagercontroller.py 116-150. *)
Fixpoint steps {V} (eqb : V -> V -> bool) (es : list (ev V)) (y : sys V) : option (sys V) :=
  match es with
  | [] => Some y
  | e :: r => match step eqb e y with Some y' => steps eqb r y' | None => None end
  end.
