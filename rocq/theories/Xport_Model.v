(* Model of the fields that a manager offers for export and shows: ChildPart.update_part_exportable
   (/repo/malcolm/modules/builtin/parts/childpart.py) and the exports of a ManagerController
   (/repo/malcolm/modules/builtin/controllers/managercontroller.py). *)
From Coq Require Import String Ascii Bool Arith List.
From Verif Require Import Base.
From Verif Require Pva2_Model Reg_Model.
Import ListNotations.
Local Open Scope list_scope.

(* ---- childpart.py ---- *)
(* SourcePortInfo and SinkPortInfo: builtin/infos.py 29-73, childpart.py 302-317.  The port type,
   and the connected value, or the disconnected value with the value of the attribute. *)
Inductive pinfo := Source (port connected : string) | Sink (port disconnected value : string).
(* A field of the child: childpart.py 296-320: whether it is an Attribute, the details of its port
   tag (see C21), whether it has a config tag. *)
Record cfield := mkField { is_attribute : bool; port_of : option pinfo; config : bool }.

(* A ChildPart: childpart.py 129-132: config_subscriptions by id, in order, with the attribute of
   each, and port_infos; and the subscriptions that the child holds for update_part_modified, by id
   (core/notifier.py 61-71: the key of a subscription is its callback and its id). *)
Record part := mkPart { subs : list (nat * string); ports : dict pinfo; live : list (nat * string) }.
(* childpart.py 129-132. *)
Definition new_part : part := mkPart [] [] [].

(* childpart.py 286-291: the Unsubscribe of one that is not in the new fields.  If the child does
   not hold it (notifier.py 69, a KeyError) the answer is an Error that is only logged
   (childpart.py 342-343). *)
Definition drop1 (fields : list string) (p : part) (s : nat * string) : part :=
  if smem (snd s) fields then p
  else mkPart (subs p) (ddel (snd s) (ports p))
         (filter (fun x => negb (Nat.eqb (fst x) (fst s))) (live p)).
(* childpart.py 285-291.  config_subscriptions itself stays as it is. *)
Definition drop (fields : list string) (p : part) : part := fold_left (drop1 fields) (subs p) p.

(* childpart.py 321-324: max(self.config_subscriptions) + 1, or 1. *)
Definition new_id (p : part) : nat := S (fold_right Nat.max 0 (map fst (subs p))).

Section child.
  (* _unmanaged_attr: childpart.py 85-88. *)
  Variable unmanaged : string -> bool.

  (* childpart.py 296-328: one new field.  Simplified: the child has every field that it said it
     has (getattr, 296, does not fail). *)
  Definition see (child : string -> cfield) (p : part) (f : string) : part :=
    let a := child f in
    if is_attribute a then
      let p := match port_of a with
               | Some i => mkPart (subs p) (dset f i (ports p)) (live p)
               | None => p
               end in
      if unmanaged f && config a
      then mkPart (subs p ++ [(new_id p, f)]) (ports p) (live p ++ [(new_id p, f)])
      else p
    else p.

  (* update_part_exportable: childpart.py 268-335.  [order]: set(new_fields) - existing_fields
     (295) in the order in which Python gives it, see [new_fields].  A Return is an update to no
     fields (276-279).  Gives the PartExportableInfo (335). *)
  Definition update_part_exportable (child : string -> cfield) (fields order : list string)
      (p : part) : part * (list string * list (string * pinfo)) :=
    let p := fold_left (see child) order (drop fields p) in
    (p, (fields,
         flat_map (fun f => match dget f (ports p) with Some i => [(f, i)] | None => [] end) fields)).

  (* childpart.py 294-295: an order is one of the set of the fields that are new. *)
  Definition new_fields (fields order : list string) (p : part) : Prop :=
    NoDup order /\ forall f, In f order <-> In f fields /\ ~ In f (map snd (subs p)).
End child.

(* ---- managercontroller.py ---- *)
(* The field behind a name in the block: managercontroller.py 325-340: one of a part, or an export
   of an attribute of the block with that mri (followed as C63 says). *)
Inductive field := Own (part field : string) | Exported (mri attr : string).

(* The manager: managercontroller.py 79-89, 107-138: whether saved_visibility has been set, the
   fields and ports that parts have reported, the visible column of the layout, the rows of the
   exports, the choices of their source, and _current_part_fields. *)
Record mgr := mkMgr {
  ready : bool; exportable : dict (list string); port_info : dict (list (string * pinfo));
  visible : list bool; exports : list (string * string); choices : list string;
  current : list (string * field) }.
(* managercontroller.py 79-89. *)
Definition new_mgr : mgr := mkMgr false [] [] [] [] [] [].

Section mgr.
  (* The parts, each with the names of its own fields (core/controller.py 63-68), and those among
     them that give a LayoutInfo, with the mri of each.  Simplified: these are the same at every
     LayoutHook, as they are for ChildParts (childpart.py 181-207). *)
  Variables (parts : list (string * list string)) (children : list (string * string)).

  (* managercontroller.py 313-322: the mris of visible parts, and the parts that are invisible. *)
  Definition mris (m : mgr) : dict string :=
    fold_left (fun d x => if snd x : bool then dset (fst (fst x)) (snd (fst x)) d else d)
              (combine children (visible m)) [].
  (* managercontroller.py 313-322. *)
  Definition invisible (m : mgr) : list string :=
    flat_map (fun x : string * string * bool => if snd x then [] else [fst (fst x)])
             (combine children (visible m)).

  (* managercontroller.py 330-340: one row of exports.  None is the error of a source with no dot
     or of a part that there is not. *)
  Definition export1 (m : mgr) (row : string * string) : option (list (string * field)) :=
    match Pva2_Model.rsplit1 "."%char (fst row) with
    | None => None
    | Some (part_name, attr_name) =>
        if smem part_name (map fst parts) then
          match dget part_name (mris m) with
          | Some mri =>
              if negb (String.eqb mri "") &&
                 smem attr_name (match dget part_name (exportable m) with Some l => l | None => [] end)
              then Some [(if String.eqb (snd row) "" then attr_name else snd row,
                          Exported mri attr_name)]
              else Some []
          | None => Some []
          end
        else None
    end.

  (* A list of rows: managercontroller.py 330-340. *)
  Fixpoint export_rows (m : mgr) (rows : list (string * string)) : option (list (string * field)) :=
    match rows with
    | [] => Some []
    | r :: rest => match export1 m r, export_rows m rest with
                   | Some a, Some b => Some (a ++ b)
                   | _, _ => None
                   end
    end.

  (* _get_current_part_fields: managercontroller.py 304-340. *)
  Definition get_current (m : mgr) : option (list (string * field)) :=
    match export_rows m (exports m) with
    | Some l =>
        Some (flat_map (fun p => if smem (fst p) (invisible m) then []
                                 else map (fun f => (f, Own (fst p) f)) (snd p)) parts ++ l)
    | None => None
    end.

  (* update_block_endpoints: managercontroller.py 275-283; the fields of the block are in
     Reg_Model. *)
  Definition update_block_endpoints (m : mgr) : option mgr :=
    match get_current m with
    | Some l => Some (mkMgr (ready m) (exportable m) (port_info m) (visible m) (exports m)
                            (choices m) l)
    | None => None
    end.

  (* managercontroller.py 259-264: the names of all that can be exported. *)
  Definition names (m : mgr) : list string :=
    flat_map (fun p => map (fun a => (fst p ++ "." ++ a)%string)
                           (match dget (fst p) (exportable m) with Some l => l | None => [] end))
             parts.

  (* managercontroller.py 265-268: in one of the two, and the source of an export. *)
  Definition changed (old new sources : list string) : bool :=
    existsb (fun s => xorb (smem s old) (smem s new)) sources.

  (* managercontroller.py 258-273. *)
  Definition refresh (m : mgr) : option mgr :=
    if ready m then
      let n := names m in
      let m' := mkMgr true (exportable m) (port_info m) (visible m) (exports m) n (current m) in
      if changed (choices m) n (map fst (exports m)) then update_block_endpoints m' else Some m'
    else Some m.

  (* update_exportable for a part: managercontroller.py 247-273. *)
  Definition report (part : string) (i : list string * list (string * pinfo)) (m : mgr) : option mgr :=
    refresh (mkMgr (ready m) (dset part (fst i) (exportable m)) (dset part (snd i) (port_info m))
                   (visible m) (exports m) (choices m) (current m)).

  (* Comparison of the visible columns: managercontroller.py 178. *)
  Fixpoint same (a b : list bool) : bool :=
    match a, b with
    | [], [] => true
    | x :: r, y :: t => Bool.eqb x y && same r t
    | _, _ => false
    end.

  (* set_layout: managercontroller.py 159-192, from what the parts gave. *)
  Definition set_layout (v : list bool) (m : mgr) : option mgr :=
    let m' := mkMgr true (exportable m) (port_info m) v (exports m) (choices m) (current m) in
    if negb (ready m) || negb (same v (visible m))
    then match refresh m' with Some m'' => update_block_endpoints m'' | None => None end
    else Some m'.

  (* exports.set_value: managercontroller.py 201, 538: the ValueError of a source that is not a
     choice leaves things as they are. *)
  Definition valid (m : mgr) (v : list (string * string)) : bool :=
    forallb (fun r => smem (fst r) (choices m)) v.
  (* managercontroller.py 201, 538. *)
  Definition put_exports (v : list (string * string)) (m : mgr) : mgr :=
    mkMgr (ready m) (exportable m) (port_info m) (visible m) v (choices m) (current m).

  (* set_exports: managercontroller.py 194-203. *)
  Definition set_exports (v : list (string * string)) (m : mgr) : option mgr :=
    if forallb (fun r => Reg_Model.camel (snd r)) v && valid m v
    then update_block_endpoints (put_exports v m)
    else Some m.

  (* What happens: a report of a part, a new layout, a put to exports; in do_load
     (managercontroller.py 506-550) after the layout the exports of the design, and at its end
     _mark_clean (552-564).  A load that fails goes to Fault without _mark_clean. *)
  Inductive op :=
  | Report (part : string) (i : list string * list (string * pinfo))
  | Layout (v : list bool) | Exports (v : list (string * string))
  | LoadExports (v : list (string * string)) | MarkClean.

  (* One of them: managercontroller.py 159-203, 247-273, 506-564. *)
  Definition step (m : mgr) (o : op) : option mgr :=
    match o with
    | Report p i => report p i m
    | Layout v => set_layout v m
    | Exports v => set_exports v m
    | LoadExports v => Some (if valid m v then put_exports v m else m)
    | MarkClean => update_block_endpoints m
    end.

  (* A history; None is an exception that nothing foresees: managercontroller.py 159-564. *)
  Fixpoint run (m : mgr) (os : list op) : option mgr :=
    match os with
    | [] => Some m
    | o :: r => match step m o with Some m' => run m' r | None => None end
    end.
End mgr.
