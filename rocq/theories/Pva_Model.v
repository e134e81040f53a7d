(* Values over pvAccess: pva/controllers/pvaconvert.py, and the server's copy of a block,
   pva/controllers/pvaservercomms.py 171-262.  p4p is an external library: its Type and Value are
   modelled as trees, see pv and assign. *)
From Coq Require Import String Bool Arith ZArith List.
From Verif Require Import Base.
Import ListNotations.
Local Open Scope string_scope.
Local Open Scope list_scope.

(* The values that convert_to_type_tuple_value tells apart (pvaconvert.py 37-98); numbers are kept
   as they are, as some Z.  YNum: a number or bool, with the name of its Python type.  YSev: an
   AlarmSeverity or AlarmStatus.  YEnum: a member of another Enum, by its value.  YArrEnum,
   YArrObj, YArr: an Array of an Enum, of objects, of something else; YArr of str holds strings,
   any other numbers.  YNd: a numpy array with its number of dimensions.  YList: a list.  YDict: a
   dict or an object with to_dict, whose typeid is read like an item. *)
Inductive items := Nums (l : list Z) | Strs (l : list string).
(* pvaconvert.py 37-98. *)
Inductive py :=
| YNum (typ : string) (n : Z) | YStr (s : string) | YEnum (s : string) | YSev (n : Z)
| YArrEnum (l : list string) | YArrObj (l : list py) | YArr (typ : string) (l : items)
| YNd (dims : nat) (typ : string) (l : items) | YList (l : list py) | YDict (fs : list (string * py))
| YNone.

(* type_specifiers: pvaconvert.py 15-34. *)
Definition type_specifiers : dict string :=
  [("np.bool_", "?"); ("np.int8", "b"); ("np.uint8", "B"); ("np.int16", "h"); ("np.uint16", "H");
   ("np.int32", "i"); ("np.uint32", "I"); ("np.int64", "l"); ("np.uint64", "L"); ("np.float32", "f");
   ("np.float64", "d"); ("str", "s"); ("bool", "?"); ("int", "l"); ("float", "d")].

(* A p4p Value (https://mdavidsaver.github.io/p4p/values.html): a scalar with its specifier, an
   array of a specifier, an array of variants (each a structure), a structure with its id:
   pvaconvert.py 118-143. *)
Inductive pv :=
| VNum (spec : string) (n : Z) | VStr (s : string) | VArr (spec : string) (l : items)
| VAv (l : list pv) | VStruct (id : string) (fs : list (string * pv)).

(* Type(fields, typeid) (external): the names of the fields must be different (RuntimeError):
   pvaconvert.py 37-98. *)
Fixpoint has_dup (l : list string) : bool := match l with [] => false | x :: r => smem x r || has_dup r end.
(* pvaconvert.py 37-98. *)
Definition make_struct (id : string) (fs : list (string * pv)) : option pv :=
  if has_dup (map fst fs) then None else Some (VStruct id fs).

(* value[k] of a dict (Python semantics): pvaconvert.py 37-98. *)
Definition item (k : string) (y : py) : option py := match y with YDict fs => dget k fs | _ => None end.
(* The labels of a table: pvaconvert.py 70-77; None is a KeyError. *)
Definition table_labels (y : py) : option (list string) :=
  match item "meta" y with
  | Some m => match item "elements" m with
              | Some (YDict es) =>
                  fold_right (fun e acc => match item "label" (snd e), acc with
                                           | Some (YStr l), Some r => Some ((if String.eqb l "" then fst e else l) :: r)
                                           | _, _ => None
                                           end) (Some []) es
              | _ => None
              end
  | None => None
  end.
(* NTTable.typeid: models.py 382. *)
Definition NTTable : string := "epics:nt/NTTable:1.0".

(* convert_to_type_tuple_value and convert_dict_to_value: pvaconvert.py 37-98, 118-128.  The type
   and the value to set are kept in one tree.  None is an exception: a type without a specifier, an
   array of more dimensions, a list of anything but dicts and Nones, a missing label of a table, a
   typeid that is not a string, a name used twice.  An element that is None becomes EMPTY
   (pvaconvert.py 12, 119-120).  Element by element as a local function, for the recursion. *)
Fixpoint conv (y : py) : option pv :=
  let elements := fix elements (l : list py) : option (list pv) :=
    match l with
    | [] => Some []
    | x :: r =>
        match (match x with YNone => Some (VStruct "structure" []) | YDict _ => conv x | _ => None end), elements r with
        | Some v, Some vs => Some (v :: vs)
        | _, _ => None
        end
    end in
  let fields := fix fields (fs : list (string * py)) : option (list (string * pv)) :=
    match fs with
    | [] => Some []
    | (k, x) :: r =>
        if String.eqb k "typeid" then fields r
        else match conv x, fields r with
             | Some v, Some vs => Some ((k, v) :: vs)
             | _, _ => None
             end
    end in
  match y with
  | YNum t n => match dget t type_specifiers with Some s => Some (VNum s n) | None => None end
  | YStr s => Some (VStr s)
  | YEnum s => Some (VStr s)
  | YSev n => Some (VNum "i" n)
  | YArrEnum l => Some (VArr "s" (Strs l))
  | YArrObj l => match elements l with Some vs => Some (VAv vs) | None => None end
  | YArr t l => match dget t type_specifiers with Some s => Some (VArr s l) | None => None end
  | YNd d t l => if Nat.eqb d 1 then match dget t type_specifiers with Some s => Some (VArr s l) | None => None end else None
  | YList l => match elements l with Some vs => Some (VAv vs) | None => None end
  | YDict fs =>
      match (match dget "typeid" fs with Some (YStr i) => Some i | Some _ => None | None => Some "structure" end), fields fs with
      | Some id, Some vs =>
          if String.eqb id NTTable
          then match table_labels y with Some ls => make_struct id (("labels", VArr "s" (Strs ls)) :: vs) | None => None end
          else make_struct id vs
      | _, _ => None
      end
  | YNone => None
  end.
(* convert_dict_to_value: pvaconvert.py 118-128. *)
Definition convert_dict_to_value (y : py) : option pv :=
  match y with YNone => Some (VStruct "structure" []) | YDict _ => conv y | _ => None end.

(* What convert_value_to_dict gives: native values of p4p, lists of dicts, dicts with the typeid (if
   any) kept apart from the items: pvaconvert.py 101-143. *)
Inductive out :=
| ONum (spec : string) (n : Z) | OStr (s : string) | OArr (spec : string) (l : items) | OList (l : list out)
| ODict (id : option string) (fs : list (string * out)).

(* convert_from_type_spec and convert_value_to_dict: pvaconvert.py 101-115, 131-143. *)
Fixpoint unconv (v : pv) : out :=
  match v with
  | VNum s n => ONum s n
  | VStr s => OStr s
  | VArr s l => OArr s l
  | VAv l => OList (map unconv l)
  | VStruct id fs =>
      ODict (if String.eqb id "structure" then None else Some id)
            (flat_map (fun kv => if String.eqb id NTTable && String.eqb (fst kv) "labels" then []
                                 else [(fst kv, unconv (snd kv))]) fs)
  end.

(* value[name] = x of p4p (external): a structure is set field by field from the items given, the
   others stay as they are, an item that is no field raises (None).  Here a value with another
   specifier raises as well; p4p would convert some: pvaservercomms.py 221-237. *)
Fixpoint assign (new old : pv) : option pv :=
  match new, old with
  | VNum s n, VNum s' _ => if String.eqb s s' then Some new else None
  | VStr _, VStr _ => Some new
  | VArr s _, VArr s' _ => if String.eqb s s' then Some new else None
  | VAv _, VAv _ => Some new
  | VStruct _ fs, VStruct id gs =>
      match (fix set_all (fs : list (string * pv)) (gs : dict pv) : option (dict pv) :=
               match fs with
               | [] => Some gs
               | (k, x) :: r => match dget k gs with
                                | None => None
                                | Some o => match assign x o with
                                            | Some o' => set_all r (dset k o' gs)
                                            | None => None
                                            end
                                end
               end) fs gs with
      | Some gs' => Some (VStruct id gs')
      | None => None
      end
  | _, _ => None
  end.

(* update_path: pvaconvert.py 146-150; None is an exception.  [path] is not empty. *)
Fixpoint update_path (value : pv) (path : list string) (update : pv) : option pv :=
  match value, path with
  | VStruct id fs, [p] =>
      match dget p fs with
      | Some o => match assign update o with Some o' => Some (VStruct id (dset p o' fs)) | None => None end
      | None => None
      end
  | VStruct id fs, p :: rest =>
      match dget p fs with
      | Some o => match update_path o rest update with Some o' => Some (VStruct id (dset p o' fs)) | None => None end
      | None => None
      end
  | _, _ => None
  end.

(* ---- the server's copy ---- *)
(* A change of a Delta: a path with the new value, or without where it was deleted
   (core/response.py 49-74). *)
Definition change := (list string * option py)%type.
(* BlockHandler: pvaservercomms.py 33-40: self.pv is None (NoPv), or is set; then self.value and
   whether the pv is open. *)
Inductive handler := NoPv | Pv (value : option pv) (isopen : bool).
(* _create_initial_value: pvaservercomms.py 197-219; None is an exception.  put_paths is in
   Pva2_Model. *)
Definition create_initial (cs : list change) : option pv :=
  match cs with
  | [([], Some y)] => convert_dict_to_value y
  | _ => None
  end.
(* _update_value: pvaservercomms.py 221-235. *)
Fixpoint update_value (v : pv) (cs : list change) : option pv :=
  match cs with
  | [] => Some v
  | (path, Some u) :: r =>
      match path with
      | [] => None
      | _ => match conv u with
             | Some u' => match update_path v path u' with Some v' => update_value v' r | None => None end
             | None => None
             end
      end
  | (_, None) :: _ => None
  end.
(* handle, for a Delta: pvaservercomms.py 171-195.  After an exception the pv is closed; self.value
   may then be half updated, it is kept as it was here, as it is not looked at again until it is
   None. *)
Definition handle (cs : list change) (h : handler) : handler :=
  match h with
  | NoPv => NoPv
  | Pv None o => match create_initial cs with
                 | Some v => Pv (Some v) true
                 | None => Pv None false
                 end
  | Pv (Some v) true => match cs, update_value v cs with
                        | _ :: _, Some v' => Pv (Some v') true
                        | _, _ => Pv (Some v) false
                        end
  | Pv (Some v) false => h
  end.
(* onFirstConnect (239-249; the answer to the Subscribe is a Delta of the whole block, handled at
   once) and onLastDisconnect (253-262): pvaservercomms.py 239-262. *)
Definition first_connect (block : py) (h : handler) : handler :=
  match h with NoPv => handle [([], Some block)] (Pv None false) | _ => h end.
(* pvaservercomms.py 253-262. *)
Definition last_disconnect (h : handler) : handler := NoPv.
