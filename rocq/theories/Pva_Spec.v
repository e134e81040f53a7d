(* What C84 and C85 say, apart from the model. *)
From Coq Require Import String Bool ZArith List.
From Verif Require Import Base Pva_Model.
Import ListNotations.
Local Open Scope string_scope.
Local Open Scope list_scope.

(* How a client sees a value of Python: numbers with the pvAccess type of their Python type, enums by
   their value, alarm codes as int32, dicts with their items in order. *)
Definition pva_type (t : string) : string :=
  if smem t ["np.bool_"; "bool"] then "?" else if smem t ["np.int64"; "int"] then "l"
  else if smem t ["np.float64"; "float"] then "d" else if String.eqb t "np.int8" then "b"
  else if String.eqb t "np.uint8" then "B" else if String.eqb t "np.int16" then "h"
  else if String.eqb t "np.uint16" then "H" else if String.eqb t "np.int32" then "i"
  else if String.eqb t "np.uint32" then "I" else if String.eqb t "np.uint64" then "L"
  else if String.eqb t "np.float32" then "f" else if String.eqb t "str" then "s" else "".
Definition typeid (fs : list (string * py)) : option string :=
  match dget "typeid" fs with Some (YStr i) => if String.eqb i "structure" then None else Some i | _ => None end.
Fixpoint seen (y : py) : out :=
  match y with
  | YNum t n => ONum (pva_type t) n
  | YStr s | YEnum s => OStr s
  | YSev n => ONum "i" n
  | YArrEnum l => OArr "s" (Strs l)
  | YArr t l | YNd _ t l => OArr (pva_type t) l
  | YArrObj l | YList l => OList (map seen l)
  | YDict fs => ODict (typeid fs) (flat_map (fun kv => if String.eqb (fst kv) "typeid" then [] else [(fst kv, seen (snd kv))]) fs)
  | YNone => ODict None []
  end.

(* The values that can be sent. *)
Definition is_table (fs : list (string * py)) : Prop := typeid fs = Some "epics:nt/NTTable:1.0".
Fixpoint sendable (y : py) : Prop :=
  let objects := fix objects (l : list py) : Prop :=
    match l with [] => True | x :: r => (match x with YNone => True | YDict _ => sendable x | _ => False end) /\ objects r end in
  let fields := fix fields (fs : list (string * py)) : Prop :=
    match fs with [] => True | (k, x) :: r => (k = "typeid" \/ sendable x) /\ fields r end in
  match y with
  | YNum t _ => pva_type t <> ""
  | YStr _ | YEnum _ | YSev _ | YArrEnum _ => True
  | YArr t _ => pva_type t <> ""
  | YNd d t _ => d = 1 /\ pva_type t <> ""
  | YArrObj l | YList l => objects l
  | YDict fs =>
      fields fs /\ NoDup (filter (fun k => negb (String.eqb k "typeid")) (map fst fs))
      /\ (forall x, dget "typeid" fs = Some x -> exists i, x = YStr i)
      /\ (is_table fs -> ~ In "labels" (map fst fs)
          /\ exists ms es, dget "meta" fs = Some (YDict ms) /\ dget "elements" ms = Some (YDict es)
             /\ forall k e, In (k, e) es -> exists cs s, e = YDict cs /\ dget "label" cs = Some (YStr s))
  | YNone => False
  end.

(* An item of a dict, by its path; a dict with an item replaced. *)
Fixpoint oget (o : out) (p : list string) : option out :=
  match p with
  | [] => Some o
  | k :: r => match o with ODict _ fs => match dget k fs with Some x => oget x r | None => None end | _ => None end
  end.
Fixpoint yget (y : py) (p : list string) : option py :=
  match p with
  | [] => Some y
  | k :: r => match y with YDict fs => match dget k fs with Some x => yget x r | None => None end | _ => None end
  end.
Fixpoint oput (p : list string) (x o : out) : out :=
  match p with
  | [] => x
  | k :: r => match o with
              | ODict id fs => match dget k fs with Some c => ODict id (dset k (oput r x c) fs) | None => o end
              | _ => o
              end
  end.
(* The block after a change: an item replaced, a new one put last, or deleted. *)
Fixpoint ychange (p : list string) (x : option py) (y : py) : py :=
  match p with
  | [] => match x with Some x => x | None => y end
  | k :: r => match y with
              | YDict fs => match r, x with
                            | [], None => YDict (ddel k fs)
                            | [], Some x => YDict (dset k x fs)
                            | _, _ => match dget k fs with Some c => YDict (dset k (ychange r x c) fs) | None => y end
                            end
              | _ => y
              end
  end.
Definition ychanges (cs : list change) (y : py) : py := fold_left (fun y c => ychange (fst c) (snd c) y) cs y.

(* Two values of the same type. *)
Fixpoint osame (a b : out) : Prop :=
  match a, b with
  | ONum s _, ONum s' _ => s = s'
  | OStr _, OStr _ => True
  | OArr s _, OArr s' _ => s = s'
  | OList _, OList _ => True
  | ODict i fs, ODict j gs =>
      i = j /\ (fix all (fs gs : list (string * out)) : Prop :=
                  match fs, gs with
                  | [], [] => True
                  | (k, x) :: r, (l, y) :: s => k = l /\ osame x y /\ all r s
                  | _, _ => False
                  end) fs gs
  | _, _ => False
  end.

(* A change that keeps all types: something that is there is given a value of the same type that can be
   sent. *)
Definition keeps (block : py) (c : change) : Prop :=
  match c with
  | (p, Some u) => p <> [] /\ ~ In "typeid" p /\ sendable u /\ exists old, oget (seen block) p = Some old /\ osame (seen u) old
  | _ => False
  end.
(* A change that adds something, replaces all, or deletes something. *)
Definition reshapes (block : py) (c : change) : Prop :=
  match c with
  | (_, None) => True
  | (p, Some u) => p = [] \/ oget (seen block) p = None /\ ~ In "typeid" p /\ ~ In "labels" p
  end.
