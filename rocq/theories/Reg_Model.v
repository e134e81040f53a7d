(* Model of what keeps names unique: /repo/malcolm/core/process.py (controllers),
   core/controller.py (parts), core/part.py (fields), core/camel.py, and the fields of a manager
   block: builtin/controllers/managercontroller.py. *)
From Coq Require Import String Ascii Bool Arith List.
From Verif Require Import Base.
Import ListNotations.
Local Open Scope list_scope.

(* ---- process.py ---- *)
(* process.py 66-73: the controllers by mri (a controller is a number, its identity in Python),
   whether the process is running (state, 70; stopped is 0), those that have been set up *)
Record proc := mkProc { p_ctl : dict nat; p_running : bool; p_started : list nat }.
(* process.py 224-229, the loop of add_controllers: true: the assert raised *)
Fixpoint register (p : proc) (cs : list (string * nat)) : proc * bool :=
  match cs with
  | [] => (p, false)
  | (mri, c) :: r =>
    if dmem mri (p_ctl p) then (p, true)
    else register (mkProc (dset mri c (p_ctl p)) (p_running p) (p_started p)) r
  end.
(* process.py 75-87 start, 160-187 stop, 214-233 add_controllers.  Publishing is left out *)
Inductive pop := Start | Stop | AddControllers (cs : list (string * nat)).
(* one of them; true: an assert raised: process.py 214-244 *)
Definition pstep (p : proc) (o : pop) : proc * bool :=
  match o with
  | Start => if p_running p then (p, true) else (mkProc (p_ctl p) true (p_started p ++ map snd (p_ctl p)), false)
  | Stop => if p_running p then (mkProc [] false (p_started p), false) else (p, true)
  | AddControllers cs =>
    let (p', raised) := register p cs in
    if raised then (p', true)
    else (mkProc (p_ctl p') (p_running p') (if p_running p' then p_started p' ++ map snd cs else p_started p'), false)
  end.
(* a history: process.py 160-244 *)
Fixpoint prun (p : proc) (os : list pop) : proc :=
  match os with [] => p | o :: r => prun (fst (pstep p o)) r end.
(* process.py 249-254 *)
Definition get_controller (p : proc) (mri : string) : option nat := dget mri (p_ctl p).

(* ---- camel.py ---- *)
(* camel.py 3, the classes of characters: core/camel.py 3 *)
Definition lower (c : ascii) : bool := let n := nat_of_ascii c in Nat.leb 97 n && Nat.leb n 122.
(* ..: core/camel.py 3. *)
Definition upper (c : ascii) : bool := let n := nat_of_ascii c in Nat.leb 65 n && Nat.leb n 90.
(* ..: core/camel.py 3. *)
Definition digit (c : ascii) : bool := let n := nat_of_ascii c in Nat.leb 48 n && Nat.leb n 57.
(* camel.py 3, what follows the first character: lower case and digits, with upper case letters
   anywhere; a dollar also matches before a newline that ends the string (Python re): core/camel.py 3 *)
Fixpoint camel_rest (s : string) : bool :=
  match s with
  | EmptyString => true
  | String c r => if lower c || upper c || digit c then camel_rest r
                  else match r with EmptyString => Nat.eqb (nat_of_ascii c) 10 | _ => false end
  end.
(* camel.py 3, CAMEL_RE.match: core/camel.py 3 *)
Definition camel (s : string) : bool :=
  match s with String c r => lower c && camel_rest r | EmptyString => false end.

(* ---- part.py, controller.py ---- *)
(* part.py 46-47: fields by owner (None: the controller, Some: a part, its identity), each a list
   of (name, field) *)
Notation registry := (list (option nat * list (string * nat))).
(* owners: equality: core/part.py 103-120 *)
Definition owner_eqb (a b : option nat) : bool :=
  match a, b with Some x, Some y => Nat.eqb x y | None, None => true | _, _ => false end.
(* part.py 119-120: self.fields.setdefault(owner, []).append(...) *)
Fixpoint append_to (o : option nat) (x : string * nat) (r : registry) : registry :=
  match r with
  | [] => [(o, [x])]
  | (o', l) :: t => if owner_eqb o o' then (o', l ++ [x]) :: t else (o', l) :: append_to o x t
  end.
(* part.py 103-120, _add_field: true: an assert raised *)
Definition add_field (r : registry) (o : option nat) (n : string) (f : nat) : registry * bool :=
  if camel n then
    if existsb (fun ol => existsb (fun x => String.eqb (fst x) n) (snd ol)) r then (r, true)
    else (append_to o (n, f) r, false)
  else (r, true).
(* part.py 49-54, get_field; None: ValueError *)
Fixpoint get_field (r : registry) (n : string) : option nat :=
  match r with
  | [] => None
  | (_, l) :: t => match find (fun x => String.eqb (fst x) n) l with
                   | Some x => Some (snd x)
                   | None => get_field t n
                   end
  end.
(* a controller: its parts by name, and the fields: core/controller.py 43-97 *)
Record ctl := mkCtl { c_parts : dict nat; c_fields : registry }.
(* the setup of a part: it adds its fields one after the other (part.py 103-120, 195-225) *)
Fixpoint add_fields (r : registry) (o : option nat) (l : list (string * nat)) : registry * bool :=
  match l with
  | [] => (r, false)
  | (n, f) :: t => let (r', x) := add_field r o n f in if x then (r', true) else add_fields r' o t
  end.
(* controller.py 62-67, add_part (the part does in setup what fs says) *)
Definition add_part (c : ctl) (name : string) (part : nat) (fs : list (string * nat)) : ctl * bool :=
  if dmem name (c_parts c) then (c, true)
  else let (r, x) := add_fields (c_fields c) (Some part) fs in
       if x then (mkCtl (c_parts c) r, true) else (mkCtl (dset name part (c_parts c)) r, false).
(* what is done to a controller: parts added, fields added later by the controller or a part:
   core/controller.py 63-97, core/part.py 103-120 *)
Inductive cop := AddPart (name : string) (part : nat) (fs : list (string * nat)) | AddField (o : option nat) (n : string) (f : nat).
(* one of them: core/controller.py 63-97, core/part.py 103-120 *)
Definition cstep (c : ctl) (o : cop) : ctl * bool :=
  match o with
  | AddPart name part fs => add_part c name part fs
  | AddField o n f => let (r, x) := add_field (c_fields c) o n f in (mkCtl (c_parts c) r, x)
  end.
(* a history: core/controller.py 63-97, core/part.py 103-120 *)
Fixpoint crun (c : ctl) (os : list cop) : ctl :=
  match os with [] => c | o :: r => crun (fst (cstep c o)) r end.

(* ---- the fields of a block: models.py 1287-1320, managercontroller.py ---- *)
(* a block: its fields by name; the part fields and exports now published,
   _current_part_fields (managercontroller.py 84) *)
Record blk := mkBlk { b_fields : dict nat; b_current : list (string * nat) }.
(* models.py 1287-1308, set_endpoint_data, for all of the list (managercontroller.py 282-283) *)
Definition set_all (b : dict nat) (l : list (string * nat)) : dict nat :=
  fold_left (fun b x => dset (fst x) (snd x) b) l b.
(* models.py 1313-1319 remove_endpoint, for all (managercontroller.py 277-278): true: getattr
   raised *)
Fixpoint remove_all (b : dict nat) (l : list (string * nat)) : dict nat * bool :=
  match l with
  | [] => (b, false)
  | (n, _) :: r => if dmem n b then remove_all (ddel n b) r else (b, true)
  end.
(* managercontroller.py 275-283, update_block_endpoints; next: what _get_current_part_fields
   gives, the fields of parts that are not hidden and the exports (304-340), in that order *)
Definition update_block_endpoints (b : blk) (next : list (string * nat)) : blk * bool :=
  let (f, raised) := remove_all (b_fields b) (b_current b) in
  if raised then (mkBlk f (b_current b), true) else (mkBlk (set_all f next) next, false).
(* managercontroller.py 194-203, set_exports, with the fields of the parts and the exports
   (export name, field): the assert on the names, then update_block_endpoints *)
Definition set_exports (b : blk) (part_fields exports : list (string * nat)) : blk * bool :=
  if forallb (fun x => camel (fst x)) exports then update_block_endpoints b (part_fields ++ exports) else (b, true).
