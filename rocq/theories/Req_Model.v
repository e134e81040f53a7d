(* Model of how a block answers requests: /repo/malcolm/core/controller.py 129-281 (with
   request.py, response.py). *)
From Coq Require Import String Bool Lia List.
From Verif Require Import Base Meta_Model.
Import ListNotations.
Local Open Scope list_scope.

(* request.py 59-63: (callback, id) *)
Notation key := (nat * nat)%type.
(* models.py 1213-1231, the took and returned logs of a method: their value and whether the
   alarm is ok (time stamps and `present` are left out) *)
Record mlog := mkLog { l_value : list (string * pv); l_ok : bool }.
(* What a block has under a name (models.py 1279-1309): an AttributeModel (meta.writeable,
   meta.validate, value), a MethodModel (its identity as a Python object, meta.writeable, takes,
   returns, the tag of method_return_unpacked, took, returned), or its BlockMeta.  Alarms and time stamps of
   attributes are left out *)
Inductive field :=
| FAttr (writeable : bool) (validate : pv -> result exn pv) (value : pv)
| FMeth (oid : nat) (writeable : bool) (takes returns : map_meta) (unpacked : bool) (took returned : mlog)
| FMeta.
(* what can be raised and becomes an Error response (controller.py, and Python itself);
   Raised n: by the function of the field: controller.py 129-281 *)
Inductive rexn :=
| NoSuchPath | FieldErr | NotWriteable | WrongKind | NoFunction | NoName | KeyErr
| Rejected (e : exn) | BadResult | Raised (n : nat).

(* request.py 66-150.  A path is without the mri; Get: what reading at the path gives is in
   r_read below *)
Inductive request :=
| Get (k : key) (p : list string)
| Put (k : key) (p : list string) (v : pv) (get : bool)
| Post (k : key) (p : list string) (params : list (string * pv))
| Subscribe (k : key) (p : list string) (delta : bool)
| Unsubscribe (k : key).
(* response.py 25-63 *)
Inductive response := Return (v : option pv) | Error (e : rexn) | Update | Delta.
(* what can be seen: a response given to a callback with an id; the function of a field
   starting, with its arguments: controller.py 129-153 *)
Inductive event := Answer (k : key) (r : response) | Ran (n : string) (args : list (string * pv)).

(* a Put or Post whose function is running: controller.py 200-201, 263-264; method: the local
   variable of 245 *)
Inductive job :=
| JPut (k : key) (n : string) (get : bool)
| JPost (k : key) (n : string) (took : list (string * pv)) (method : field).
(* the block, the names that have a write function (controller.py 55), the keys of the
   subscriptions (notifier.py 58), the functions running.  Reading (155-174): the value at a
   path, None: it raises (KeyError, 163-171, or what an object without items raises) *)
Record st := mkS {
  r_block : list (string * field);
  r_funcs : list string;
  r_subs : list key;
  r_jobs : list job
}.

(* controller.py 183-199, _handle_put up to the call: the name, the value for the function *)
Definition put_check (s : st) (p : list string) (v : pv) : result rexn (string * pv) :=
  match p with
  | [] => Err NoName  (* request.path[1]: IndexError *)
  | n :: _ =>
    match dget n (r_block s) with
    | None => Err FieldErr
    | Some (FAttr w validate _) =>
      if w then
        if smem n (r_funcs s) then
          match validate v with Ok x => Ok (n, x) | Err e => Err (Rejected e) end
        else Err NoFunction
      else Err NotWriteable
    | Some _ => Err WrongKind
    end
  end.
(* controller.py 240-257, _handle_post up to the call *)
Definition post_check (s : st) (p : list string) (ps : list (string * pv))
  : result rexn (string * list (string * pv) * field) :=
  match p with
  | [] => Err NoName
  | n :: _ =>
    match dget n (r_block s) with
    | None => Err FieldErr
    | Some (FMeth _ w takes _ _ _ _ as f) =>
      if w then
        if smem n (r_funcs s) then
          match validate_map takes ps false with Ok x => Ok (n, x, f) | Err e => Err (Rejected e) end
        else Err NoFunction
      else Err NotWriteable
    | Some _ => Err WrongKind
    end
  end.

(* how a function ends: returns (None is None), or raises: controller.py 183-281 *)
Inductive ended := FReturn (v : option pv) | FRaise (n : nat).

(* controller.py 203-211 *)
Definition put_done (s : st) (n : string) (get : bool) (e : ended) : response :=
  match e with
  | FRaise x => Error (Raised x)
  | FReturn v =>
    if get then
      match v with
      | Some x => Return (Some x)
      | None => match dget n (r_block s) with
                | Some (FAttr _ _ x) => Return (Some x)
                | Some _ => Error WrongKind  (* no attribute value *)
                | None => Error KeyErr
                end
      end
    else Return None
  end.
(* controller.py 262-274: returned_value; None: what is returned is not a mapping, so that
   validating it raises.  Objects that serialize to a dict are taken as that dict *)
Definition returned_of (unpacked : bool) (e : ended) : option (list (string * pv)) :=
  match e with
  | FRaise _ => Some []
  | FReturn v =>
    if unpacked then Some [("return"%string, match v with Some x => x | None => PNone end)]
    else match v with
         | None => Some []
         | Some (PDict d) => Some d
         | Some _ => None
         end
  end.
(* controller.py 217-238, update_method_logs: the field afterwards, and what it raises *)
Definition update_logs (f : field) (took : list (string * pv)) (e : ended) : field * option rexn :=
  match f with
  | FMeth o w takes returns u tk rt =>
    match validate_map takes took true with
    | Err x => (f, Some (Rejected x))
    | Ok tv =>
      let f' := FMeth o w takes returns u (mkLog tv true) rt in
      match returned_of u e with
      | None => (f', Some BadResult)
      | Some d =>
        match validate_map returns d true with
        | Err x => (f', Some (Rejected x))
        | Ok rv => (FMeth o w takes returns u (mkLog tv true)
                      (mkLog rv (match e with FRaise _ => false | _ => true end)), None)
        end
      end
    end
  | _ => (f, None)
  end.
(* the same Python object: `method` of 245 is still what the block has under its name:
   controller.py 240-281 *)
Definition same_object (f g : field) : bool :=
  match f, g with FMeth a _ _ _ _ _ _, FMeth b _ _ _ _ _ _ => Nat.eqb a b | _, _ => false end.
(* controller.py 262-281: the block afterwards and the response.  The logs are set in the object
   `method` of 245, which is the field of the block unless that has been taken out or replaced
   while it ran; simplification: an object not in the block any more is as it was then *)
Definition post_done (s : st) (n : string) (took : list (string * pv)) (method : field) (e : ended)
  : list (string * field) * response :=
  let kept := match dget n (r_block s) with
              | Some f => if same_object method f then Some f else None
              | None => None
              end in
  let (m', x) := update_logs (match kept with Some f => f | None => method end) took e in
  (match kept with Some _ => dset n m' (r_block s) | None => r_block s end,
   match x with
   | Some err => Error err
   | None => match e with FRaise i => Error (Raised i) | FReturn v => Return v end
   end).

(* equality of keys: request.py 59-63 *)
Definition key_eqb (a b : key) : bool := Nat.eqb (fst a) (fst b) && Nat.eqb (snd a) (snd b).

(* one step.  Handle: a request, up to its response or to the start of its function (the lock
   is held, 131); End i: the i-th function running ends, the rest of the handler (lock taken
   again); World: anything done to the block by other code (functions of fields, updates of
   parts), under the lock.  read: what reading at a path gives: controller.py 129-281 *)
Inductive op :=
| Handle (r : request)
| End (i : nat) (e : ended)
| World (b : list (string * field)) (fs : list string).

(* take out the i-th (list.pop): controller.py 129-281 *)
Definition without {A} (i : nat) (l : list A) : list A := firstn i l ++ skipn (S i) l.

(* controller.py 129-153 _handle_request; notifier.py 61-72 for the two kinds of
   subscriptions (the tree is in Notify_Model) *)
Definition step (read : list (string * field) -> list string -> option pv) (s : st) (o : op)
  : st * list event :=
  match o with
  | World b fs => (mkS b fs (r_subs s) (r_jobs s), [])
  | Handle (Get k p) =>
    (s, [Answer k (match read (r_block s) p with Some v => Return (Some v) | None => Error NoSuchPath end)])
  | Handle (Put k p v get) =>
    match put_check s p v with
    | Err e => (s, [Answer k (Error e)])
    | Ok (n, x) => (mkS (r_block s) (r_funcs s) (r_subs s) (r_jobs s ++ [JPut k n get]), [Ran n [("value"%string, x)]])
    end
  | Handle (Post k p ps) =>
    match post_check s p ps with
    | Err e => (s, [Answer k (Error e)])
    | Ok (n, x, f) => (mkS (r_block s) (r_funcs s) (r_subs s) (r_jobs s ++ [JPost k n x f]), [Ran n x])
    end
  | Handle (Subscribe k p d) =>
    (mkS (r_block s) (r_funcs s) (if existsb (key_eqb k) (r_subs s) then r_subs s else r_subs s ++ [k]) (r_jobs s),
     [Answer k (if d then Delta else Update)])
  | Handle (Unsubscribe k) =>
    if existsb (key_eqb k) (r_subs s)
    then (mkS (r_block s) (r_funcs s) (filter (fun k' => negb (key_eqb k k')) (r_subs s)) (r_jobs s), [Answer k (Return None)])
    else (s, [Answer k (Error KeyErr)])
  | End i e =>
    match nth_error (r_jobs s) i with
    | None => (s, [])
    | Some (JPut k n get) =>
      (mkS (r_block s) (r_funcs s) (r_subs s) (without i (r_jobs s)), [Answer k (put_done s n get e)])
    | Some (JPost k n took f) =>
      let (b, r) := post_done s n took f e in
      (mkS b (r_funcs s) (r_subs s) (without i (r_jobs s)), [Answer k r])
    end
  end.
(* a history: controller.py 129-281 *)
Fixpoint run (read : list (string * field) -> list string -> option pv) (s : st) (os : list op) : st * list event :=
  match os with
  | [] => (s, [])
  | o :: r => let (s', e) := step read s o in let (s'', es) := run read s' r in (s'', e ++ es)
  end.
