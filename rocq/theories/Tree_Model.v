(* Models, their notifiers and paths: core/models.py 45-129 (Model) and 1278-1320 (BlockModel).
   Objects have an identity (their number), as the same Model can be put in two places. *)
From Coq Require Import String Bool ZArith List.
From Verif Require Import Base.
Import ListNotations.
Local Open Scope string_scope.
Local Open Scope list_scope.

(* The data that is not a Model: a value, or the array of names in BlockMeta.fields
   (models.py 1260-1275). *)
Inductive data := DVal (v : Z) | DNames (l : list string).

(* call_types of a class: plain data or Array, a Model, or a Mapping to Models
   (models.py 67-76, 84-123).  Classes are numbered by level: a class only declares children of a
   lower level (Display 0, NumberMeta with its Display and other VMetas 1, TableMeta 2, MapMeta and
   AttributeModel 3, MethodMeta 4, MethodModel 5, BlockModel 6: models.py 575, 641-645, 851, 995,
   289, 1058, 1213, 1279).  check_type 40-42 is modelled as: the level is not above the declared
   one, which accepts more than isinstance does. *)
Inductive ct := CData | CModel (level : nat) | CMap (level : nat).

(* A value of an attribute of a Model: models.py 126. *)
Inductive field := FData (d : data) | FModel (i : nat) | FMap (m : dict nat).

(* An instance of Model: notifier (None is the DummyNotifier of the class), path, call_types and
   the attributes set so far (models.py 45-48).  [o_block]: it is a BlockModel. *)
Record obj := mkObj {
  o_block : bool; o_level : nat; o_not : option nat; o_path : list string;
  o_types : dict ct; o_fields : dict field }.

(* The objects of the process (Python semantics); numbers not yet given out hold an empty object:
   core/models.py 45-129. *)
Definition heap := nat -> obj.
(* No object yet (Python semantics): core/models.py 45-129. *)
Definition blank : obj := mkObj false 0 None [] [] [].
(* Assignment to attributes of one object (Python semantics): core/models.py 45-129. *)
Definition upd (h : heap) (x : nat) (o : obj) : heap := fun y => if Nat.eqb y x then o else h y.

(* self.notifier = notifier; self.path = path: models.py 64-65. *)
Definition with_notifier (n : option nat) (p : list string) (o : obj) : obj :=
  mkObj (o_block o) (o_level o) n p (o_types o) (o_fields o).
(* setattr(self, name, value): models.py 126, 1305; delattr: 1318. *)
Definition with_field (name : string) (f : option field) (o : obj) : obj :=
  mkObj (o_block o) (o_level o) (o_not o) (o_path o) (o_types o)
        (match f with Some f => dset name f (o_fields o) | None => ddel name (o_fields o) end).
(* self.call_types[name] = anno and call_types.pop(name): models.py 1303, 1317. *)
Definition with_types (t : dict ct) (o : obj) : obj :=
  mkObj (o_block o) (o_level o) (o_not o) (o_path o) t (o_fields o).

(* The child Models in one attribute with the end of their path: models.py 67-76, 110-121. *)
Definition fkids (name : string) (f : field) : list (list string * nat) :=
  match f with
  | FData _ => []
  | FModel c => [([name], c)]
  | FMap m => map (fun kc => ([name; fst kc], snd kc)) m
  end.
(* All child Models: the loop of models.py 67-76.  Attributes that are declared but not set yet
   are passed over (getattr would raise; __init__ sets them all). *)
Definition kids (o : obj) : list (list string * nat) :=
  flat_map (fun nf => fkids (fst nf) (snd nf)) (o_fields o).

(* A loop that ends with the first exception; what was done before stays done (Python semantics):
   core/models.py 50-76, 78-129. *)
Fixpoint each (f : heap -> list string * nat -> heap * bool) (l : list (list string * nat)) (h : heap)
  : heap * bool :=
  match l with
  | [] => (h, true)
  | c :: r => match f h c with (h', true) => each f r h' | e => e end
  end.

(* Model.set_notifier_path: models.py 50-76; false is the AssertionError.  The recursion goes down
   the levels, [fuel] is a level (C50_fuel: enough is enough). *)
Fixpoint snp (fuel : nat) (h : heap) (x : nat) (n : option nat) (p : list string) : heap * bool :=
  match fuel with
  | O => (h, false)
  | S fuel' =>
      match o_not (h x), n with
      | Some _, Some _ => (h, false)
      | _, _ => each (fun h' sc => snp fuel' h' (snd sc) n (p ++ fst sc)) (kids (h x))
                     (upd h x (with_notifier n p (h x)))
      end
  end.
(* The call of it on an object: models.py 50-76. *)
Definition set_notifier_path (h : heap) (x : nat) (n : option nat) (p : list string) : heap * bool :=
  snp (S (o_level (h x))) h x n p.

(* v.set_notifier_path(Model.notifier, []) for the old ones: models.py 108-111,
   118-120, 1300, 1316. *)
Definition detach_all (l : list (list string * nat)) (h : heap) : heap * bool :=
  each (fun h' sc => set_notifier_path h' (snd sc) None []) l h.
(* v.set_notifier_path(self.notifier, self.path + [name, k]) for the new ones: models.py 112-113,
   121, 1304. *)
Definition attach_all (x : nat) (l : list (list string * nat)) (h : heap) : heap * bool :=
  each (fun h' sc => set_notifier_path h' (snd sc) (o_not (h' x)) (o_path (h' x) ++ fst sc)) l h.

(* A value given to set_endpoint_data: models.py 78. *)
Inductive value := VData (d : data) | VModel (i : nat) | VMap (m : dict nat).
(* The attribute it becomes: models.py 126. *)
Definition field_of (v : value) : field :=
  match v with VData d => FData d | VModel i => FModel i | VMap m => FMap m end.

(* An entry of Notifier._squashed_changes with its notifier: the absolute path and the data, None
   for a delete (notifier.py 84-101; Notifier drops the head of the path, which is the mri). *)
Definition change := (nat * list string * option value)%type.
(* self.notifier.add_squashed_change / add_squashed_delete: models.py 128, 1307, 1320; the
   DummyNotifier drops it (notifier.py 19-30). *)
Definition tell (o : obj) (name : string) (v : option value) : list change :=
  match o_not o with Some n => [(n, o_path o ++ [name], v)] | None => [] end.

(* ValueError, AttributeError, AssertionError, KeyError: core/models.py 78-129, 1287-1320. *)
Inductive terr := EBad.

(* The end of set_endpoint_data: models.py 124-129. *)
Definition store (h : heap) (x : nat) (name : string) (v : value) : heap * result terr (list change) :=
  (upd h x (with_field name (Some (field_of v)) (h x)), Ok (tell (h x) name (Some v))).

(* The children under the old value: getattr(self, name, {}) and getattr(self, name, None),
   models.py 108, 118. *)
Definition olds (h : heap) (x : nat) (name : string) : list (list string * nat) :=
  match dget name (o_fields (h x)) with Some f => fkids name f | None => [] end.

(* Model.set_endpoint_data: models.py 78-129.  Arrays of Models (88-90) do not exist. *)
Definition set_data (h : heap) (x : nat) (name : string) (v : value) : heap * result terr (list change) :=
  match dget name (o_types (h x)), v with
  | None, _ => (h, Err EBad)
  | Some CData, VData _ => store h x name v
  | Some CData, _ => (h, Err EBad)
  | Some (CMap l), VMap m =>
      if forallb (fun kc => Nat.leb (o_level (h (snd kc))) l) m then
        match detach_all (olds h x name) h with
        | (h1, true) => match attach_all x (fkids name (FMap m)) h1 with
                        | (h2, true) => store h2 x name v
                        | (h2, false) => (h2, Err EBad)
                        end
        | (h1, false) => (h1, Err EBad)
        end
      else (h, Err EBad)
  | Some (CMap _), _ => (h, Err EBad)
  | Some (CModel l), VModel i =>
      match detach_all (olds h x name) h with
      | (h1, true) => match attach_all x [([name], i)] h1 with
                      | (h2, true) => if Nat.leb (o_level (h2 i)) l then store h2 x name v else (h2, Err EBad)
                      | (h2, false) => (h2, Err EBad)
                      end
      | (h1, false) => (h1, Err EBad)
      end
  | Some (CModel _), _ => (fst (detach_all (olds h x name) h), Err EBad)
  end.

(* BlockModel._update_fields: models.py 1311-1312, with set_fields 1274-1275. *)
Definition update_fields (h : heap) (b : nat) : heap * result terr (list change) :=
  match dget "meta" (o_fields (h b)) with
  | Some (FModel m) =>
      set_data h m "fields" (VData (DNames (filter (fun k => negb (String.eqb k "meta")) (dkeys (o_types (h b))))))
  | _ => (h, Err EBad)
  end.

(* deserialize_object(value, BlockMeta) or (AttributeModel, MethodModel): models.py 1292-1296, for
   a value that is a Model already: not a block, and a BlockMeta has "fields". *)
Definition block_takes (h : heap) (name : string) (i : nat) : bool :=
  Nat.leb (o_level (h i)) 5 && (negb (String.eqb name "meta") || dmem "fields" (o_types (h i))).

(* BlockModel.set_endpoint_data: models.py 1287-1309. *)
Definition block_set (h : heap) (b : nat) (name : string) (i : nat) : heap * result terr (list change) :=
  if negb (block_takes h name i) then (h, Err EBad)
  else
    let r := if dmem name (o_types (h b))
             then match dget name (o_fields (h b)) with
                  | Some _ => detach_all (olds h b name) h
                  | None => (h, false)
                  end
             else (upd h b (with_types (dset name (CModel 5) (o_types (h b))) (h b)), true) in
    match r with
    | (h1, false) => (h1, Err EBad)
    | (h1, true) =>
        match attach_all b [([name], i)] h1 with
        | (h2, false) => (h2, Err EBad)
        | (h2, true) =>
            match store h2 b name (VModel i) with
            | (h3, Ok c1) => match update_fields h3 b with
                             | (h4, Ok c2) => (h4, Ok (c1 ++ c2))
                             | (h4, Err e) => (h4, Err e)
                             end
            | e => e
            end
        end
    end.

(* BlockModel.remove_endpoint: models.py 1314-1320; the two statements 1317 and 1318 are in the
   other order, once it is known that neither raises. *)
Definition block_remove (h : heap) (b : nat) (name : string) : heap * result terr (list change) :=
  match dget name (o_fields (h b)) with
  | None => (h, Err EBad)
  | Some _ =>
      match detach_all (olds h b name) h with
      | (h1, false) => (h1, Err EBad)
      | (h1, true) =>
          if negb (dmem name (o_types (h1 b))) then (h1, Err EBad)
          else
            let h2 := upd h1 b (with_field name None (h1 b)) in
            let h3 := upd h2 b (with_types (ddel name (o_types (h2 b))) (h2 b)) in
            match update_fields h3 b with
            | (h4, Ok c) => (h4, Ok (c ++ tell (h4 b) name None))
            | e => e
            end
      end
  end.

(* The whole: the objects, how many there are, and for each Notifier (they are numbered) the block
   it was made for and the mri (core/controller.py 49-54). *)
Record tstate := mkT { t_heap : heap; t_next : nat; t_roots : list (nat * (nat * string)) }.
(* At the start of the process there are none (Python semantics): core/models.py 45-129. *)
Definition tinit : tstate := mkT (fun _ => blank) 0 [].

(* What the code does with Models: make one with the call_types of its class (the attributes are
   then given by set_endpoint_data, as in the constructors, models.py 297-313, 1000-1004,
   1218-1223); make a BlockModel (1282-1285); make its Controller (core/controller.py 45-54);
   set_endpoint_data and remove_endpoint. *)
Inductive top :=
| TNew (level : nat) (types : dict ct)
| TBlock
| TPublish (b : nat) (mri : string)
| TSet (x : nat) (name : string) (v : value)
| TBlockSet (b : nat) (name : string) (i : nat)
| TRemove (b : nat) (name : string).

(* A class declares children of lower levels only (see [ct]), each name once: core/models.py 50-76. *)
Definition below (level : nat) (c : ct) : bool :=
  match c with CData => true | CModel l | CMap l => Nat.ltb l level end.
(* Keys of a dict are distinct (Python dict semantics): core/models.py 78-129. *)
Fixpoint distinct (l : list string) : bool :=
  match l with [] => true | x :: r => negb (smem x r) && distinct r end.
(* BlockMeta.__init__, its call_types: models.py 1260-1272. *)
Definition block_meta : obj :=
  mkObj false 2 None [] [("description", CData); ("tags", CData); ("writeable", CData); ("label", CData);
                         ("fields", CData)] [].
(* The objects in a value: an object that does not exist cannot be given (Python semantics):
   core/models.py 78-129. *)
Definition value_ids (v : value) : list nat :=
  match v with VData _ => [] | VModel i => [i] | VMap m => map snd m end.
(* Likewise, and dict keys are distinct (Python semantics): core/models.py 78-129. *)
Definition value_ok (s : tstate) (v : value) : bool :=
  forallb (fun i => Nat.ltb i (t_next s)) (value_ids v) &&
  match v with VMap m => distinct (dkeys m) | _ => true end.

(* The same state with other objects (models.py 45-48). *)
Definition with_heap (s : tstate) (h : heap) : tstate := mkT h (t_next s) (t_roots s).
(* Result of an operation on the objects (models.py 78-129, 1287-1320). *)
Definition lift (s : tstate) (r : heap * result terr (list change)) : tstate * result terr (list change) :=
  (with_heap s (fst r), snd r).

(* One operation: see [top].  A TSet on a block is a TBlockSet (the method is overridden):
   core/models.py 50-129, 1287-1320. *)
Definition tstep (s : tstate) (o : top) : tstate * result terr (list change) :=
  match o with
  | TNew level types =>
      if Nat.leb level 5 && forallb (fun nc => below level (snd nc)) types && distinct (dkeys types)
      then (mkT (upd (t_heap s) (t_next s) (mkObj false level None [] types [])) (S (t_next s)) (t_roots s), Ok [])
      else (s, Err EBad)
  | TBlock =>
      let b := t_next s in
      let h := upd (upd (t_heap s) b (mkObj true 6 None [] [] [])) (S b) block_meta in
      lift (mkT h (S (S b)) (t_roots s)) (block_set h b "meta" (S b))
  | TPublish b mri =>
      if o_block (t_heap s b) && Nat.ltb b (t_next s) then
        let n := length (t_roots s) in
        match set_notifier_path (t_heap s) b (Some n) [mri] with
        | (h, true) => (mkT h (t_next s) (t_roots s ++ [(n, (b, mri))]), Ok [])
        | (h, false) => (with_heap s h, Err EBad)
        end
      else (s, Err EBad)
  | TSet x name v =>
      if negb (o_block (t_heap s x)) && Nat.ltb x (t_next s) && value_ok s v
      then lift s (set_data (t_heap s) x name v) else (s, Err EBad)
  | TBlockSet b name i =>
      if o_block (t_heap s b) && Nat.ltb b (t_next s) && Nat.ltb i (t_next s)
      then lift s (block_set (t_heap s) b name i) else (s, Err EBad)
  | TRemove b name =>
      if o_block (t_heap s b) && Nat.ltb b (t_next s)
      then lift s (block_remove (t_heap s) b name) else (s, Err EBad)
  end.
