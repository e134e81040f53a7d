(* What a user has in hand: views of blocks and fields (core/views.py), over the fields of BlockModels
   (core/models.py 45-65, 1278-1320) and the start of the handling of their requests (core/context.py,
   core/controller.py); the arguments of methods (core/part.py 56-90, core/controller.py 70-89). *)
From Coq Require Import String Ascii Bool ZArith List.
From Verif Require Import Base Reg_Model.
Import ListNotations.
Local Open Scope string_scope.
Local Open Scope list_scope.
Local Infix "+++" := String.append (at level 60, right associativity).

(* The exceptions met: core/views.py 37, 110, 177; core/controller.py 120, 190, 192; core/process.py
   get_controller (ValueError); core/request.py path. *)
Inductive verr := KeyErr | AttributeErr | AssertionErr | TypeErr | ValueErr | IndexErr | FieldErr.

(* ---- the models ---- *)
(* An AttributeModel with its value or a MethodModel with the names of meta.takes.elements in order:
   core/models.py 289-340, 1213-1245. *)
Inductive kind := KAttr (v : Z) | KMeth (takes : list string).
(* The model of a field: its notifier (false: the DummyNotifier of the class) and its path:
   core/models.py 45-48. *)
Record mdl := mkMdl { m_kind : kind; m_not : bool; m_path : list string }.
(* The BlockModel of a controller: the keys of call_types without "meta", and the attributes set under
   these names by setattr.  [b_broken]: the path or the notifier of the BlockModel was overwritten by a
   field of that name.  core/models.py 1278-1320. *)
Record blk := mkBlk { b_types : list string; b_attrs : dict nat; b_broken : bool }.
(* The models of the process (Python objects, by number) and its blocks by mri: core/models.py 45-48,
   core/process.py (_controllers). *)
Record st := mkSt { s_heap : nat -> mdl; s_blocks : dict blk }.

(* Assignment to attributes of one object (Python semantics): core/models.py 64-65. *)
Definition upd (h : nat -> mdl) (i : nat) (m : mdl) : nat -> mdl :=
  fun j => if Nat.eqb j i then m else h j.
(* i.set_notifier_path(Model.notifier, []): core/models.py 1300, 1316. *)
Definition detach (i : nat) (h : nat -> mdl) : nat -> mdl := upd h i (mkMdl (m_kind (h i)) false []).
(* i.set_notifier_path(self.notifier, self.path + [name]): core/models.py 50-65, 1304; None is the
   AssertionError of 60-63.  The children of the field (67-76) are in Tree_Model. *)
Definition attach (i : nat) (mri name : string) (h : nat -> mdl) : option (nat -> mdl) :=
  if m_not (h i) then None else Some (upd h i (mkMdl (m_kind (h i)) true [mri; name])).
(* The names of attributes of a BlockModel that it uses itself in set_endpoint_data: core/models.py
   46-47, 1298, 1304, 1307. *)
Definition own_of_model : list string := ["path"; "notifier"].

(* Replace the BlockModel of [mri] (the object is changed in place): core/models.py 1287-1320. *)
Definition with_block (s : st) (mri : string) (b : blk) (h : nat -> mdl) : st :=
  mkSt h (dset mri b (s_blocks s)).

(* BlockModel.set_endpoint_data of field [i] under [name]: core/models.py 1287-1309.  What was done before
   the exception stays done.  "meta" is refused by deserialize_object (1294).  After a field named path or
   notifier nothing more can be set or removed (simplification: the state stays as it is). *)
Definition set_field (s : st) (mri name : string) (i : nat) : st * result verr unit :=
  match dget mri (s_blocks s) with
  | None => (s, Err ValueErr)
  | Some b =>
      if b_broken b then (s, Err TypeErr)
      else if String.eqb name "meta" then (s, Err TypeErr)
      else
        let known := smem name (b_types b) in
        let types := if known then b_types b else b_types b ++ [name] in
        let old := if known then dget name (b_attrs b) else None in
        match known, old with
        | true, None => (s, Err AttributeErr)
        | _, _ =>
            let h1 := match old with Some j => detach j (s_heap s) | None => s_heap s end in
            match attach i mri name h1 with
            | None => (with_block s mri (mkBlk types (b_attrs b) false) h1, Err AssertionErr)
            | Some h2 =>
                let broken := smem name own_of_model in
                (with_block s mri (mkBlk types (dset name i (b_attrs b)) broken) h2,
                 if broken then Err TypeErr else Ok tt)
            end
        end
  end.

(* BlockModel.remove_endpoint: core/models.py 1314-1320. *)
Definition remove_field (s : st) (mri name : string) : st * result verr unit :=
  match dget mri (s_blocks s) with
  | None => (s, Err ValueErr)
  | Some b =>
      if b_broken b then (s, Err TypeErr)
      else match dget name (b_attrs b) with
           | None => (s, Err AttributeErr)
           | Some i =>
               (with_block s mri
                  (mkBlk (filter (fun k => negb (String.eqb k name)) (b_types b)) (ddel name (b_attrs b)) false)
                  (detach i (s_heap s)), Ok tt)
           end
  end.

(* A part sets the value of its attribute: core/models.py 341-367 (set_value; alarm and time are left
   out). *)
Definition set_value (s : st) (i : nat) (v : Z) : st :=
  match m_kind (s_heap s i) with
  | KAttr _ => mkSt (upd (s_heap s) i (mkMdl (KAttr v) (m_not (s_heap s i)) (m_path (s_heap s i)))) (s_blocks s)
  | KMeth _ => s
  end.

(* A new controller: core/controller.py 43-57. *)
Definition new_block (s : st) (mri : string) : st :=
  if dmem mri (s_blocks s) then s else mkSt (s_heap s) (dset mri (mkBlk [] [] false) (s_blocks s)).

(* What happens to the models: core/controller.py 43-94, core/models.py 341-367, 1287-1320. *)
Inductive op := ONew (mri : string) | OSet (mri name : string) (i : nat) | ORemove (mri name : string)
              | OValue (i : nat) (v : Z).
(* One of these, whether or not it raises: core/controller.py 43-94, core/models.py 341-367, 1287-1320. *)
Definition step (s : st) (o : op) : st :=
  match o with
  | ONew mri => new_block s mri
  | OSet mri n i => fst (set_field s mri n i)
  | ORemove mri n => fst (remove_field s mri n)
  | OValue i v => set_value s i v
  end.
(* A history: core/controller.py 43-94, core/models.py 341-367, 1287-1320. *)
Definition steps (s : st) (os : list op) : st := fold_left step os s.
(* Models made by the parts, not in a block yet; no blocks: core/models.py 45-48. *)
Definition start (kinds : nat -> kind) : st := mkSt (fun i => mkMdl (kinds i) false []) [].

(* ---- the view of a block ---- *)
(* self._data[name] (None is the BlockMeta): core/controller.py 120, 157-162.  Assumed of
   Serializable.__getitem__ (annotypes): the attribute of a name in call_types, and KeyError for any other
   name or when the attribute was never set. *)
Definition item (s : st) (mri name : string) : result verr (option nat) :=
  match dget mri (s_blocks s) with
  | None => Err ValueErr
  | Some b =>
      if String.eqb name "meta" then Ok None
      else if smem name (b_types b) then
        match dget name (b_attrs b) with Some i => Ok (Some i) | None => Err KeyErr end
      else Err KeyErr
  end.

(* A Block view: the mri of its _data, the names it has properties for, and the methods it has an _async
   function for: core/views.py 54-64, 141-166. *)
Record bview := mkView { v_mri : string; v_props : list string; v_async : list string }.

(* Whether isinstance(data[endpoint], MethodModel): core/views.py 147. *)
Definition is_method (s : st) (mri name : string) : bool :=
  match item s mri name with
  | Ok (Some i) => match m_kind (s_heap s i) with KMeth _ => true | KAttr _ => false end
  | _ => false
  end.

(* controller.block_view: core/controller.py 109-115, core/views.py 21-25, 54-64, 144-149.  With a property
   called typeid the assignment of line 22 raises AttributeError; data[endpoint] raises KeyError where the
   attribute was never set. *)
Definition block_view (s : st) (mri : string) : result verr bview :=
  match dget mri (s_blocks s) with
  | None => Err ValueErr
  | Some b =>
      if smem "typeid" (b_types b) then Err AttributeErr
      else if forallb (fun n => dmem n (b_attrs b)) (b_types b) then
        Ok (mkView mri ("meta" :: b_types b) (filter (is_method s mri) (b_types b)))
      else Err KeyErr
  end.

(* The attributes set on the view itself: core/views.py 22-25. *)
Definition instance_names : list string := ["typeid"; "_controller"; "_context"; "_data"].
(* The functions of View and Block (those of object, with their double underscores, are left out):
   core/views.py 30, 161, 168, 182, 188, 201. *)
Definition class_names : list string :=
  ["to_dict"; "_make_async_method"; "put_attribute_values_async"; "put_attribute_values";
   "when_value_matches"; "when_value_matches_async"].

(* What an attribute of the view is: a view of a field (of the model), of the meta, something of the view
   itself, or the async function of a method: core/views.py 141-166. *)
Inductive got := Field (i : nat) | Meta | Own (name : string) | Async (m : string).
(* make_view of data[name]: core/controller.py 117-122, core/context.py 63-66. *)
Definition child (s : st) (mri name : string) : result verr got :=
  match item s mri name with
  | Ok (Some i) => Ok (Field i)
  | Ok None => Ok Meta
  | Err e => Err e
  end.
(* The name of the async function: core/views.py 166. *)
Definition async_name (m : string) : string := m +++ "_async".

(* getattr(view, name), by the order of Python: properties of the class, attributes of the instance, other
   members of the class, __getattr__ (which is also asked after an AttributeError of a property, with the
   same result): core/views.py 43-64, 144-166. *)
Definition getattr (v : bview) (s : st) (name : string) : result verr got :=
  if smem name (v_props v) then child s (v_mri v) name
  else if String.eqb name "mri" then Ok (Own name)
  else if smem name instance_names then Ok (Own name)
  else match find (fun m => String.eqb name (async_name m)) (v_async v) with
       | Some m => Ok (Async m)
       | None => if smem name class_names then Ok (Own name) else child s (v_mri v) name
       end.

(* What item access gives: what getattr gives, or a KeyError that is returned: core/views.py 33-37. *)
Inductive itemv (A : Type) := Given (a : A) | KeyErrorObject.
Arguments Given {A} a.
Arguments KeyErrorObject {A}.
(* View.__getitem__ over getattr: core/views.py 33-37. *)
Definition getitem {A} (r : result verr A) : result verr (itemv A) :=
  match r with
  | Ok a => Ok (Given a)
  | Err AttributeErr => Ok KeyErrorObject
  | Err e => Err e
  end.

(* hasattr(view, name) (Python semantics: only AttributeError is caught): core/views.py 177. *)
Definition hasattr (v : bview) (s : st) (name : string) : result verr bool :=
  match getattr v s name with
  | Ok _ => Ok true
  | Err AttributeErr => Ok false
  | Err e => Err e
  end.

(* ---- views of other models ---- *)
(* The endpoints of AttributeModel and MethodModel: core/models.py 292, 1216. *)
Definition endpoints_of (k : kind) : list string :=
  match k with
  | KAttr _ => ["value"; "alarm"; "timeStamp"; "meta"]
  | KMeth _ => ["took"; "returned"; "meta"]
  end.
(* The properties of Attribute and Method: core/views.py 70, 74, 89, 96, 128, 132, 136. *)
Definition properties_of (k : kind) : list string :=
  match k with
  | KAttr _ => ["meta"; "value"; "alarm"; "timeStamp"]
  | KMeth _ => ["meta"; "took"; "returned"]
  end.
(* Their functions and that of View: core/views.py 30, 78, 82, 86, 107, 116, 123. *)
Definition functions_of (k : kind) : list string :=
  match k with
  | KAttr _ => ["put_value"; "put_value_async"; "subscribe_value"; "to_dict"]
  | KMeth _ => ["_add_positional_args"; "post"; "post_async"; "to_dict"]
  end.
(* getattr on a view without __getattr__: an endpoint of its data (true), or something of its own
   (false): core/views.py 13-64, 67-138. *)
Definition plain_getattr (props functions : list string) (name : string) : result verr bool :=
  if smem name props then Ok true
  else if smem name instance_names then Ok false
  else if smem name functions then Ok false
  else Err AttributeErr.
(* .. of the view of a field: core/views.py 67-138. *)
Definition field_getattr (k : kind) (name : string) : result verr bool :=
  plain_getattr (properties_of k) (functions_of k) name.
(* .. of the view of any other Model, with these endpoints (and none called typeid): core/views.py 54-64,
   231. *)
Definition model_getattr (endpoints : list string) (name : string) : result verr bool :=
  plain_getattr endpoints ["to_dict"] name.

(* ---- requests ---- *)
(* The controller and the rest of a path: core/context.py 87, core/process.py get_controller. *)
Definition controller_of (s : st) (path : list string) : result verr (string * list string) :=
  match path with
  | [] => Err IndexErr
  | mri :: rest => if dmem mri (s_blocks s) then Ok (mri, rest) else Err ValueErr
  end.
(* The field a Put or Post request is for: core/controller.py 183-194, 240-251.  Whether it is writeable and
   what is done with it is in Req_Model. *)
Definition target (s : st) (path : list string) (method : bool) : result verr nat :=
  match controller_of s path with
  | Err e => Err e
  | Ok (mri, []) => Err IndexErr
  | Ok (mri, name :: _) =>
      match item s mri name with
      | Ok (Some i) => match m_kind (s_heap s i), method with
                       | KAttr _, false | KMeth _, true => Ok i
                       | _, _ => Err AssertionErr
                       end
      | Ok None => Err AssertionErr
      | Err KeyErr => Err FieldErr
      | Err e => Err e
      end
  end.
(* The path of Attribute.put_value: core/views.py 80, 83. *)
Definition put_path (s : st) (i : nat) : list string := m_path (s_heap s i) ++ ["value"].
(* The path of Method.post: core/views.py 118, 125. *)
Definition post_path (s : st) (i : nat) : list string := m_path (s_heap s i).
(* Attribute.value: core/views.py 74-76 (None: it is not an attribute). *)
Definition read (s : st) (i : nat) : option Z :=
  match m_kind (s_heap s i) with KAttr v => Some v | KMeth _ => None end.

(* Block.put_attribute_values_async, the loop: the requests made (path and value) and how it ends:
   core/views.py 176-180. *)
Fixpoint put_loop (v : bview) (s : st) (items : list (string * Z))
  : list (list string * Z) * result verr unit :=
  match items with
  | [] => ([], Ok tt)
  | (a, x) :: r =>
      match hasattr v s a with
      | Ok true => let (ps, e) := put_loop v s r in (([v_mri v; a; "value"], x) :: ps, e)
      | Ok false => ([], Err AssertionErr)
      | Err e => ([], Err e)
      end
  end.
(* sorted(params.items()), one item put into its place (Python semantics; keys are different from each
   other): core/views.py 172. *)
Fixpoint insert_item (p : string * Z) (l : list (string * Z)) : list (string * Z) :=
  match l with
  | [] => [p]
  | q :: r => if String.leb (fst p) (fst q) then p :: l else q :: insert_item p r
  end.
(* sorted(params.items()): core/views.py 172. *)
Definition sort_items (l : list (string * Z)) : list (string * Z) := fold_right insert_item [] l.
(* Block.put_attribute_values_async; [plain]: type(params) is dict: core/views.py 168-180. *)
Definition put_attribute_values (v : bview) (s : st) (plain : bool) (params : list (string * Z))
  : list (list string * Z) * result verr unit :=
  put_loop v s (if plain then sort_items params else params).

(* ---- calling methods ---- *)
(* Method._add_positional_args, the loop over zip: core/views.py 107-114. *)
Fixpoint add_positional (elements : list string) (args : list Z) (kwargs : dict Z) : result verr (dict Z) :=
  match elements, args with
  | name :: es, x :: xs => if dmem name kwargs then Err AssertionErr
                           else add_positional es xs (dset name x kwargs)
  | _, _ => Ok kwargs
  end.
(* Method.post and post_async: the path and the parameters of the Post: core/views.py 116-126. *)
Definition post (s : st) (i : nat) (args : list Z) (kwargs : dict Z) : result verr (list string * dict Z) :=
  match m_kind (s_heap s i) with
  | KAttr _ => Err AttributeErr
  | KMeth takes => match add_positional takes args kwargs with
                   | Ok kw => Ok (post_path s i, kw)
                   | Err e => Err e
                   end
  end.
(* The async function of a block view: core/views.py 162-164. *)
Definition call_async (v : bview) (s : st) (m : string) (args : list Z) (kwargs : dict Z)
  : result verr (list string * dict Z) :=
  match getattr v s m with
  | Ok (Field i) => post s i args kwargs
  | Ok _ => Err AttributeErr
  | Err e => Err e
  end.

(* FieldRegistry.add_method_model: from the arguments of the function (call_types, with whether the type is
   Context) the names of meta.takes.elements: core/part.py 68-88, core/models.py 1127-1130.  The message of
   line 81 asks for context_anno.type, which an Anno does not have, so that AttributeError is raised. *)
Definition method_takes (call_types : list (string * bool)) (needs_context : bool)
  : result verr (list string) :=
  if needs_context then
    match dget "context" call_types, call_types with
    | None, _ | _, [] => Err AssertionErr
    | Some is_context, (first, _) :: _ =>
        if negb (String.eqb first "context") then Err AssertionErr
        else if negb is_context then Err AttributeErr
        else Ok (filter (fun k => negb (String.eqb k "context")) (dkeys call_types))
    end
  else Ok (dkeys call_types).
(* What an argument of the function gets: the Context made for the call, a value, or its default:
   core/controller.py 77-86, 262. *)
Inductive arg := AContext | AValue (x : Z) | ADefault.
(* post_function with the parameters that were taken: the arguments of the function, in its order
   (func_wrapper gives the context to the first one); None is the TypeError of a parameter it does not
   have, or has twice (Python semantics): core/controller.py 80-86, 262. *)
Definition call (call_types : list (string * bool)) (needs_context : bool) (took : dict Z)
  : option (list (string * arg)) :=
  let names := dkeys call_types in
  let by_name n := match dget n took with Some x => AValue x | None => ADefault end in
  if forallb (fun k => smem k names) (dkeys took) then
    if needs_context then
      match names with
      | [] => None
      | first :: rest => if dmem first took then None
                         else Some ((first, AContext) :: map (fun n => (n, by_name n)) rest)
      end
    else Some (map (fun n => (n, by_name n)) names)
  else None.

(* ---- make_view of any data ---- *)
(* The data of a model: another Model (by number), a dict, a list, or anything else, which is given out as
   it is: core/views.py 207-244. *)
Inductive data := DModel (i : nat) | DDict (d : list (string * data)) | DList (l : list data) | DOther (v : Z).
(* What is given out: core/views.py 207-244. *)
Inductive view := VView (i : nat) | VDict (d : list (string * view)) | VList (l : list view) | VRaw (d : data).
(* make_view: core/views.py 220-244. *)
Fixpoint make_view (d : data) : view :=
  match d with
  | DModel i => VView i
  | DDict d => VDict (map (fun kv => (fst kv, make_view (snd kv))) d)
  | DList l => VList (map make_view l)
  | DOther _ => VRaw d
  end.
