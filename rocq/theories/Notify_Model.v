(* Model of the notifier of a block, /repo/malcolm/core/notifier.py, and of the ways the
   models of a block change, /repo/malcolm/core/models.py. *)
From Coq Require Import String Bool ZArith Lia List.
From Verif Require Import Base.
Import ListNotations.
Local Open Scope list_scope.
Local Open Scope nat_scope.

(* notifier.py 142-175. *)
Notation path := (list string).

(* ------------------------------------------------------------------ *)
(* What a block holds *)

(* How an object gives access to what is inside: KModel is a Model (models.py 45), with its
   typeid; KPlain is any other object with attributes and a typeid (Table, Alarm, TimeStamp),
   which is never changed in place; KMap is a dict (a field with ct.is_mapping, models.py
   66-70, 99-113), whose items are not attributes *)
Inductive kind := KModel (typeid : string) | KPlain (typeid : string) | KMap.

(* An object or a plain value (number, string, array: any Python object that is only
   replaced as a whole; a value None is not modelled).  The nat is the identity of the
   object.  Fields: for a Model the names of its call_types: models.py 45-129, 1279-1320 *)
Inductive tree :=
| TLeaf (v : Z)
| TObj (i : nat) (k : kind) (fs : list (string * tree)).

(* A Python reference as held in NotifierNode.data and in a change; RNone is None:
   notifier.py 135-140, 84-101 *)
Inductive ref := RNone | RLeaf (v : Z) | RObj (i : nat) (k : kind).
(* notifier.py 197-205. *)
Definition tref (t : tree) : ref :=
  match t with TLeaf v => RLeaf v | TObj i k _ => RObj i k end.

(* The block, and all objects that are not part of it: replaced or removed ones and ones
   not yet added: models.py 45-129 *)
Record world := mkWorld { w_root : tree; w_limbo : list tree }.

(* data[name] repeatedly: controller.py 155-174, _handle_get; items of a dict count *)
Fixpoint tget (t : tree) (p : path) : option tree :=
  match p with
  | [] => Some t
  | n :: r =>
    match t with
    | TLeaf _ => None
    | TObj _ _ fs => match dget n fs with Some c => tget c r | None => None end
    end
  end.

(* identities used in an object: models.py 45-129 *)
Fixpoint ids (t : tree) : list nat :=
  match t with
  | TLeaf _ => []
  | TObj i _ fs =>
    i :: (fix go l := match l with [] => [] | (_, c) :: r => ids c ++ go r end) fs
  end.

(* following a reference: the object with that identity: notifier.py 32-46 *)
Fixpoint tfind (i : nat) (t : tree) : option tree :=
  match t with
  | TLeaf _ => None
  | TObj j k fs =>
    if Nat.eqb i j then Some t
    else (fix go l := match l with
                      | [] => None
                      | (_, c) :: r => match tfind i c with Some x => Some x | None => go r end
                      end) fs
  end.
(* notifier.py 32-46. *)
Fixpoint ffind (i : nat) (l : list tree) : option tree :=
  match l with
  | [] => None
  | t :: r => match tfind i t with Some x => Some x | None => ffind i r end
  end.
(* notifier.py 32-46. *)
Definition find (w : world) (i : nat) : option tree := ffind i (w_root w :: w_limbo w).

(* getattr(data, name, None) as in notifier.py 210 and 239.  A dict has no attribute called
   like its items; attributes of plain values (numbers, strings) are not modelled *)
Definition geta (w : world) (r : ref) (n : string) : ref :=
  match r with
  | RObj i KMap => RNone
  | RObj i _ =>
    match find w i with
    | Some (TObj _ _ fs) => match dget n fs with Some c => tref c | None => RNone end
    | _ => RNone
    end
  | _ => RNone
  end.

(* A serialized value: nothing in it changes any more: notifier.py 32-46 *)
Inductive val := VNone | VLeaf (v : Z) | VObj (k : kind) (fs : list (string * val)).

(* notifier.py 32-46, freeze (a Table or other KPlain object is kept as it is: nobody
   changes it in place) *)
Fixpoint freeze_tree (t : tree) : val :=
  match t with
  | TLeaf v => VLeaf v
  | TObj _ k fs => VObj k (map (fun nc => (fst nc, freeze_tree (snd nc))) fs)
  end.
(* notifier.py 32-46. *)
Definition freeze (w : world) (r : ref) : val :=
  match r with
  | RNone => VNone
  | RLeaf v => VLeaf v
  | RObj i _ => match find w i with Some t => freeze_tree t | None => VNone end
  end.

(* ------------------------------------------------------------------ *)
(* Changing it *)

(* what is put in a field: a plain value, or an object that is not part of the block, given
   by its identity: models.py 78-129, 1287-1309 *)
Inductive new := NewLeaf (v : Z) | NewObj (i : nat).

(* One change of the block:
   MSet p n v    object at p: models.py 119-123 (set_endpoint_data), 346-356
                 (set_value_alarm_ts), 1287-1309 (BlockModel.set_endpoint_data)
   MDel p n      models.py 1314-1320, remove_endpoint
   MPart p n v ks  models.py 388-407, NTTable.set_value_alarm_ts when only the columns ks
                 changed
   MLimbo ts     anything done to objects that are not part of the block (their notifier is
                 the DummyNotifier, 19-29), including making new ones *)
Inductive mut :=
| MSet (p : path) (n : string) (v : new)
| MDel (p : path) (n : string)
| MPart (p : path) (n : string) (v : new) (ks : list string)
| MLimbo (ts : list tree).

(* (path from the block, new data); RNone is a deletion, a change without data: notifier.py 84-101 *)
Notation change := (path * ref)%type.

(* setattr / delattr of the object at p: models.py 78-129 *)
Fixpoint tset (p : path) (n : string) (v : tree) (t : tree) : tree :=
  match t with
  | TLeaf _ => t
  | TObj i k fs =>
    match p with
    | [] => TObj i k (dset n v fs)
    | m :: r => match dget m fs with
                | Some c => TObj i k (dset m (tset r n v c) fs)
                | None => t
                end
    end
  end.
(* d.pop(name): del self.children[name], notifier.py 273; models.py 1318 (delattr) *)
Definition dpop {A} (n : string) (fs : list (string * A)) : list (string * A) :=
  filter (fun kv => negb (String.eqb n (fst kv))) fs.
(* models.py 1314-1320. *)
Fixpoint tdel (p : path) (n : string) (t : tree) : tree :=
  match t with
  | TLeaf _ => t
  | TObj i k fs =>
    match p with
    | [] => TObj i k (dpop n fs)
    | m :: r => match dget m fs with
                | Some c => TObj i k (dset m (tdel r n c) fs)
                | None => t
                end
    end
  end.

(* take the object i out of the objects that are not part of the block.  One that is part
   of it is refused: the assertion of models.py 60-64 *)
Fixpoint take (i : nat) (l : list tree) : option (tree * list tree) :=
  match l with
  | [] => None
  | t :: r =>
    match t with
    | TObj j _ _ => if Nat.eqb i j then Some (t, r)
                    else match take i r with Some (x, r') => Some (x, t :: r') | None => None end
    | TLeaf _ => match take i r with Some (x, r') => Some (x, t :: r') | None => None end
    end
  end.
(* l: those objects, with the one that is replaced, which is cut off first (102-109, 115-118):
   models.py 78-129 *)
Definition new_tree (l : list tree) (v : new) : option (tree * list tree) :=
  match v with
  | NewLeaf z => Some (TLeaf z, l)
  | NewObj i => take i l
  end.

(* isinstance(ob, Model), models.py 45 *)
Definition is_model (t : option tree) : bool :=
  match t with Some (TObj _ (KModel _) _) => true | _ => false end.
(* a replaced object is no longer part of the block, models.py 102-118 *)
Definition to_limbo (o : option tree) : list tree :=
  match o with Some t => [t] | None => [] end.

(* no identity is used twice; for the whole forest of objects (no code: Python objects
   have one identity each): models.py 45-129 *)
Fixpoint nodup_b (l : list nat) : bool :=
  match l with [] => true | x :: r => negb (existsb (Nat.eqb x) r) && nodup_b r end.
(* models.py 45-129. *)
Definition forest_ids (l : list tree) : list nat := flat_map ids l.

(* the columns of a table: models.py 388-407 *)
Definition tfields (t : option tree) : list (string * tree) :=
  match t with Some (TObj _ _ fs) => fs | _ => [] end.

(* One change and what is recorded of it with add_squashed_change/add_squashed_delete
   (notifier.py 84-101; the mri is already cut off the path).  None: it raises and nothing
   is changed.  Simplification: self.path is taken to be where the object is, as
   set_notifier_path, models.py 50-76, makes it *)
Definition mutate (w : world) (m : mut) : option (world * list change) :=
  match m with
  | MSet p n v =>
    if is_model (tget (w_root w) p) then
      match new_tree (to_limbo (tget (w_root w) (p ++ [n])) ++ w_limbo w) v with
      | Some (t, limbo) =>
        Some (mkWorld (tset p n t (w_root w)) limbo,
              [(p ++ [n], tref t)])
      | None => None
      end
    else None
  | MDel p n =>
    match is_model (tget (w_root w) p), tget (w_root w) (p ++ [n]) with
    | true, Some old => Some (mkWorld (tdel p n (w_root w)) (old :: w_limbo w),
                              [(p ++ [n], RNone)])
    | _, _ => None
    end
  | MPart p n v ks =>
    if is_model (tget (w_root w) p) then
      match new_tree (to_limbo (tget (w_root w) (p ++ [n])) ++ w_limbo w) v with
      | Some (t, limbo) =>
        Some (mkWorld (tset p n t (w_root w)) limbo,
              map (fun k => (p ++ [n; k], match dget k (tfields (Some t)) with
                                          | Some c => tref c | None => RNone end)) ks)
      | None => None
      end
    else None
  | MLimbo ts =>
    if nodup_b (ids (w_root w) ++ forest_ids ts) then Some (mkWorld (w_root w) ts, [])
    else None
  end.

(* ------------------------------------------------------------------ *)
(* The tree of subscriptions *)

(* request.py 118-132, Subscribe; 61-64, generate_key: (callback, id); the path is without
   the mri *)
Notation key := (nat * nat)%type.
(* request.py 118-130. *)
Record sub := mkSub { s_key : key; s_path : path; s_delta : bool }.
(* equality of two such keys: request.py 59-63 *)
Definition key_eqb (a b : key) : bool := Nat.eqb (fst a) (fst b) && Nat.eqb (snd a) (snd b).

(* notifier.py 131-140, NotifierNode (parent is not used) *)
Inductive nnode := NN (data : ref) (updates deltas : list sub) (children : list (string * nnode)).
(* its attributes: notifier.py 131-140 *)
Definition n_data n := match n with NN d _ _ _ => d end.
(* notifier.py 135-140. *)
Definition n_updates n := match n with NN _ u _ _ => u end.
(* notifier.py 135-140. *)
Definition n_deltas n := match n with NN _ _ d _ => d end.
(* notifier.py 135-140. *)
Definition n_children n := match n with NN _ _ _ c => c end.

(* response.py: Update, Delta (a change without value is a deletion), Return, Error: response.py 25-70 *)
Inductive msg :=
| Update (v : val)
| Delta (cs : list (path * option val))
| Return
| Error.
(* request.py 132-142. *)
Notation out := (key * msg)%type.

(* child_changes.setdefault(name, []).append(x), notifier.py 187 and 195 *)
Definition append_to {A} (n : string) (x : A) (cc : dict (list A)) : dict (list A) :=
  dset n (match dget n cc with Some l => l ++ [x] | None => [x] end) cc.

(* 177-195, _add_child_change with the loop of _update_data 206-217; names are the children:
   notifier.py 177-217 *)
Definition add_child_change (w : world) (names : list string) (cc : dict (list change))
  (c : change) : dict (list change) :=
  match fst c with
  | n :: p => if smem n names then append_to n (p, snd c) cc else cc
  | [] => fold_left (fun cc n => append_to n ([], geta w (snd c) n) cc) names cc
  end.

(* self.data after _update_data (205) was called for the changes meant for the node: notifier.py 197-218 *)
Definition new_data (d : ref) (cs : list change) : ref :=
  fold_left (fun d c => match fst c with [] => snd c | _ => d end) cs d.

(* change[-1] = freeze(change[-1]), 164-166; the data of a deletion is not there: notifier.py 164-166 *)
Definition freeze_change (w : world) (c : change) : path * option val :=
  (fst c, match snd c with RNone => None | r => Some (freeze w r) end).

(* 142-175, notify_changes: the new node and the responses in order: notifier.py 142-175 *)
Fixpoint notify (w : world) (n : nnode) (cs : list change) : nnode * list out :=
  match n with
  | NN d us ds ch =>
    let cc := fold_left (add_child_change w (dkeys ch)) cs [] in
    let d' := new_data d cs in
    let sub :=
      (fix go (l : list (string * nnode)) : list (string * (nnode * list out)) :=
         match l with
         | [] => []
         | (k, c) :: r =>
           (k, match dget k cc with Some cs' => notify w c cs' | None => (c, []) end) :: go r
         end) ch in
    (NN d' us ds (map (fun kx => (fst kx, fst (snd kx))) sub),
     map (fun s => (s_key s, Update (freeze w d'))) us
     ++ map (fun s => (s_key s, Delta (map (freeze_change w) cs))) ds
     ++ flat_map (fun kc => match dget (fst kc) sub with Some x => snd x | None => [] end) cc)
  end.

(* 220-249, NotifierNode.handle_subscribe; d is the data of a node made on the way: notifier.py 220-249 *)
Fixpoint subscribe_new (w : world) (d : ref) (s : sub) (p : path) : nnode * list out :=
  match p with
  | [] => if s_delta s
          then (NN d [] [s] [], [(s_key s, Delta [([], Some (freeze w d))])])
          else (NN d [s] [] [], [(s_key s, Update (freeze w d))])
  | n :: r => let (c, o) := subscribe_new w (geta w d n) s r in (NN d [] [] [(n, c)], o)
  end.
(* notifier.py 220-249. *)
Fixpoint subscribe_at (w : world) (nd : nnode) (s : sub) (p : path) : nnode * list out :=
  match nd, p with
  | NN d us ds ch, [] =>
    if s_delta s
    then (NN d us (ds ++ [s]) ch, [(s_key s, Delta [([], Some (freeze w d))])])
    else (NN d (us ++ [s]) ds ch, [(s_key s, Update (freeze w d))])
  | NN d us ds ch, n :: r =>
    match dget n ch with
    | Some c => let (c', o) := subscribe_at w c s r in (NN d us ds (dset n c' ch), o)
    | None => let (c', o) := subscribe_new w (geta w d n) s r in
              (NN d us ds (dset n c' ch), o)
    end
  end.

(* list.remove of the request; None is the ValueError: notifier.py 251-282 *)
Definition sub_eqb (a b : sub) : bool :=
  key_eqb (s_key a) (s_key b) && Bool.eqb (s_delta a) (s_delta b)
  && (if list_eq_dec string_dec (s_path a) (s_path b) then true else false).
(* notifier.py 251-282. *)
Fixpoint remove_sub (s : sub) (l : list sub) : option (list sub) :=
  match l with
  | [] => None
  | x :: r => if sub_eqb s x then Some r
              else match remove_sub s r with Some r' => Some (x :: r') | None => None end
  end.

(* notifier.py 268-273: nothing left in the node, so it is removed from its parent *)
Definition node_empty (n : nnode) : bool :=
  match n with NN _ [] [] [] => true | _ => false end.

(* 251-282, NotifierNode.handle_unsubscribe; None is the KeyError or ValueError: notifier.py 251-282 *)
Fixpoint unsubscribe_at (nd : nnode) (s : sub) (p : path) : option nnode :=
  match nd, p with
  | NN d us ds ch, [] =>
    match remove_sub s us with
    | Some us' => Some (NN d us' ds ch)
    | None => match remove_sub s ds with
              | Some ds' => Some (NN d us ds' ch)
              | None => None
              end
    end
  | NN d us ds ch, n :: r =>
    match dget n ch with
    | None => None
    | Some c =>
      match unsubscribe_at c s r with
      | None => None
      | Some c' => Some (NN d us ds (if node_empty c' then dpop n ch else dset n c' ch))
      end
    end
  end.

(* ------------------------------------------------------------------ *)
(* The Notifier *)

(* notifier.py 52-59: _tree, _squashed_count, _squashed_changes, _subscription_keys *)
Record nst := mkN {
  n_w : world; n_tree : nnode; n_count : nat; n_changes : list change;
  n_keys : list (key * sub) }.

(* notifier.py 52-59 for a new block: nobody has subscribed *)
Definition init (root : tree) (limbo : list tree) : nst :=
  mkN (mkWorld root limbo) (NN (tref root) [] [] []) 0 [] [].

(* self._subscription_keys[key] and .pop(key), notifier.py 63, 68 *)
Fixpoint kget (k : key) (l : list (key * sub)) : option sub :=
  match l with [] => None | (k', s) :: r => if key_eqb k k' then Some s else kget k r end.
(* notifier.py 67-72. *)
Definition kpop (k : key) (l : list (key * sub)) : list (key * sub) :=
  filter (fun ks => negb (key_eqb k (fst ks))) l.

(* Enter, Exit: the with statement around changes; Mut: one change inside it; Subscribe,
   Unsubscribe: the two requests: notifier.py 61-120 *)
Inductive op :=
| Enter | Exit | Mut (m : mut) | Subscribe (s : sub) | Unsubscribe (k : key).

(* One step and what is sent to the callbacks.  The order of _subscription_keys does not
   matter.  Enter takes the lock (103-106) and only the
   thread that holds it can add changes; a request from another thread waits for the lock,
   so Subscribe and Unsubscribe only happen with no group open (they are skipped here
   otherwise: they come later in the history).  A callback that raises is in deliver: notifier.py 61-128 *)
Definition step (st : nst) (o : op) : nst * list out :=
  match o with
  | Enter => (mkN (n_w st) (n_tree st) (S (n_count st)) (n_changes st) (n_keys st), [])
  | Exit =>
    match n_count st with
    | O => (st, [])
    | S O => let (t, outs) := notify (n_w st) (n_tree st) (n_changes st) in
             (mkN (n_w st) t 0 [] (n_keys st), outs)
    | S c => (mkN (n_w st) (n_tree st) c (n_changes st) (n_keys st), [])
    end
  | Mut m =>
    match n_count st with
    | O => match m with
           | MLimbo _ => match mutate (n_w st) m with
                         | Some (w, _) => (mkN w (n_tree st) 0 (n_changes st) (n_keys st), [])
                         | None => (st, [])
                         end
           | _ => (st, [])
           end
    | c => match mutate (n_w st) m with
           | Some (w, cs) => (mkN w (n_tree st) c (n_changes st ++ cs) (n_keys st), [])
           | None => (st, [])
           end
    end
  | Subscribe s =>
    match n_count st with
    | O => let (t, outs) := subscribe_at (n_w st) (n_tree st) s (s_path s) in
           (mkN (n_w st) t 0 (n_changes st) (kpop (s_key s) (n_keys st) ++ [(s_key s, s)]), outs)
    | _ => (st, [])
    end
  | Unsubscribe k =>
    match n_count st with
    | O => match kget k (n_keys st) with
           | None => (st, [(k, Error)])
           | Some s =>
             match unsubscribe_at (n_tree st) s (s_path s) with
             | None => (mkN (n_w st) (n_tree st) 0 (n_changes st) (kpop k (n_keys st)),
                        [(k, Error)])
             | Some t => (mkN (n_w st) t 0 (n_changes st) (kpop k (n_keys st)), [(k, Return)])
             end
           end
    | _ => (st, [])
    end
  end.

(* a history: the steps one after the other, with all that is sent (no code of its own):
   notifier.py 61-128 *)
Fixpoint run (st : nst) (os : list op) : nst * list out :=
  match os with
  | [] => (st, [])
  | o :: r => let (st1, o1) := step st o in
              let (st2, o2) := run st1 r in (st2, o1 ++ o2)
  end.

(* 122-128, _callback_responses: stops at the first callback that raises: notifier.py 122-128 *)
Fixpoint deliver (raises : key -> msg -> bool) (l : list out) : list out :=
  match l with
  | [] => []
  | x :: r => if raises (fst x) (snd x) then [x] else x :: deliver raises r
  end.

(* models.py 78-129, set_endpoint_data of the object at p *)
Definition set_endpoint (p : path) (n : string) (v : new) : list op :=
  [Enter; Mut (MSet p n v); Exit].
(* models.py 346-356, set_value_alarm_ts with a new alarm *)
Definition set_value_alarm_ts (p : path) (v a ts : new) : list op :=
  [Enter; Mut (MSet p "value" v); Mut (MSet p "alarm" a); Mut (MSet p "timeStamp" ts); Exit].
(* models.py 1287-1312, BlockModel.set_endpoint_data then _update_fields *)
Definition block_set (n : string) (v fields : new) : list op :=
  [Enter; Mut (MSet [] n v); Enter; Mut (MSet ["meta"%string] "fields" fields); Exit; Exit].
(* models.py 1314-1320, remove_endpoint *)
Definition block_remove (n : string) (fields : new) : list op :=
  [Enter; Enter; Mut (MSet ["meta"%string] "fields" fields); Exit; Mut (MDel [] n); Exit].
