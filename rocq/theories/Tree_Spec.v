(** C50, specification: where an object is, and what a run of operations is. *)
From Coq Require Import String Bool ZArith List.
From Verif Require Import Base Tree_Model.
Import ListNotations.
Local Open Scope list_scope.

(** What a path leads to, following attributes and dictionary keys only (neither [o_path] nor
    [o_not] is looked at). *)
Inductive item := IModel (i : nat) | IData (d : data) | IMap (m : dict nat).
Fixpoint look (h : heap) (x : nat) (p : list string) : option item :=
  match p with
  | [] => Some (IModel x)
  | n :: q =>
      match dget n (o_fields (h x)) with
      | Some (FData d) => match q with [] => Some (IData d) | _ => None end
      | Some (FModel c) => look h c q
      | Some (FMap m) => match q with
                         | [] => Some (IMap m)
                         | k :: q' => match dget k m with Some c => look h c q' | None => None end
                         end
      | None => None
      end
  end.
Definition item_of (v : value) : item :=
  match v with VData d => IData d | VModel i => IModel i | VMap m => IMap m end.

(** Notifier [n] was made for block [r] with name [mri]. *)
Definition root (s : tstate) (n r : nat) (mri : string) : Prop := In (n, (r, mri)) (t_roots s).

(** [x] is in no block, nor is anything inside it, as far as their notifiers tell. *)
Definition quiet (h : heap) (x : nat) : Prop :=
  forall q y, look h x q = Some (IModel y) -> o_not (h y) = None.

(** Only one path leads from [x] to each object inside it. *)
Definition single (h : heap) (x : nat) : Prop :=
  forall q q' y, look h x q = Some (IModel y) -> look h x q' = Some (IModel y) -> q = q'.

(** The objects that an operation takes out of, and puts into, an attribute of [x]. *)
Definition touches (s : tstate) (o : top) (x c : nat) : Prop :=
  match o with
  | TSet y name v => y = x /\ (In c (map snd (olds (t_heap s) y name)) \/ In c (value_ids v))
  | TBlockSet b name i => b = x /\ (In c (map snd (olds (t_heap s) b name)) \/ c = i)
  | TRemove b name => b = x /\ In c (map snd (olds (t_heap s) b name))
  | _ => False
  end.

(** The discipline that set_notifier_path does not check: an object that is in no block is not
    given, nor loses, a child that is in one. *)
Definition disciplined (s : tstate) (o : top) : Prop :=
  forall x c, touches s o x c -> o_not (t_heap s x) = None -> quiet (t_heap s) c.

(** Runs of operations of which none raises. *)
Inductive runs : tstate -> list top -> tstate -> Prop :=
| runs_nil : forall s, runs s [] s
| runs_cons : forall s o s1 cs os s2, disciplined s o -> tstep s o = (s1, Ok cs) -> runs s1 os s2 ->
    runs s (o :: os) s2.

(** [p] is [q] or leads to it. *)
Definition leads (p q : list string) : Prop := exists r, q = p ++ r.

(** The changes [cs] say what is different in the published blocks of [s'] from those of [s]: each
    gives what is now at its path, and nothing else is different. *)
Definition announces (s : tstate) (cs : list change) (s' : tstate) : Prop :=
  (forall n p v, In (n, p, v) cs -> exists r mri q, root s' n r mri /\ p = mri :: q /\
     look (t_heap s') r q = match v with Some v => Some (item_of v) | None => None end) /\
  (forall n r mri q, root s n r mri -> (forall p v, In (n, p, v) cs -> ~ leads p (mri :: q)) ->
     look (t_heap s') r q = look (t_heap s) r q).
