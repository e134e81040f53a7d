(* Model of the two places that keep a second copy of something in another block:
   the proxy block of a remote block, /repo/malcolm/modules/web/controllers/
   websocketclientcomms.py 151-226, and the exported field of a manager,
   /repo/malcolm/modules/builtin/controllers/managercontroller.py 342-392, with what they use
   of /repo/malcolm/core/models.py. *)
From Coq Require Import String Bool ZArith Lia List.
From Verif Require Import Base Notify_Model.
Import ListNotations.
Local Open Scope string_scope.
Local Open Scope list_scope.

(* the fields of a block or of another object, with their values (models.py 1279-1309) *)
Notation fields := (list (string * val)).

(* models.py 131-141, Model.apply_change (and AttributeModel.apply_change 375-379, which does
   the same with set_value); None is an exception.  Only a Model has apply_change: anything
   else inside is an AttributeError.  Every field of a Model other than a block has a set_
   method (158-186, 289-373, 469-491, 575-616, 641-676, 851-877, 995-1018, 1058-1094,
   1213-1246, 1260-1275), and no other name has one; a block has none (1279-1320).
   The type checks of the setters are not modelled: the value comes from a field of the same
   type.  set_endpoint_data 78-129 replaces the field *)
Fixpoint apply_change (p : path) (d : option val) (v : val) {struct p} : option val :=
  match p with
  | [] => None                                               (* the assertion, 138-140 *)
  | n :: r =>
    match v with
    | VObj (KModel t) fs =>
      match r, d with
      | [], Some x => if dmem n fs && negb (String.eqb t "malcolm:core/Block:1.0")
                      then Some (VObj (KModel t) (dset n x fs)) else None
      | [], None => None                                     (* len(args) = 0, 138-140 *)
      | _, _ => match dget n fs with
                | Some c => match apply_change r d c with
                            | Some c' => Some (VObj (KModel t) (dset n c' fs))
                            | None => None
                            end
                | None => None
                end
      end
    | _ => None
    end
  end.

(* models.py 1311-1312, BlockModel._update_fields: the names are kept as one plain value,
   made by names (the array of strings is not looked into) *)
Definition update_fields (names : list string -> val) (b : fields) : fields :=
  match dget "meta" b with
  | Some (VObj k fs) =>
    dset "meta" (VObj k (dset "fields"
      (names (filter (fun n => negb (String.eqb n "meta")) (dkeys b))) fs)) b
  | _ => b
  end.

(* models.py 1287-1309, BlockModel.set_endpoint_data of the proxy; what is not a serialized
   Attribute or Method is refused (1295) *)
Definition set_endpoint_data (names : list string -> val) (n : string) (v : val) (b : fields)
  : option fields :=
  match v with
  | VObj (KModel _) _ => Some (update_fields names (dset n v b))
  | _ => None
  end.

(* models.py 1314-1320, remove_endpoint; None is an exception *)
Definition remove_endpoint (names : list string -> val) (n : string) (b : fields)
  : option fields :=
  if dmem n b then Some (update_fields names (ddel n b)) else None.

(* websocketclientcomms.py 209-211, the first loop of _regenerate_block; list(block) are the
   names of its fields *)
Definition clear_fields (names : list string -> val) (b : fields) : fields :=
  fold_left (fun b n => if String.eqb n "health" || String.eqb n "meta" then b
                        else match remove_endpoint names n b with Some b' => b' | None => b end)
            (dkeys b) b.

(* websocketclientcomms.py 213-218: block.health.set_value(value=, alarm=, ts=) *)
Definition set_health (v : val) (b : fields) : option fields :=
  match v, dget "health" b with
  | VObj _ fs, Some (VObj k hs) =>
    match dget "value" fs, dget "alarm" fs, dget "timeStamp" fs with
    | Some x, Some a, Some t =>
      Some (dset "health"
             (VObj k (dset "timeStamp" t (dset "alarm" a (dset "value" x hs)))) b)
    | _, _, _ => None
    end
  | _, _ => None
  end.

(* websocketclientcomms.py 219-223: meta.apply_change([k], value[k]) for each k of meta.call_types *)
Definition set_meta (v : val) (b : fields) : option fields :=
  match v, dget "meta" b with
  | VObj _ fs, Some (VObj k ms) =>
    match fold_left (fun acc n => match acc, dget n fs with
                                  | Some ms', Some x => Some (dset n x ms')
                                  | _, _ => None
                                  end) (dkeys ms) (Some ms) with
    | Some ms' => Some (dset "meta" (VObj k ms') b)
    | None => None
    end
  | _, _ => None
  end.

(* A block half changed when an exception came (Raised) or changed as asked (Fine):
   websocketclientcomms.py 183-191 *)
Inductive upto (A : Type) := Fine (a : A) | Raised (a : A).
Arguments Fine {A} a.
Arguments Raised {A} a.
(* websocketclientcomms.py 183-191. *)
Definition after {A} (r : upto A) : A := match r with Fine a | Raised a => a end.
(* x if there is no exception, otherwise a as it was (websocketclientcomms.py 183-191) *)
Definition attempt {A} (a : A) (x : option A) : upto A :=
  match x with Some b => Fine b | None => Raised a end.
(* a Python loop over l: an exception in it ends it (no code of its own; the loops
   of websocketclientcomms.py 185-186, 212-226) *)
Fixpoint loop {A B} (f : A -> B -> upto A) (l : list B) (a : A) : upto A :=
  match l with
  | [] => Fine a
  | x :: r => match f a x with Fine b => loop f r b | Raised b => Raised b end
  end.

(* websocketclientcomms.py 212-226, one turn of the second loop of _regenerate_block.  The item typeid is skipped
   there; in a value here it is the kind and not among the items *)
Definition set_field (names : list string -> val) (b : fields) (nv : string * val) : upto fields :=
  let (n, v) := nv in
  attempt b (if String.eqb n "health" then set_health v b
             else if String.eqb n "meta" then set_meta v b
             else set_endpoint_data names n v b).

(* websocketclientcomms.py 208-226, _regenerate_block; a value without items has no .items() *)
Definition regenerate (names : list string -> val) (b : fields) (v : val) : upto fields :=
  let b' := clear_fields names b in
  match v with
  | VObj _ fs => loop (set_field names) fs b'
  | _ => Raised b'
  end.

(* websocketclientcomms.py 193-206, _handle_change.  For a path of one name that is not health or meta the code
   looks at path[1], which is not there: IndexError.  A path of just health or meta goes to
   apply_change of the block, which has no set_health and no set_meta: AttributeError *)
Definition handle_change (names : list string -> val) (b : fields)
  (c : path * option val) : upto fields :=
  match c with
  | ([], None) => Raised b
  | ([], Some v) => regenerate names b v
  | ([_], _) => Raised b
  | (n :: r, d) =>
    match dget n b with
    | Some c => attempt b (match apply_change r d c with
                           | Some c' => Some (dset n c' b)
                           | None => None
                           end)
    | None => Raised b
    end
  end.

(* websocketclientcomms.py 180-191, _handle_response and 167-174: only a Delta is looked at.  The proxy after it:
   an exception is logged and ends the handling of this response only *)
Definition handle_response (names : list string -> val) (b : fields) (m : msg) : fields :=
  match m with
  | Delta cs => after (loop (handle_change names) cs b)
  | _ => b
  end.

(* the responses one after the other, websocketclientcomms.py 167-177 *)
Definition proxy_after (names : list string -> val) (b : fields) (ms : list msg) : fields :=
  fold_left (handle_response names) ms b.

(* ------------------------------------------------------------------ *)
(* The exported field of a manager *)

(* tags.py 109-112 and 163-166 for the tags of meta; strip is what they do to the array, kept
   as one plain value.  managercontroller.py 356-366 and 377-378: tags stripped, for an
   Attribute only (a Method is a MethodModel), and the label regenerated *)
Definition set_in (n m : string) (f : val -> val) (v : val) : val :=
  match v with
  | VObj k fs =>
    match dget n fs with
    | Some (VObj k' gs) =>
      match dget m gs with
      | Some x => VObj k (dset n (VObj k' (dset m (f x) gs)) fs)
      | None => v
      end
    | _ => v
    end
  | _ => v
  end.
(* managercontroller.py 355-379. *)
Definition new_export (strip : val -> val) (label : val) (v : val) : val :=
  let v' := match v with
            | VObj (KModel t) _ =>
              if String.eqb t "malcolm:core/Method:1.1" then v else set_in "meta" "tags" strip v
            | _ => v
            end in
  set_in "meta" "label" (fun _ => label) v'.

(* managercontroller.py 348-384, update_field: ret["export"] is None before the first Delta, which is made of one
   change of the whole field; a later one is applied change by change, until one raises *)
Definition update_field (strip : val -> val) (label : val) (e : option val) (m : msg)
  : option val :=
  match m with
  | Delta cs =>
    match e with
    | None => match cs with
              | (_, Some v) :: _ => Some (new_export strip label v)
              | _ => None
              end
    | Some x => Some (after (loop (fun x c => attempt x (apply_change (fst c) (snd c) x)) cs x))
    end
  | _ => e
  end.
(* managercontroller.py 348-392. *)
Definition export_after (strip : val -> val) (label : val) (ms : list msg) : option val :=
  fold_left (update_field strip label) ms None.
