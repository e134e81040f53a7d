(* What subscribers may rely on, stated without the subscription tree. *)
From Coq Require Import String Bool ZArith Lia List.
From Verif Require Import Base Notify_Model.
Import ListNotations.
Local Open Scope list_scope.

(* q is a prefix of p *)
Definition prefix (q p : path) : Prop := exists r, p = q ++ r.

(* What can be seen in one place of a serialized value: nothing, a plain value or an object
   of some class *)
Inductive seen := SLeaf (v : Z) | SObj (k : kind).
Fixpoint vsee (v : val) (p : path) : option seen :=
  match v, p with
  | VNone, _ => None
  | VLeaf z, [] => Some (SLeaf z)
  | VLeaf _, _ :: _ => None
  | VObj k _, [] => Some (SObj k)
  | VObj _ fs, n :: r => match dget n fs with Some c => vsee c r | None => None end
  end.
(* Two serialized values are the same if they look the same everywhere (the order of fields
   does not count) *)
Definition vsame (a b : val) : Prop := forall p, vsee a p = vsee b p.

(* The same for what the block holds *)
Definition tsee (t : tree) (p : path) : option seen :=
  match tget t p with
  | None => None
  | Some (TLeaf z) => Some (SLeaf z)
  | Some (TObj _ k _) => Some (SObj k)
  end.
(* v is the value of the block at path p *)
Definition is_value (v : val) (t : tree) (p : path) : Prop :=
  forall r, vsee v r = tsee t (p ++ r).

(* p does not go through a dict: no proper prefix of p is one *)
Definition clear (t : tree) (p : path) : Prop :=
  forall q n r, p = q ++ n :: r -> tsee t q <> Some (SObj KMap).

(* A client that keeps a copy: sets, replaces or deletes at the path given; a change below
   something it does not have is ignored *)
Definition vpop (n : string) (fs : list (string * val)) : list (string * val) :=
  filter (fun kv => negb (String.eqb n (fst kv))) fs.
Fixpoint vapply (p : path) (d : option val) (v : val) : val :=
  match p with
  | [] => match d with Some x => x | None => VNone end
  | n :: p' =>
    match v with
    | VObj k fs =>
      match p' with
      | [] => VObj k (match d with Some x => dset n x fs | None => vpop n fs end)
      | _ => match dget n fs with
             | Some c => VObj k (dset n (vapply p' d c) fs)
             | None => v
             end
      end
    | _ => v
    end
  end.
Definition replay (copy : val) (m : msg) : val :=
  match m with
  | Delta cs => fold_left (fun c pd => vapply (fst pd) (snd pd) c) cs copy
  | _ => copy
  end.

(* the messages sent to one key *)
Definition to_key (k : key) (outs : list out) : list msg :=
  map snd (filter (fun o => key_eqb k (fst o)) outs).
(* its copy after them *)
Definition copy_of (k : key) (outs : list out) : val := fold_left replay (to_key k outs) VNone.

(* no table is changed in part *)
Definition whole (o : op) : Prop := match o with Mut (MPart _ _ _ _) => False | _ => True end.

(* every object occurs once *)
Definition unique (root : tree) (limbo : list tree) : Prop :=
  NoDup (ids root ++ forest_ids limbo).

(* Subscriptions as a client sees them: made and not ended.  Nothing of the notifier is used:
   only the operations *)
Fixpoint live (os : list op) (open : nat) (l : list sub) : list sub :=
  match os with
  | [] => l
  | Enter :: r => live r (S open) l
  | Exit :: r => live r (pred open) l
  | Mut _ :: r => live r open l
  | Subscribe s :: r =>
    match open with O => live r O (l ++ [s]) | _ => live r open l end
  | Unsubscribe k :: r =>
    match open with
    | O => live r O (filter (fun s => negb (key_eqb k (s_key s))) l)
    | _ => live r open l
    end
  end.
(* no key is subscribed twice at the same time *)
Fixpoint distinct (os : list op) (open : nat) (l : list sub) : Prop :=
  match os with
  | [] => True
  | Enter :: r => distinct r (S open) l
  | Exit :: r => distinct r (pred open) l
  | Mut _ :: r => distinct r open l
  | Subscribe s :: r =>
    match open with
    | O => ~ In (s_key s) (map s_key l) /\ distinct r O (l ++ [s])
    | _ => distinct r open l
    end
  | Unsubscribe k :: r =>
    match open with
    | O => distinct r O (filter (fun s => negb (key_eqb k (s_key s))) l)
    | _ => distinct r open l
    end
  end.

(* the places where an operation changed the block; a change at q may be seen at p if one is
   a prefix of the other *)
Definition place (m : mut) : option path :=
  match m with
  | MSet p n _ | MDel p n | MPart p n _ _ => Some (p ++ [n])
  | MLimbo _ => None
  end.
Definition related (q p : path) : Prop := prefix q p \/ prefix p q.

(* The places changed since the open group of changes was opened: each change that did not
   raise, in order *)
Fixpoint changed (st : nst) (os : list op) (acc : list path) : list path :=
  match os with
  | [] => acc
  | o :: r =>
    changed (fst (step st o)) r
      (match o with
       | Enter => match n_count st with O => [] | _ => acc end
       | Mut m => match n_count st, mutate (n_w st) m, place m with
                  | S _, Some _, Some q => acc ++ [q]
                  | _, _, _ => acc
                  end
       | _ => acc
       end)
  end.

(* inside a group that stays open: depth never reaches 0 *)
Fixpoint inside (os : list op) (depth : nat) : Prop :=
  match os with
  | [] => depth = 1
  | Enter :: r => inside r (S depth)
  | Exit :: r => match depth with S (S d) => inside r (S d) | _ => False end
  | _ :: r => inside r depth
  end.

(* where a change at q is seen by a subscriber of p: below p at the rest of the path, at or
   above p as a change of all of p *)
Fixpoint residual (p q : path) : list path :=
  match p, q with
  | [], _ => [q]
  | _, [] => [[]]
  | a :: p', b :: q' => if String.eqb a b then residual p' q' else []
  end.

(* all along os, from st, the paths of the subscriptions of key k do not go through dicts *)
Definition clear_along (st : nst) (os : list op) (L : list sub) (k : key) : Prop :=
  forall a b s, os = a ++ b -> In s (live a (n_count st) L) -> s_key s = k ->
                clear (w_root (n_w (fst (run st a)))) (s_path s).
