(* What C87 says, apart from the model. *)
From Coq Require Import String Bool ZArith List.
From Verif Require Import Base Notify_Model Notify_Spec Proxy_Spec.
Import ListNotations.
Local Open Scope string_scope.
Local Open Scope list_scope.

(* What is in a place, but for the value of a leaf. *)
Definition blank (s : option seen) : option seen := match s with Some (SLeaf _) => Some (SLeaf 0) | _ => s end.
Definition same_shape (a b : val) : Prop := forall p, blank (vsee a p) = blank (vsee b p).
(* Not something with a class of its own. *)
Definition plain (v : val) : Prop := match v with VObj (KModel _) _ | VObj KMap _ | VNone => False | _ => True end.
(* A block as a server sends it: serialized, with plain values in health and meta, no block in it. *)
Definition good (v : val) : Prop :=
  block_like v /\ (forall p t, p <> [] -> vsee v p = Some (SObj (KModel t)) -> t <> "malcolm:core/Block:1.0")
  /\ (forall n x, In n health_names -> field2 v "health" n = Some x -> plain x)
  /\ (forall n x, In n meta_names -> field2 v "meta" n = Some x -> plain x).
(* m is in a Model that is an item of a dict, as the elements of a meta are. *)
Definition in_dict (v : val) (m : path) : Prop :=
  exists q n s t, m = q ++ n :: s /\ vsee v q = Some (SObj KMap) /\ vsee v (q ++ [n]) = Some (SObj (KModel t)).
(* The next value, with what is marked in it: leaves of a place that the proxy shows and not in a dict of
   Models; all that is different is marked. *)
Definition honest (v : val) (marked : list path) (v' : val) : Prop :=
  (forall m, In m marked -> shown m /\ ~ in_dict v m /\ (exists z, vsee v m = Some (SLeaf z)) /\ exists z, vsee v' m = Some (SLeaf z))
  /\ forall p, (forall m, In m marked -> ~ prefix m p) -> vsee v p = vsee v' p.

(* The history of one channel: None while there is no connection.  The first value of a connection is a
   block, the others are honest. *)
Inductive happened := Sent (v : val) (marked : list path) | Lost | Other.
Fixpoint fair (cur : option val) (es : list happened) : Prop :=
  match es with
  | [] => True
  | Sent v marked :: r => match cur with None => good v | Some v0 => honest v0 marked v end /\ fair (Some v) r
  | Lost :: r => fair None r
  | Other :: r => fair cur r
  end.
(* What the server holds, as far as the client can know. *)
Fixpoint held (cur : option val) (es : list happened) : option val :=
  match es with
  | [] => cur
  | Sent v _ :: r => held (Some v) r
  | Lost :: r => held None r
  | Other :: r => held cur r
  end.
