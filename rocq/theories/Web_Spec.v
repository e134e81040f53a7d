(* What C35, C36 and C47 say, without the model's functions. *)
From Coq Require Import String Bool ZArith NArith Lia List.
From Verif Require Import Web_Model.
Import ListNotations.
Local Open Scope list_scope.

(* ---- C35 ---- *)
(* [a] is on the network of the interface: it has the interface's address in every bit
   that the netmask has set *)
Definition in_subnet (i : iface) (a : N) : Prop :=
  forall n, N.testbit (if_mask i) n = true -> N.testbit a n = N.testbit (if_addr i) n.

(* The IPv4 address that a peer shows *)
Inductive shows : peer -> N -> Prop :=
| shows_v4 a : shows (V4 a) a
| shows_loopback : shows V6Loopback (127 * 256 * 256 * 256 + 1)%N.

Definition outside (vs : list iface) (p : peer) : Prop :=
  vs <> [] /\ forall a i, shows p a -> In i vs -> ~ in_subnet i a.
Definition inside (vs : list iface) (p : peer) : Prop :=
  exists a, shows p a /\ (vs = [] \/ exists i, In i vs /\ in_subnet i a).

Definition writes (r : request) : Prop := exists mri rest, r = Put mri rest \/ r = Post mri rest.

(* the id that the answer to a message must carry: the message's, or -1 if it has none *)
Inductive carries : message -> Z -> Prop :=
| carries_notdict : carries NotDict (-1)
| carries_noid : carries NoId (-1)
| carries_bad id : carries (BadRequest id) id
| carries_req id r : carries (Req id r) id.

(* the block that a request names; an Unsubscribe names none *)
Inductive names : request -> string -> Prop :=
| names_get m l : names (Get m l) m
| names_put m l : names (Put m l) m
| names_post m l : names (Post m l) m
| names_sub m l : names (Subscribe m l) m.

(* ---- C36 ---- *)
(* the requests sent in a history, in order: the n-th (from 1) has id n *)
Fixpoint sends {R} (os : list (cop R)) : list R :=
  match os with [] => [] | Send r :: t => r :: sends t | _ :: t => sends t end.
Definition sent_as {R} (os : list (cop R)) (id : nat) (r : R) : Prop :=
  exists n, id = S n /\ nth_error (sends os) n = Some r.

(* the events that end the wait of the request with an id *)
Definition ends_b {R} (id : nat) (e : cev R) : bool :=
  match e with
  | Handed _ (Final i) => Nat.eqb i id
  | Disconnected _ i => Nat.eqb i id
  | _ => false
  end.
Definition ended {R} (id : nat) (es : list (cev R)) : nat := length (filter (ends_b id) es).
