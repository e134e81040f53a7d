(* What users of attributes, methods, tables and tags rely on. *)
From Coq Require Import String Ascii Bool ZArith QArith Lia List.
From Verif Require Import Base Meta_Model.
Import ListNotations.
Local Open Scope string_scope.
Local Open Scope list_scope.
Local Open Scope nat_scope.

(* the arguments ps fit the declaration; fill: missing ones are filled in *)
Definition fits (mm : map_meta) (ps : list (string * pv)) (fill : bool) : Prop :=
  (forall k, In k (map fst ps) -> In k (map fst (mm_elements mm))) /\
  (forall r, In r (mm_required mm) ->
     In r (map fst ps) \/ (fill = true /\ In r (map fst (mm_elements mm)))) /\
  (forall k m, In (k, m) (mm_elements mm) ->
     (forall v, In (k, v) ps -> exists x, m v = Ok x) /\
     (fill = true -> ~ In k (map fst ps) -> exists x, m PNone = Ok x)).

(* choices of one kind: strings, or members of one Enum, where a name stands for one member *)
Definition one_kind (cs : list pv) : Prop :=
  (forall c, In c cs -> exists s, c = PStr s) \/
  (exists k, (forall c, In c cs -> exists n v, c = PEnum k n v) /\
             (forall n v v', In (PEnum k n v) cs -> In (PEnum k n v') cs -> v = v')).
(* the string a choice is known by *)
Definition known_by (c : pv) (s : string) : Prop :=
  match c with PStr t => s = t | PEnum _ _ v => s = v | _ => False end.

(* a rectangular table with n rows *)
Definition rect (t : table) (n : nat) : Prop :=
  t <> [] /\ forall k c, In (k, c) t -> length c = n.

Definition no_char (a : ascii) (s : string) : Prop := ~ In a (list_ascii_of_string s).
