(* What users of a manager block rely on. *)
From Coq Require Import String Bool Arith ZArith List.
From Verif Require Import Base Mgr_Model.
Import ListNotations.
Local Open Scope list_scope.

(* the last row of a table that names n *)
Definition last_row (n : string) (l : list row) : option row :=
  find (fun r => String.eqb (r_name r) n) (rev l).
(* an old row after a table has been written *)
Definition placed (value : list row) (r : row) : row :=
  match last_row (r_name r) value with
  | Some v => mkRow (r_name r) (r_mri r) (r_x v) (r_y v) (r_visible v)
  | None => r
  end.

Section Spec.
Context {V : Type}.
Variable none : V.
Variable eqv : V -> V -> bool.
(* attribute n of the child block, one that is saved, is not what was saved *)
Definition differs (c : @child V) (n : string) : Prop :=
  exists a i, dget n (ch_attrs c) = Some a /\ a_config a = Some i /\ ~ In n (ch_nosave c) /\
    eqv (match dget n (ch_saved c) with Some v => v | None => none end) (a_value a) = false.
(* something that is shown, or what is shown, or what is exported, is not what was saved *)
Definition changed (m : @mgr V) : Prop :=
  (exists c n, In c (m_parts m) /\ ch_visible c = Some true /\ differs c n) \/
  m_savedvis m <> Some (map r_visible (m_layout m)) \/ m_exports m <> m_savedexp m.
End Spec.
