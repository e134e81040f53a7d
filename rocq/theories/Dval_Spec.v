(* What validation should make of the detectors table. *)
From Coq Require Import String Bool ZArith QArith List Permutation.
From Verif Require Import Base Expo_Model Dval_Model.
Import ListNotations.
Local Open Scope list_scope.

(* The part says r' when the table has only the row r. *)
Definition says (p : dpart) (g : cgen) (axes : list string) (r r' : drow) : Prop :=
  (r' = r /\ on_validate p g axes [r] = Ok []) \/ on_validate p g axes [r] = Ok [TDet [r']].

(* The part has a last word on the row, and leaves the generator alone. *)
Definition steady (p : dpart) (g : cgen) (axes : list string) (r r' : drow) : Prop :=
  says p g axes r r' /\ on_validate p g axes [r'] = Ok [].

(* There is a row for the part. *)
Definition has_row (p : dpart) (t : list drow) : Prop := exists r, In r t /\ r_name r = p_name p.

(* [new] is the table for the rows [old]: each row is as its part wants it, the others are as
   they were, and rows that switch off the parts without one are at the end. *)
Definition settled (ps : list dpart) (g : cgen) (axes : list string) (old new : list drow) : Prop :=
  exists rows added,
    new = rows ++ added
    /\ Forall2 (fun r r' => (forall p, In p ps -> p_name p = r_name r -> steady p g axes r r')
                            /\ ((forall p, In p ps -> p_name p <> r_name r) -> r' = r)) old rows
    /\ (forall r, In r added <-> exists p, In p ps /\ ~ has_row p old /\ r = mkRow false (p_name p) (p_mri p) 0 0)
    /\ NoDup added.

(* The part asks for a change of the table: it has no row, or wants another. *)
Definition content (p : dpart) (g : cgen) (axes : list string) (t : list drow) : bool :=
  match find (fun r => String.eqb (r_name r) (p_name p)) t with
  | None => false
  | Some r => match on_validate p g axes [r] with Ok [] => true | _ => false end
  end.
Definition askers (ps : list dpart) (g : cgen) (axes : list string) (t : list drow) : nat :=
  length (filter (fun p => negb (content p g axes t)) ps).
