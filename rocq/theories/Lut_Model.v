(* The icon of a LUT block: pandablocks/parts/pandaluticonpart.py 1-79. *)
From Coq Require Import String Ascii Bool ZArith List.
From Verif Require Import Base.
Import ListNotations.
Local Open Scope string_scope.
Local Open Scope list_scope.

(* LUT_CONSTANTS: pandaluticonpart.py 8-10, as a dict. *)
Definition LUT_CONSTANTS : list (string * Z) :=
  [("A", 0xFFFF0000%Z); ("B", 0xFF00FF00%Z); ("C", 0xF0F0F0F0%Z); ("D", 0xCCCCCCCC%Z); ("E", 0xAAAAAAAA%Z)].
(* 2**32 - 1: pandaluticonpart.py 32, 64. *)
Definition ALL : Z := 0xFFFFFFFF%Z.
(* s.add(x) for a set of names (Python semantics): the order is of no meaning: pandaluticonpart.py 13-41. *)
Definition add (x : string) (s : list string) : list string := if smem x s then s else s ++ [x].
(* LUT_CONSTANTS[inp]: pandaluticonpart.py 32, 35, 64 (only for the five letters). *)
Definition constant (inp : string) : Z := match dget inp LUT_CONSTANTS with Some z => z | None => 0%Z end.
(* The inputs as enumerated: pandaluticonpart.py 23: i with the letter. *)
Definition inputs : list (nat * string) := [(0, "E"); (1, "D"); (2, "C"); (3, "B"); (4, "A")].
(* negations[i] == "1": pandaluticonpart.py 22, 31: character i of format(permutation, "05b") is bit 4 - i. *)
Definition negated (permutation : nat) (i : nat) : bool := Nat.testbit permutation (4 - i).
(* The operators: pandaluticonpart.py 49. *)
Definition operator (func : string) : Z -> Z -> Z := if String.eqb func "AND" then Z.land else Z.lor.
(* One turn of the loop: pandaluticonpart.py 23-35. *)
Definition calc_input (nargs permutation : nat) (s : list string * list Z) (it : nat * string) : list string * list Z :=
  let '(i, inp) := it in
  if Nat.ltb nargs (5 - i)
  then (add ("edge" ++ inp)%string (add ("not" ++ inp)%string (add inp (fst s))), snd s)
  else if negated permutation i
       then (fst s, snd s ++ [Z.land (Z.lnot (constant inp)) ALL])
       else (add ("not" ++ inp)%string (fst s), snd s ++ [constant inp]).
(* _calc_visibility: pandaluticonpart.py 13-41; None is an IndexError (less than two arguments). *)
Definition calc_visibility (func : string) (nargs permutation : nat) : option (Z * list string) :=
  let invis := filter (fun x => negb (String.eqb x func)) ["AND"; "OR"; "LUT"; "NOT"] in
  let '(invis, args) := fold_left (calc_input nargs permutation) inputs (invis, []) in
  match args with
  | a :: b :: r => Some (fold_left (operator func) r (operator func a b), invis)
  | _ => None
  end.
(* d[k] = v for a dict with numbers as keys (Python semantics): pandaluticonpart.py 44-75. *)
Fixpoint zset {A} (k : Z) (v : A) (d : list (Z * A)) : list (Z * A) :=
  match d with [] => [(k, v)] | (k', v') :: r => if Z.eqb k k' then (k, v) :: r else (k', v') :: zset k v r end.
(* d.get(k) (Python semantics): pandaluticonpart.py 78-79. *)
Fixpoint zget {A} (k : Z) (d : list (Z * A)) : option A :=
  match d with [] => None | (k', v) :: r => if Z.eqb k k' then Some v else zget k r end.
(* The keys in the order in which they are set: pandaluticonpart.py 49-53. *)
Definition general : list (string * nat * nat) :=
  flat_map (fun func => flat_map (fun nargs => map (fun p => (func, nargs, p)) (seq 0 (2 ^ nargs))) [2; 3; 4; 5]) ["AND"; "OR"].
(* The special cases for NOT: pandaluticonpart.py 56-64. *)
Definition not_invis (ninp : string) : list string :=
  fold_left (fun s inp => add ("not" ++ inp)%string (if String.eqb inp ninp then s else add ("edge" ++ inp)%string (add inp s)))
            ["A"; "B"; "C"; "D"; "E"] ["AND"; "OR"; "LUT"].
(* The catchall: pandaluticonpart.py 65-69. *)
Definition lut_invis : list string := fold_left (fun s inp => add ("not" ++ inp)%string s) ["A"; "B"; "C"; "D"; "E"] ["AND"; "OR"; "NOT"].
(* _generate_lut_elements: pandaluticonpart.py 44-70; an exception of calc_visibility would leave the entry
   out here (there is none: see Lut_Props). *)
Definition lut_elements : list (Z * list string) :=
  let d := fold_left (fun d k => let '(func, nargs, p) := k in
                                 match calc_visibility func nargs p with Some (f, invis) => zset f invis d | None => d end) general [] in
  let d := fold_left (fun d n => zset (Z.land (Z.lnot (constant n)) ALL) (not_invis n) d) ["A"; "B"; "C"; "D"; "E"] d in
  zset 0%Z lut_invis d.
(* get_lut_icon_elements: pandaluticonpart.py 73-79. *)
Definition get_lut_icon_elements (fnum : Z) : list string := match zget fnum lut_elements with Some s => s | None => lut_invis end.
