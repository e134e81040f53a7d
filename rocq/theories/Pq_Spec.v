(* A PandA, for C104: what it has, what it answers, and how it reads what is sent to it (the protocol of the
   PandABlocks server). *)
From Coq Require Import String Ascii Bool ZArith List Permutation Sorted.
From Verif Require Import Base.
From Verif Require Hdf_Model Pq_Model.
Import ListNotations.
Local Open Scope nat_scope.
Local Open Scope string_scope.
Local Open Scope list_scope.
Local Infix "+++" := String.append (at level 60, right associativity).
Local Notation num := Hdf_Model.str.
Local Notation Line := Pq_Model.Line.
Local Notation Lines := Pq_Model.Lines.
Local Notation Error := Pq_Model.Error.

(* ---- what it has ---- *)
Record sfield := mkSF { s_name : string; s_index : nat; s_type : string; s_subtype : string; s_desc : string;
                        s_labels : list string; s_bits : list string }.
Record scolumn := mkSC { k_name : string; k_hi : nat; k_lo : nat; k_kind : string; k_desc : string; k_labels : list string }.
Record sblock := mkSB { b_name : string; b_number : nat; b_desc : string; b_fields : list sfield;
                        b_tables : dict (list scolumn) }.
Definition device := list sblock.

(* Names and types: letters, digits and underscores. *)
Definition name_char (c : ascii) : bool :=
  let n := nat_of_ascii c in
  (Nat.leb 48 n && Nat.leb n 57) || (Nat.leb 65 n && Nat.leb n 90) || (Nat.leb 97 n && Nat.leb n 122) || Nat.eqb n 95.
Fixpoint chars (f : ascii -> bool) (s : string) : bool :=
  match s with EmptyString => true | String c r => f c && chars f r end.
Definition ident (s : string) : Prop := s <> "" /\ chars name_char s = true.
Definition kind (s : string) : Prop := s = "" \/ ident s.
Definition block_ok (b : sblock) : Prop :=
  ident (b_name b) /\
  Forall (fun f => ident (s_name f) /\ ident (s_type f) /\ kind (s_subtype f)) (b_fields b) /\
  NoDup (map s_name (b_fields b)) /\
  Forall (fun t => ident (fst t) /\ NoDup (map k_name (snd t)) /\
                   Forall (fun c => ident (k_name c) /\ kind (k_kind c)) (snd t)) (b_tables b).
Definition device_ok (d : device) : Prop := Forall block_ok d /\ NoDup (map b_name d).

(* ---- what it answers ---- *)
Definition line_end : string := String (ascii_of_nat 10) "".
(* The text before the question mark that ends a request. *)
Fixpoint question (s : string) : option string :=
  if String.eqb s ("?" +++ line_end) then Some ""
  else match s with
       | EmptyString => None
       | String c r => match question r with Some t => Some (String c t) | None => None end
       end.
(* Its pieces between dots. *)
Fixpoint dots (s : string) : list string :=
  match s with
  | EmptyString => [""]
  | String c r => if Ascii.eqb c "." then "" :: dots r
                  else match dots r with w :: l => String c w :: l | [] => [String c ""] end
  end.
Fixpoint find_by {A} (name : A -> string) (n : string) (l : list A) : option A :=
  match l with [] => None | x :: r => if String.eqb (name x) n then Some x else find_by name n r end.
Definition more (s : string) : string := match s with EmptyString => "" | _ => " " +++ s end.
Definition field_line (f : sfield) : string := s_name f +++ " " +++ num (s_index f) +++ " " +++ s_type f +++ more (s_subtype f).
Definition column_line (c : scolumn) : string := num (k_hi c) +++ ":" +++ num (k_lo c) +++ " " +++ k_name c +++ more (k_kind c).
Definition or_err {A} (o : option A) (f : A -> Pq_Model.reply) : Pq_Model.reply :=
  match o with Some x => f x | None => Error "ERR No such thing" end.
Definition field_of (d : device) (b f : string) : option sfield :=
  match find_by b_name b d with Some x => find_by s_name f (b_fields x) | None => None end.
(* [t]: the name of the table followed by "[]". *)
Definition column_of (d : device) (b t c : string) : option scolumn :=
  match find_by b_name b d with
  | Some x => match find_by (fun y => fst y +++ "[]") t (b_tables x) with
              | Some y => find_by k_name c (snd y)
              | None => None
              end
  | None => None
  end.
Definition ok (s : string) : Pq_Model.reply := Line ("OK =" +++ s).
Definition serve (d : device) (q : string) : Pq_Model.reply :=
  match question q with
  | None => Error "ERR Not a question"
  | Some body =>
      match dots body with
      | [a] => if String.eqb a "*BLOCKS" then Lines (map (fun b => b_name b +++ " " +++ num (b_number b)) d)
               else Error "ERR What"
      | [a; b] =>
          if String.eqb a "*DESC" then or_err (find_by b_name b d) (fun x => ok (b_desc x))
          else if String.eqb b "*" then or_err (find_by b_name a d) (fun x => Lines (map field_line (b_fields x)))
          else Error "ERR What"
      | [a; b; c] =>
          if String.eqb a "*DESC" then or_err (field_of d b c) (fun f => ok (s_desc f))
          else if String.eqb a "*ENUMS" then or_err (field_of d b c) (fun f => Lines (s_labels f))
          else if String.eqb c "BITS" then or_err (field_of d a b) (fun f => Lines (s_bits f))
          else if String.eqb c "FIELDS"
          then or_err (match find_by b_name a d with Some x => dget b (b_tables x) | None => None end)
                      (fun t => Lines (map column_line t))
          else Error "ERR What"
      | [a; b; c; e] =>
          if String.eqb a "*DESC" then or_err (column_of d b c e) (fun x => ok (k_desc x))
          else if String.eqb a "*ENUMS"
          then match column_of d b c e with
               | Some x => Lines (k_labels x)
               | None => if String.eqb e "CAPTURE" then or_err (field_of d b c) (fun f => Lines (s_labels f))
                         else Error "ERR What"
               end
          else Error "ERR What"
      | _ => Error "ERR What"
      end
  end.

(* ---- how it reads what is sent ---- *)
(* A value is assigned, or the lines up to an empty one are a table, or something is asked. *)
Inductive command := Assign (name value : string) | Overwrite (name : string) (values : list string) | Ask (name : string)
  | Nonsense (line : string).
Fixpoint lines (s : string) : list string :=
  match s with
  | EmptyString => [""]
  | String c r => if Ascii.eqb c (ascii_of_nat 10) then "" :: lines r
                  else match lines r with w :: l => String c w :: l | [] => [String c ""] end
  end.
(* The first of = < ? in a line: what is before it, it, and what follows. *)
Fixpoint action (s : string) : option (string * ascii * string) :=
  match s with
  | EmptyString => None
  | String c r => if Ascii.eqb c "=" || Ascii.eqb c "<" || Ascii.eqb c "?" then Some ("", c, r)
                  else match action r with Some (n, a, v) => Some (String c n, a, v) | None => None end
  end.
(* [table]: the name of the table that is being read, and its lines so far, last first.  The last line has no end
   yet. *)
Fixpoint commands (table : option (string * list string)) (l : list string) : list command :=
  match l with
  | [] | [_] => []
  | x :: r =>
      match table with
      | Some (n, vs) => match x with
                        | EmptyString => Overwrite n (rev vs) :: commands None r
                        | _ => commands (Some (n, x :: vs)) r
                        end
      | None => match action x with
                | Some (n, a, v) => if Ascii.eqb a "=" then Assign n v :: commands None r
                                    else if Ascii.eqb a "<" then commands (Some (n, [])) r
                                    else Ask n :: commands None r
                | None => Nonsense x :: commands None r
                end
      end
  end.
Definition reads (text : string) : list command := commands None (lines text).

(* ---- what changed ---- *)
(* News of a PandA: a field has a value, a table was written, a field can't be read, or a line of another kind. *)
Inductive news := HasValue (f v : string) | Written (f : string) | Unreadable (f : string) | Other (line : string).
Definition news_line (n : news) : string :=
  match n with
  | HasValue f v => f +++ "=" +++ v
  | Written f => f +++ "<"
  | Unreadable f => f +++ " (error)"
  | Other l => l
  end.
Definition free (c : ascii) (s : string) : Prop := ~ exists a b, s = a +++ String c b.
Definition news_ok (n : news) : Prop :=
  match n with
  | HasValue f _ | Written f => free "=" f
  | Unreadable f => free "=" f /\ free " " f
  | Other l => l <> "" /\ free "=" l /\ (forall f, l <> f +++ "<") /\ (forall f, l <> f +++ "(error)")
  end.
