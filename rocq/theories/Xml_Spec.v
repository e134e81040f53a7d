(* A reader of XML, for C102: elements with attributes and no text, as in the recommendation of the W3C (XML 1.0):
   names, attribute values between double quotes with references and white space normalised, no name twice in
   one element, matching end tags. *)
From Coq Require Import String Ascii Bool List.
From Verif Require Import Base.
From Verif Require Hdf_Model.
Import ListNotations.
Local Open Scope nat_scope.
Local Open Scope string_scope.
Local Open Scope list_scope.
Local Notation el := Hdf_Model.el.
Local Notation El := Hdf_Model.El.

Definition code := nat_of_ascii.
Definition is (n : nat) (c : ascii) : bool := Nat.eqb (code c) n.
(* Characters that may be in a document. *)
Definition legal (c : ascii) : bool := Nat.leb 32 (code c) || is 9 c || is 10 c || is 13 c.
Definition digit (c : ascii) : bool := Nat.leb 48 (code c) && Nat.leb (code c) 57.
Definition name_start (c : ascii) : bool :=
  (Nat.leb 97 (code c) && Nat.leb (code c) 122) || (Nat.leb 65 (code c) && Nat.leb (code c) 90) || is 95 c.
Definition name_more (c : ascii) : bool := name_start c || digit c || is 45 c || is 46 c.
Definition space (c : ascii) : bool := is 32 c || is 9 c || is 10 c || is 13 c.

(* A name and what follows. *)
Fixpoint more (s : string) : string * string :=
  match s with
  | String c r => if name_more c then let (n, r') := more r in (String c n, r') else ("", s)
  | EmptyString => ("", "")
  end.
Definition name (s : string) : option (string * string) :=
  match s with
  | String c r => if name_start c then let (n, r') := more r in Some (String c n, r') else None
  | EmptyString => None
  end.
Fixpoint skip (s : string) : string :=
  match s with String c r => if space c then skip r else s | EmptyString => "" end.

(* The character that a reference stands for. *)
Fixpoint number (acc : nat) (s : string) : option nat :=
  match s with
  | EmptyString => Some acc
  | String c r => if digit c then number (10 * acc + (code c - 48)) r else None
  end.
Definition decode (ref : string) : option ascii :=
  if String.eqb ref "amp" then Some (ascii_of_nat 38)
  else if String.eqb ref "lt" then Some (ascii_of_nat 60)
  else if String.eqb ref "gt" then Some (ascii_of_nat 62)
  else if String.eqb ref "quot" then Some (ascii_of_nat 34)
  else if String.eqb ref "apos" then Some (ascii_of_nat 39)
  else match ref with
       | String c (String d r) =>
           if is 35 c
           then match number 0 (String d r) with
                | Some n => if Nat.ltb n 256 && legal (ascii_of_nat n) then Some (ascii_of_nat n) else None
                | None => None
                end
           else None
       | _ => None
       end.
(* The rest of a value up to its quote, and what follows; [ref]: the reference that is being read. *)
Fixpoint value (ref : option string) (s : string) : option (string * string) :=
  match s with
  | EmptyString => None
  | String c r =>
      match ref with
      | Some n =>
          if is 59 c
          then match decode n, value None r with
               | Some d, Some (v, r') => Some (String d v, r')
               | _, _ => None
               end
          else value (Some (n ++ String c "")%string) r
      | None =>
          if is 34 c then Some ("", r)
          else if is 38 c then value (Some "") r
          else if is 60 c then None
          else if legal c
          then match value None r with
               | Some (v, r') => Some (String (if space c then ascii_of_nat 32 else c) v, r')
               | None => None
               end
          else None
      end
  end.

(* The attributes up to the end of the tag; true: the element is empty. *)
Fixpoint attributes (fuel : nat) (s : string) : option (dict string * bool * string) :=
  match fuel with
  | O => None
  | S fuel =>
      match skip s with
      | String c r =>
          if is 62 c then Some ([], false, r)
          else if is 47 c
          then match r with String d r' => if is 62 d then Some ([], true, r') else None | EmptyString => None end
          else if (match s with String b _ => space b | EmptyString => false end)
          then match name (String c r) with
               | Some (k, String e (String q r')) =>
                   if is 61 e && is 34 q
                   then match value None r' with
                        | Some (v, r2) =>
                            match attributes fuel r2 with
                            | Some (l, empty, r3) => if dmem k l then None else Some ((k, v) :: l, empty, r3)
                            | None => None
                            end
                        | None => None
                        end
                   else None
               | _ => None
               end
          else None
      | EmptyString => None
      end
  end.

(* An element and what follows; elements up to an end tag, and what follows "</". *)
Fixpoint element (fuel : nat) (s : string) : option (el * string) :=
  match fuel with
  | O => None
  | S fuel =>
      match s with
      | String c r =>
          if is 60 c
          then match name r with
               | Some (tag, r1) =>
                   match attributes (String.length r1) r1 with
                   | Some (l, true, r2) => Some (El tag l [], r2)
                   | Some (l, false, r2) =>
                       match elements fuel r2 with
                       | Some (ks, r3) =>
                           match name r3 with
                           | Some (tag', String d r4) =>
                               if String.eqb tag tag' && is 62 d then Some (El tag l ks, r4) else None
                           | _ => None
                           end
                       | None => None
                       end
                   | None => None
                   end
               | None => None
               end
          else None
      | EmptyString => None
      end
  end
with elements (fuel : nat) (s : string) : option (list el * string) :=
  match fuel with
  | O => None
  | S fuel =>
      match s with
      | String c (String d r) =>
          if is 60 c && is 47 d then Some ([], r)
          else match element fuel s with
               | Some (k, r1) => match elements fuel r1 with Some (ks, r2) => Some (k :: ks, r2) | None => None end
               | None => None
               end
      | _ => None
      end
  end.

(* The declaration of version 1.0, and one element to the end. *)
Definition opening : string := "<?xml version=" ++ String (ascii_of_nat 34) ("1.0" ++ String (ascii_of_nat 34) " ?>").
Fixpoint after (p s : string) : option string :=
  match p, s with
  | EmptyString, _ => Some s
  | String c p, String d s => if Ascii.eqb c d then after p s else None
  | _, _ => None
  end.
Definition read (s : string) : option el :=
  match after opening s with
  | Some r => match element (String.length r) r with
              | Some (e, EmptyString) => Some e
              | _ => None
              end
  | None => None
  end.
