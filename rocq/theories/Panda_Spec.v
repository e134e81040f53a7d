(* Specification vocabulary for the PandA properties. *)
From Coq Require Import String Ascii Bool ZArith List.
From Verif Require Import Base Panda_Model.
Import ListNotations.
Local Open Scope list_scope.

(* ---- tables ---- *)
Section T.
Local Open Scope Z_scope.

(* A field layout the hardware can have: bits in order, inside one 32-bit word. *)
Definition field_ok (f : tfield) : Prop :=
  0 <= bits_lo f <= bits_hi f /\ bits_hi f / 32 = bits_lo f / 32 /\
  NoDup (labels f) /\ Z.of_nat (length (labels f)) <= 2 ^ (bits_hi f - bits_lo f + 1).

Definition disjoint (f g : tfield) : Prop := bits_hi f < bits_lo g \/ bits_hi g < bits_lo f.

(* The values a column can hold: one of the labels; a bool for a single bit; a
   number in the range of the bits.  Signed numbers only in fields of 8, 16 or 32
   bits (see the refutation for others). *)
Definition fits (f : tfield) (c : cell) : Prop :=
  let n := bits_hi f - bits_lo f + 1 in
  match c with
  | CStr s => In s (labels f)
  | CBool _ => labels f = [] /\ n = 1
  | CInt z => labels f = [] /\ 1 < n /\
      if signed f then (n = 8 \/ n = 16 \/ n = 32) /\ - 2 ^ (n - 1) <= z < 2 ^ (n - 1)
      else 0 <= z < 2 ^ n
  end.

Definition layout_ok (fs : list (string * tfield)) : Prop :=
  fs <> [] /\ NoDup (map fst fs) /\ Forall (fun nf => field_ok (snd nf)) fs /\
  ForallOrdPairs (fun a b => disjoint (snd a) (snd b)) fs /\
  (* the top bit is not the first bit of a word (see the refutation) *)
  (fold_right Z.max 0 (map (fun nf => bits_hi (snd nf)) fs)) mod 32 <> 0.

(* a table with a column for each field, each of n cells that fit *)
Definition table_ok (fs : list (string * tfield)) (n : nat) (t : dict (list cell)) : Prop :=
  Forall2 (fun nf nc => fst nf = fst nc /\ length (snd nc) = n /\ Forall (fits (snd nf)) (snd nc))
          fs t.
End T.

(* ---- client ---- *)
(* complete lines of a byte stream; [cur] is the line in progress, reversed *)
Fixpoint lines_of (cur b : bytes) : list bytes :=
  match b with
  | [] => []
  | c :: r => if Ascii.eqb c "010"%char then rev cur :: lines_of [] r else lines_of (c :: cur) r
  end.

Definition starts_err (l : bytes) : bool :=
  match l with
  | a :: b :: c :: _ => Ascii.eqb a "E"%char && Ascii.eqb b "R"%char && Ascii.eqb c "R"%char
  | _ => false
  end.
Definition starts_bang (l : bytes) : bool :=
  match l with a :: _ => Ascii.eqb a "!"%char | [] => false end.

Definition ends_multi (l : bytes) : bool :=
  match l with [a] => Ascii.eqb a "."%char | _ => false end.

(* The answers in a list of lines: a line, or lines with "!" up to a "."; an ERR line
   is always an answer on its own.  A line without "!" inside a multi-line answer is
   a protocol error: nothing is answered from there on. *)
Fixpoint answers (acc : option (list bytes)) (ls : list bytes) : list response :=
  match ls with
  | [] => []
  | l :: r =>
    if starts_err l then RErr l :: answers None r
    else match acc with
         | None => if ends_multi l then RMulti [] :: answers None r
                   else if starts_bang l then answers (Some [tl l]) r
                   else RLine l :: answers None r
         | Some got => if ends_multi l then RMulti got :: answers None r
                       else if starts_bang l then answers (Some (got ++ [tl l])) r
                       else []
         end
  end.

(* no protocol error *)
Fixpoint well_formed (multi : bool) (ls : list bytes) : bool :=
  match ls with
  | [] => true
  | l :: r =>
    if starts_err l then well_formed false r
    else if ends_multi l then well_formed false r
    else if starts_bang l then well_formed true r
    else if multi then false else well_formed false r
  end.

(* whole UTF-8 characters: ASCII, or a lead byte with its continuation bytes *)
Definition is_cont (c : ascii) : Prop := (128 <= nat_of_ascii c < 192)%nat.
Inductive text : bytes -> Prop :=
| text_nil : text []
| text_1 : forall c b, (nat_of_ascii c < 128)%nat -> text b -> text (c :: b)
| text_2 : forall c c1 b, (194 <= nat_of_ascii c < 224)%nat -> is_cont c1 -> text b ->
    text (c :: c1 :: b)
| text_3 : forall c c1 c2 b, (224 <= nat_of_ascii c < 240)%nat -> is_cont c1 -> is_cont c2 ->
    text b -> text (c :: c1 :: c2 :: b)
| text_4 : forall c c1 c2 c3 b, (240 <= nat_of_ascii c < 245)%nat ->
    is_cont c1 -> is_cont c2 -> is_cont c3 -> text b -> text (c :: c1 :: c2 :: c3 :: b).

Definition stream (es : list cevent) : bytes :=
  flat_map (fun e => match e with Packet b => b | Send _ => [] end) es.
Definition sent (es : list cevent) : list nat :=
  flat_map (fun e => match e with Packet _ => [] | Send i => [i] end) es.
Definition packets_ok (es : list cevent) : Prop :=
  Forall (fun e => match e with Packet b => b <> [] /\ text b | Send _ => True end) es.

(* ---- bit outputs ---- *)
(* the last value reported for k in a history of polls *)
Definition last_report (k : string) (h : list (list (string * bool))) : option bool :=
  fold_left (fun acc kv => if String.eqb k (fst kv) then Some (snd kv) else acc) (concat h) None.

Definition one_report_each (poll : list (string * bool)) : Prop := NoDup (map fst poll).

Definition polls (names : list string) (h : list (list (string * bool))) : bitouts :=
  fold_left bo_poll h (bo_init names).
