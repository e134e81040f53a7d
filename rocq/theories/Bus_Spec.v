(* Specification of the PandA bus tables: every position and every bit is a row of its
   own, which shows the last thing the device reported or the user asked for.  No column,
   no index and no dictionary of changes appears here. *)
From Coq Require Import String Ascii Bool ZArith QArith Lia List.
From Verif Require Import Base Bus_Model.
Import ListNotations.
Local Open Scope nat_scope.
Local Open Scope list_scope.

(* the cell of a table in a column and row *)
Definition at_ (t : table) (col : string) (i : nat) : option cell :=
  match dget col t with Some l => nth_error l i | None => None end.

(* the same value: numbers up to how the fraction is written *)
Definition same (a b : cell) : Prop :=
  match a, b with
  | CN p, CN q => (p == q)%Q
  | _, _ => a = b
  end.

(* the four fields of a position which the device reports and the user can set *)
Inductive field := Capture | Scale | Offset | Units.
Definition column (f : field) : string :=
  match f with Capture => "capture" | Scale => "scale" | Offset => "offset" | Units => "units" end.
Definition suffix (f : field) : string :=
  match f with Capture => "CAPTURE" | Scale => "SCALE" | Offset => "OFFSET" | Units => "UNITS" end.

Definition field_key (n : string) (f : field) : string := (n ++ "." ++ suffix f)%string.
(* the names the device uses for a position: itself and its four fields *)
Definition pos_key (n k : string) : Prop := k = n \/ exists f, k = field_key n f.
Definition pos_keyb (n k : string) : bool :=
  (String.eqb k n || existsb (fun f => String.eqb k (field_key n f))
                             [Capture; Scale; Offset; Units])%bool.

Fixpoint dots (s : string) : nat :=
  match s with
  | EmptyString => 0
  | String c r => (if Ascii.eqb c "."%char then 1 else 0) + dots r
  end.

(* the bits of the capture words: (word, bit) for every bit which has a name *)
Definition flat (pcap : dict (list string)) : list (string * string) :=
  flat_map (fun kv => map (fun b => (fst kv, b))
                          (filter (fun b => negb (String.eqb b "")) (snd kv))) pcap.

(* what is asked of the device: names are BLOCK.FIELD, and no two things share a name *)
Record hardware (pcap : dict (list string)) (pos : list string) : Prop := {
  hw_pos : NoDup pos;
  hw_dots : forall n, In n pos -> dots n = 1;
  hw_words : NoDup (map fst pcap);
  hw_bits : NoDup (map snd (flat pcap));
  hw_bit_pos : forall n k, In n pos -> pos_key n k -> ~ In k (map snd (flat pcap));
  hw_word_pos : forall n k, In n pos -> pos_key n k -> ~ In k (map fst pcap);
  hw_word_bit : forall k, In k (map snd (flat pcap)) -> ~ In k (map fst pcap) }.

(* ---- a position ---- *)

(* what a value means as a whole number, as a number and as it is shown *)
Definition whole_of (v : value) : option Z :=
  match v with VBit true => Some 1%Z | VBit false => Some 0%Z | VText t => as_int t end.
Definition number_of (v : value) : option Q :=
  match v with VBit true => Some 1%Q | VBit false => Some 0%Q | VText t => as_float t end.
Definition shown_as (v : value) : cell :=
  match v with VBit b => CB b | VText t => CS (raw t) end.
(* the counts last reported for the position n *)
Definition count_change (n : string) (z : Z) (kv : string * value) : Z :=
  if String.eqb (fst kv) n then
    match whole_of (snd kv) with Some z' => z' | None => z end
  else z.
Definition counts_step (n : string) (z : Z) (o : bop) : Z :=
  match o with Report ch => fold_left (count_change n) ch z | _ => z end.
Definition counts_after (n : string) (l : list bop) : Z := fold_left (counts_step n) l 0%Z.

(* what the text of a field means *)
Definition meaning (f : field) (v : value) (c : cell) : cell :=
  match f with
  | Scale | Offset => match number_of v with Some q => CN q | None => c end
  | Capture | Units => shown_as v
  end.
Definition field_change (n : string) (f : field) (c : cell) (kv : string * value) : cell :=
  if String.eqb (fst kv) (field_key n f) then meaning f (snd kv) c else c.

(* the row of a table with a name, and its cell *)
Fixpoint find_row (i : nat) (n : string) (l : list string) : option nat :=
  match l with
  | [] => None
  | x :: r => if String.eqb x n then Some i else find_row (S i) n r
  end.
Definition wanted (t : table) (n col : string) : option cell :=
  match find_row 0 n (names t) with Some i => at_ t col i | None => None end.

Definition field_step (n : string) (f : field) (c : cell) (o : bop) : cell :=
  match o with
  | Report ch => fold_left (field_change n f) ch c
  | SetPositions t _ => match wanted t n (column f) with Some w => w | None => c end
  | SetBits _ _ => c
  end.
Definition field_init (f : field) : cell :=
  match f with Capture => CS "No" | Scale => CN 1 | Offset => CN 0 | Units => CS "" end.
(* a field of the position n after what happened: the last report or request *)
Definition field_after (n : string) (f : field) (l : list bop) : cell :=
  fold_left (field_step n f) l (field_init f).

(* the device has said something of the position n *)
Definition mentions (n : string) (ch : list (string * value)) : bool :=
  existsb (fun kv => pos_keyb n (fst kv)) ch.

(* a request which asks for another scale or offset for n *)
Definition rescales (n : string) (t : table) (before : list bop) : Prop :=
  exists f w, (f = Scale \/ f = Offset) /\ wanted t n (column f) = Some w
              /\ ~ same (field_after n f before) w.

(* the device has been heard since the last request which rescaled n *)
Inductive heard (n : string) : list bop -> Prop :=
| heard_nil : heard n []
| heard_report : forall l ch, mentions n ch = true -> heard n (l ++ [Report ch])
| heard_report_other : forall l ch, heard n l -> heard n (l ++ [Report ch])
| heard_bits : forall l t r, heard n l -> heard n (l ++ [SetBits t r])
| heard_positions : forall l t r, heard n l -> ~ rescales n t l ->
    heard n (l ++ [SetPositions t r]).

(* ---- a bit ---- *)

(* the value last reported for the bit n *)
Definition bit_change (n : string) (c : cell) (kv : string * value) : cell :=
  if String.eqb (fst kv) n then shown_as (snd kv) else c.
Definition bit_step (n : string) (c : cell) (o : bop) : cell :=
  match o with Report ch => fold_left (bit_change n) ch c | _ => c end.
Definition bit_after (n : string) (l : list bop) : cell :=
  fold_left (bit_step n) l (CB false).

(* the word w is captured when it is set to anything but No *)
Definition word_change (w : string) (c : cell) (kv : string * value) : cell :=
  if String.eqb (fst kv) w then
    CB (match snd kv with VText t => negb (String.eqb (raw t) "No") | VBit _ => true end)
  else c.
Definition capture_step (n w : string) (c : cell) (o : bop) : cell :=
  match o with
  | Report ch => fold_left (word_change w) ch c
  | SetBits t _ => match wanted t n "capture" with Some x => x | None => c end
  | SetPositions _ _ => c
  end.
(* the capture box of the bit n of the word w: the last report of the word or request *)
Definition capture_after (n w : string) (l : list bop) : cell :=
  fold_left (capture_step n w) l (CB false).

(* requests which name no row twice *)
Definition op_wf (o : bop) : Prop :=
  match o with
  | Report _ => True
  | SetBits t _ | SetPositions t _ => NoDup (names t)
  end.
