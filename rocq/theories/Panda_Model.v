(* Model of the PandA client, tables and bit outputs:
   /repo/malcolm/modules/pandablocks/pandablocksclient.py,
   parts/pandatablepart.py, controllers/pandamanagercontroller.py *)
From Coq Require Import String Ascii Bool ZArith Lia List.
From Verif Require Import Base.
Import ListNotations.
Local Open Scope list_scope.

(* ------------------------------------------------------------------ *)
(* Tables.  pandatablepart.py *)
Section Tables.
Local Open Scope Z_scope.

(* pandablocksclient.py 10-12, TableFieldData, without the description; labels =
   None and [] are both falsy and both are [] here *)
Record tfield := mkTF { bits_hi : Z; bits_lo : Z; labels : list string; signed : bool }.

(* a table cell: number, bool or choice string: pandatablepart.py 104-155 *)
Inductive cell := CInt (z : Z) | CBool (b : bool) | CStr (s : string).

(* BadColumn: assertion of get_column_index; NoIndex: IndexError on the int matrix or
   the labels; BadLabel: list.index ValueError; BadCell: numpy type error; BadShape:
   reshape or broadcast error; ZeroDiv; BadBits: ValueError from 30, 70: pandatablepart.py 19-155 *)
Inductive terr := BadColumn | NoIndex | BadLabel | BadCell | BadShape | ZeroDiv | BadBits.

(* pandatablepart.py 43-46, get_nbits_mask (2**nbits - 1 with nbits >= 1, line 69) *)
Definition nbits (f : tfield) : Z := bits_hi f - bits_lo f + 1.
(* pandatablepart.py 43-46. *)
Definition mask (f : tfield) : Z := 2 ^ nbits f - 1.

(* pandatablepart.py 35-40, get_column_index *)
Definition get_column_index (f : tfield) : result terr Z :=
  if bits_hi f / 32 =? bits_lo f / 32 then Ok (bits_lo f / 32) else Err BadColumn.

(* pandatablepart.py 91-92, ints_per_row: int((max_bits_hi + 31) / 32) *)
Definition ints_per_row (fs : list (string * tfield)) : Z :=
  (fold_right Z.max 0 (map (fun nf => bits_hi (snd nf)) fs) + 31) / 32.

(* list.index, used at pandatablepart.py 113 *)
Fixpoint index_of (s : string) (l : list string) : option Z :=
  match l with
  | [] => None
  | x :: r => if String.eqb s x then Some 0 else
                match index_of s r with Some i => Some (i + 1) | None => None end
  end.

(* pandatablepart.py 111-117: the integer of one cell before masking *)
Definition cell_int (f : tfield) (c : cell) : result terr Z :=
  match labels f, c with
  | _ :: _, CStr s => match index_of s (labels f) with Some i => Ok i | None => Err BadLabel end
  | [], CInt z => Ok z
  | [], CBool b => Ok (if b then 1 else 0)
  | _, _ => Err BadCell
  end.

(* all or first error, left to right (list comprehension 113): pandatablepart.py 104-126 *)
Fixpoint mapr {A B E} (g : A -> result E B) (l : list A) : result E (list B) :=
  match l with
  | [] => Ok []
  | x :: r => match g x with
              | Err e => Err e
              | Ok y => match mapr g r with Err e => Err e | Ok ys => Ok (y :: ys) end
              end
  end.

(* row[ci] |= v on one row of the matrix: pandatablepart.py 104-126 *)
Fixpoint or_at (row : list Z) (ci : nat) (v : Z) : list Z :=
  match row, ci with
  | [], _ => []
  | x :: r, O => Z.lor x v :: r
  | x :: r, S n => x :: or_at r n v
  end.

(* elementwise over rows, pandatablepart.py 123 *)
Fixpoint or_column (m : list (list Z)) (ci : nat) (vs : list Z) : list (list Z) :=
  match m, vs with
  | row :: m', v :: vs' => or_at row ci v :: or_column m' ci vs'
  | m, _ => m
  end.

(* pandatablepart.py 119-123: (value & mask) << (lo % 32), astype uint32.  Python's
   precedence makes line 120 (column_value & mask) << (bits_lo % 32).  The numpy
   widths before the shift are not modelled (exact integers) *)
Definition shifted (f : tfield) (z : Z) : Z :=
  (Z.shiftl (Z.land z (mask f)) (bits_lo f mod 32)) mod 2 ^ 32.

(* pandatablepart.py 109-123: one column into the matrix *)
Definition encode_column (ipr : Z) (m : list (list Z)) (f : tfield) (col : list cell)
  : result terr (list (list Z)) :=
  match mapr (cell_int f) col with
  | Err e => Err e
  | Ok zs =>
    match get_column_index f with
    | Err e => Err e
    | Ok ci =>
      if negb (ci <? ipr) then Err NoIndex
      else if negb (Nat.eqb (length zs) (length m)) then Err BadShape
      else Ok (or_column m (Z.to_nat ci) (map (shifted f) zs))
    end
  end.

(* pandatablepart.py 104-126. *)
Fixpoint encode_columns (ipr : Z) (m : list (list Z)) (fs : list (string * tfield))
  (t : dict (list cell)) : result terr (list (list Z)) :=
  match fs with
  | [] => Ok m
  | (n, f) :: r =>
    match dget n t with
    | None => Err BadCell
    | Some col =>
      match encode_column ipr m f col with
      | Err e => Err e
      | Ok m' => encode_columns ipr m' r t
      end
    end
  end.

(* pandatablepart.py 104-126, list_from_table *)
Definition list_from_table (fs : list (string * tfield)) (t : dict (list cell))
  : result terr (list Z) :=
  match fs with
  | [] => Err NoIndex
  | (n0, _) :: _ =>
    match dget n0 t with
    | None => Err BadCell
    | Some c0 =>
      let ipr := ints_per_row fs in
      match encode_columns ipr (repeat (repeat 0 (Z.to_nat ipr)) (length c0)) fs t with
      | Err e => Err e
      | Ok m => Ok (concat m)
      end
    end
  end.

(* numpy reshape((nrows, ipr)): cut into rows: pandatablepart.py 128-155 *)
Fixpoint chunks (fuel : nat) (n : nat) (l : list Z) : list (list Z) :=
  match fuel with
  | O => []
  | S k => match l with [] => [] | _ => firstn n l :: chunks k n (skipn n l) end
  end.

(* pandatablepart.py 19-32, get_dtype: number of bits of the numpy type *)
Definition dtype_bits (n : Z) : result terr Z :=
  if n <=? 8 then Ok 8 else if n <=? 16 then Ok 16 else if n <=? 32 then Ok 32
  else if n <=? 64 then Ok 64 else Err BadBits.

(* numpy astype to an (un)signed integer of w bits: wraps: pandatablepart.py 19-32, 128-155 *)
Definition wrap (w : Z) (sgn : bool) (z : Z) : Z :=
  let u := z mod 2 ^ w in
  if sgn && (2 ^ (w - 1) <=? u) then u - 2 ^ w else u.

(* pandatablepart.py 139-142: extract the bits of a field from a row *)
Definition extract (f : tfield) (ci : nat) (row : list Z) : Z :=
  Z.land (Z.shiftr (nth ci row 0) (bits_lo f mod 32)) (mask f).

(* pandatablepart.py 143-151: bits to a cell; the dtype is the one given to the column
   meta in 78-79 *)
Definition decode_cell (f : tfield) (z : Z) : result terr cell :=
  match labels f with
  | _ :: _ => match nth_error (labels f) (Z.to_nat z) with
              | Some s => Ok (CStr s) | None => Err NoIndex end
  | [] =>
    if nbits f =? 1 then Ok (CBool (negb (z =? 0)))
    else match dtype_bits (nbits f) with
         | Err e => Err e
         | Ok w => Ok (CInt (wrap w (signed f) z))
         end
  end.

(* pandatablepart.py 136-152: one column from the matrix *)
Definition decode_column (ipr : Z) (m : list (list Z)) (f : tfield) : result terr (list cell) :=
  match get_column_index f with
  | Err e => Err e
  | Ok ci => if negb (ci <? ipr) then Err NoIndex
             else mapr (decode_cell f) (map (extract f (Z.to_nat ci)) m)
  end.

(* pandatablepart.py 128-155. *)
Fixpoint decode_columns (ipr : Z) (m : list (list Z)) (fs : list (string * tfield))
  : result terr (dict (list cell)) :=
  match fs with
  | [] => Ok []
  | (n, f) :: r =>
    match decode_column ipr m f with
    | Err e => Err e
    | Ok col => match decode_columns ipr m r with
                | Err e => Err e
                | Ok t => Ok ((n, col) :: t)
                end
    end
  end.

(* pandatablepart.py 128-155, table_from_list, from the words as integers (each is
   int(x) of a decimal string) in the uint32 range; the final meta.validate is not
   modelled *)
Definition table_from_list (fs : list (string * tfield)) (words : list Z)
  : result terr (dict (list cell)) :=
  let ipr := ints_per_row fs in
  if ipr =? 0 then Err ZeroDiv
  else if negb (Z.of_nat (length words) mod ipr =? 0) then Err BadShape
  else decode_columns ipr (chunks (length words) (Z.to_nat ipr) words) fs.
End Tables.

(* ------------------------------------------------------------------ *)
(* Client.  pandablocksclient.py *)

(* bytes on the wire; text is kept as its bytes: pandablocksclient.py 95-179 *)
Definition bytes := list ascii.
(* pandablocksclient.py 133-144. *)
Definition newline : ascii := "010"%char.

(* bytes.decode("utf-8") succeeds or not, pandablocksclient.py 141: the shape of each
   multi-byte sequence is checked (overlong and surrogate forms are not) *)
Definition cont (c : ascii) : bool :=
  let n := nat_of_ascii c in Nat.leb 128 n && Nat.leb n 191.
(* pandablocksclient.py 133-144. *)
Fixpoint utf8_ok (fuel : nat) (b : bytes) : bool :=
  match fuel with
  | O => true
  | S f =>
    match b with
    | [] => true
    | c :: r =>
      let n := nat_of_ascii c in
      if Nat.leb n 127 then utf8_ok f r
      else if Nat.leb 194 n && Nat.leb n 223 then
        match r with c1 :: r' => cont c1 && utf8_ok f r' | _ => false end
      else if Nat.leb 224 n && Nat.leb n 239 then
        match r with c1 :: c2 :: r' => cont c1 && cont c2 && utf8_ok f r' | _ => false end
      else if Nat.leb 240 n && Nat.leb n 244 then
        match r with c1 :: c2 :: c3 :: r' => cont c1 && cont c2 && cont c3 && utf8_ok f r'
                   | _ => false end
      else false
    end
  end.

(* str.split("\n"): at least one piece: pandablocksclient.py 133-144 *)
Fixpoint split_lines (b : bytes) : list bytes :=
  match b with
  | [] => [[]]
  | c :: r =>
    if Ascii.eqb c newline then [] :: split_lines r
    else match split_lines r with
         | l :: ls => (c :: l) :: ls
         | [] => [[c]]
         end
  end.

(* what _respond puts on a response queue: ValueError(line), list of lines, or a line:
   pandablocksclient.py 146-151 *)
Inductive response := RErr (l : bytes) | RMulti (ls : list bytes) | RLine (l : bytes).

(* pandablocksclient.py 37-39 and 62: the response in progress, the queue of requests
   waiting (request ids for their response queues), the line buffer 134, whether the
   receive thread is alive, and what was put on which response queue *)
Record client := mkClient {
  c_lines : list bytes; c_multi : option bool; c_waiting : list nat;
  c_buf : bytes; c_alive : bool; c_got : list (nat * response) }.

(* pandablocksclient.py 155-156, 134 *)
Definition client_init : client := mkClient [] None [] [] true [].

(* pandablocksclient.py 146-151, _respond; an empty queue raises after 0.1 s, which
   ends the receive loop (177-179) *)
Definition respond (c : client) (r : response) : client :=
  match c_waiting c with
  | [] => mkClient (c_lines c) (c_multi c) [] (c_buf c) false (c_got c)
  | q :: w => mkClient [] None w (c_buf c) (c_alive c) (c_got c ++ [(q, r)])
  end.

(* line.startswith(prefix): pandablocksclient.py 146-179 *)
Fixpoint starts_with (p l : bytes) : bool :=
  match p, l with
  | [], _ => true
  | a :: p', b :: l' => Ascii.eqb a b && starts_with p' l'
  | _, _ => false
  end.
(* pandablocksclient.py 153-179. *)
Definition bang : ascii := "!"%char.
(* pandablocksclient.py 153-179. *)
Definition dot : bytes := ["."%char].
(* pandablocksclient.py 153-179. *)
Definition ERR : bytes := ["E"%char; "R"%char; "R"%char].

(* line == ".": pandablocksclient.py 153-179 *)
Definition is_dot (l : bytes) : bool :=
  match l with [c] => Ascii.eqb c "."%char | _ => false end.

(* pandablocksclient.py 159-179, one round of _recv_loop with a line; after an
   exception the thread has ended *)
Definition recv_line (c : client) (l : bytes) : client :=
  if negb (c_alive c) then c
  else
    let multi := match c_multi c with
                 | Some m => m
                 | None => starts_with [bang] l || is_dot l
                 end in
    let c := mkClient (c_lines c) (Some multi) (c_waiting c) (c_buf c) (c_alive c) (c_got c) in
    if starts_with ERR l then respond c (RErr l)
    else if multi then
      if is_dot l then respond c (RMulti (c_lines c))
      else match l with
           | ch :: rest =>
             if Ascii.eqb ch bang
             then mkClient (c_lines c ++ [rest]) (c_multi c) (c_waiting c) (c_buf c) (c_alive c) (c_got c)
             else mkClient (c_lines c) (c_multi c) (c_waiting c) (c_buf c) false (c_got c)
           | [] => mkClient (c_lines c) (c_multi c) (c_waiting c) (c_buf c) false (c_got c)
           end
    else respond c (RLine l).

(* pandablocksclient.py 133-144, _get_lines and the loop around it for one
   socket.recv; a packet that does not decode raises; an empty one ends the loop *)
Definition recv_packet (c : client) (rx : bytes) : client :=
  if negb (c_alive c) then c
  else if negb (utf8_ok (length rx) rx) then
    mkClient (c_lines c) (c_multi c) (c_waiting c) (c_buf c) false (c_got c)
  else match rx with
  | [] => mkClient (c_lines c) (c_multi c) (c_waiting c) (c_buf c) false (c_got c)
  | _ =>
    let lines := split_lines (c_buf c ++ rx) in
    let c' := fold_left recv_line (removelast lines) c in
    mkClient (c_lines c') (c_multi c') (c_waiting c') (last lines []) (c_alive c') (c_got c')
  end.

(* pandablocksclient.py 121-131, _send_loop: the response queue is queued, then the
   message is sent *)
Inductive cevent := Send (id : nat) | Packet (rx : bytes).
(* pandablocksclient.py 133-179. *)
Definition cstep (c : client) (e : cevent) : client :=
  match e with
  | Send id => mkClient (c_lines c) (c_multi c) (c_waiting c ++ [id]) (c_buf c) (c_alive c) (c_got c)
  | Packet rx => recv_packet c rx
  end.
(* pandablocksclient.py 133-179. *)
Definition crun (es : list cevent) : client := fold_left cstep es client_init.

(* ------------------------------------------------------------------ *)
(* Bit outputs.  pandamanagercontroller.py *)

(* pandamanagercontroller.py 203-204: _bit_outs, _bit_out_changes; bo_shown is what the
   busses part and the blocks were last told for each bit *)
Record bitouts := mkBO { bo_outs : dict bool; bo_changes : dict bool; bo_shown : dict bool }.

(* pandamanagercontroller.py 239-268 for a key that is a bit; [now] is the dict
   bit_out_changes of handle_changes.  Keys that are not bits are passed on unchanged
   and are not modelled; nor is the notification by block name of 270-286 (same value
   as the one given to the bus) *)
Definition bo_handle_change (now : dict bool) (s : bitouts) (kv : string * bool) : bitouts :=
  let (k, v) := kv in
  match dget k (bo_outs s) with
  | None => s
  | Some current_v =>
    match dget k now with
    | None =>
      if Bool.eqb v current_v then
        mkBO (dset k (negb v) (bo_outs s)) (dset k v (bo_changes s)) (dset k (negb v) (bo_shown s))
      else mkBO (dset k v (bo_outs s)) (bo_changes s) (dset k v (bo_shown s))
    | Some changed_to =>
      if negb (Bool.eqb changed_to v) then mkBO (bo_outs s) (dset k v (bo_changes s)) (bo_shown s)
      else s
    end
  end.

(* pandamanagercontroller.py 295-302: apply the changes kept from last time *)
Definition bo_apply (s : bitouts) (kv : string * bool) : bitouts :=
  mkBO (dset (fst kv) (snd kv) (bo_outs s)) (bo_changes s) (dset (fst kv) (snd kv) (bo_shown s)).

(* pandamanagercontroller.py 288-312, handle_changes; bus_changes is given to the busses
   part at the end (309-310), here each value as it is recorded *)
Definition bo_poll (s : bitouts) (changes : list (string * bool)) : bitouts :=
  let now := bo_changes s in
  let s0 := mkBO (bo_outs s) [] (bo_shown s) in
  let s1 := fold_left bo_apply now s0 in
  fold_left (bo_handle_change now) changes s1.

(* pandamanagercontroller.py 203-204 *)
Definition bo_init (names : list string) : bitouts :=
  let z := map (fun n => (n, false)) names in mkBO z [] z.
