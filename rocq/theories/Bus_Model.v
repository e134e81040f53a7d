(* Model of the PandA bus tables:
   /repo/malcolm/modules/pandablocks/parts/pandabussespart.py, with the tables of
   /repo/malcolm/modules/pandablocks/util.py and
   /repo/malcolm/modules/ADPandABlocks/parts/pandadatasetbussespart.py *)
From Coq Require Import String Ascii Bool ZArith QArith Lia List.
From Verif Require Import Base.
Import ListNotations.
Local Open Scope nat_scope.
Local Open Scope list_scope.

(* a cell of a table: bool, number or string; a PositionCapture is its string value
   (pandablocks/util.py 41-55); floats are exact rationals *)
Inductive cell := CB (b : bool) | CN (q : Q) | CS (s : string).

(* core/table.py 5-50: a table is its columns by name, all the same length; the
   column "name" holds strings *)
Definition table := dict (list cell).

(* what a change carries: a bool for a bit output, which the manager has converted
   (pandamanagercontroller.py 247), otherwise the text of the device.  [as_int] and
   [as_float] are what int() and float() make of the text, None for ValueError *)
Record text := mkText { raw : string; as_int : option Z; as_float : option Q }.
(* pandabussespart.py 195-198, 206-209. *)
Inductive value := VBit (b : bool) | VText (t : text).

(* NoColumn: AttributeError; NoRow: IndexError; BadValue: ValueError of int, float or
   PositionCapture, or arithmetic on something not a number; BadName: assertion 217 of pandabussespart.py;
   Unknown: assertion 260-264; NoKey: KeyError; Refused: the ValueError of
   pandablocksclient.py 363 *)
Inductive berr := NoColumn | NoRow | BadValue | BadName | Unknown | NoKey | Refused.

(* l[i] = v on a list or array; None is IndexError (Python list semantics):
   pandabussespart.py 103, 202, 227-229, 237, 252 *)
Fixpoint set_nth {A} (i : nat) (v : A) (l : list A) : option (list A) :=
  match l, i with
  | [], _ => None
  | _ :: r, 0 => Some (v :: r)
  | x :: r, S j => match set_nth j v r with Some r' => Some (x :: r') | None => None end
  end.

(* pandabussespart.py 17-31, update_column, followed by the assignment [i] = v which
   every caller makes (103, 202, 227-229, 237, 252) *)
Definition update_column (chg : table) (col : string) (t : table) (i : nat) (v : cell)
  : result berr table :=
  match (match dget col chg with Some l => Some l | None => dget col t end) with
  | None => Err NoColumn
  | Some l => match set_nth i v l with
              | Some l' => Ok (dset col l' chg)
              | None => Err NoRow
              end
  end.

(* pandabussespart.py 34-38, make_updated_table *)
Definition make_updated_table (old chg : table) : table :=
  map (fun kc => (fst kc, match dget (fst kc) chg with Some l => l | None => snd kc end)) old.

(* dictionaries with integer keys, for _pos_values, pandabussespart.py 59 *)
Fixpoint nget (i : nat) (d : list (nat * Z)) : option Z :=
  match d with
  | [] => None
  | (j, v) :: r => if Nat.eqb i j then Some v else nget i r
  end.
(* pandabussespart.py 59, 193, 214. *)
Fixpoint nset (i : nat) (v : Z) (d : list (nat * Z)) : list (nat * Z) :=
  match d with
  | [] => [(i, v)]
  | (j, w) :: r => if Nat.eqb i j then (j, v) :: r else (j, w) :: nset i v r
  end.

(* pandabussespart.py 50-64, the fields of the part, with the values of its two
   attributes *)
Record busses := mkB {
  bits : table;
  positions : table;
  bit_indexes : dict nat;
  pos_indexes : dict nat;
  pos_values : list (nat * Z);
  pcap_bit_indexes : dict (list nat);
  bit_pcap_fields : dict string }.

(* ------------------------------------------------------------------ *)
(* pandabussespart.py 144-163: the tables of create_busses; [ds] is true for the tables
   of pandadatasetbussespart.py 20-48 with their two columns more *)
Definition initial_bits (ds : bool) (names : list string) : table :=
  [("name"%string, map CS names);
   ("value"%string, map (fun _ => CB false) names);
   ("capture"%string, map (fun _ => CB false) names)]
  ++ (if ds then [("datasetName"%string, map (fun _ => CS "") names);
                  ("datasetType"%string, map (fun _ => CS "monitor") names)] else []).

(* pandadatasetbussespart.py 36: pos.startswith("INENC") *)
Definition is_inenc (s : string) : bool := String.prefix "INENC" s.

(* pandabussespart.py 153-163 and pandadatasetbussespart.py 33-48 *)
Definition initial_pos (ds : bool) (names : list string) : table :=
  [("name"%string, map CS names);
   ("value"%string, map (fun _ => CN 0) names);
   ("units"%string, map (fun _ => CS "") names);
   ("scale"%string, map (fun _ => CN 1) names);
   ("offset"%string, map (fun _ => CN 0) names);
   ("capture"%string, map (fun _ => CS "No") names)]
  ++ (if ds then [("datasetName"%string, map (fun _ => CS "") names);
                  ("datasetType"%string,
                     map (fun n => CS (if is_inenc n then "position" else "monitor")) names)]
      else []).

(* pandabussespart.py 173-181, one bit of one capture field: nothing for an empty name *)
Definition create_bit (k : string) (acc : list string * dict nat * dict string * list nat)
  (bit : string) : list string * dict nat * dict string * list nat :=
  let '(names, idx, fields, here) := acc in
  if String.eqb bit "" then acc
  else (names ++ [bit], dset bit (length names) idx, dset bit k fields,
        here ++ [length names]).

(* pandabussespart.py 173-182, one capture field with its bits *)
Definition create_word (acc : list string * dict nat * dict string * dict (list nat))
  (kv : string * list string) : list string * dict nat * dict string * dict (list nat) :=
  let '(names, idx, fields, words) := acc in
  let '(names', idx', fields', here) :=
    fold_left (create_bit (fst kv)) (snd kv) (names, idx, fields, []) in
  (names', idx', fields', dset (fst kv) here words).

(* pandabussespart.py 191 *)
Definition suffixes : list string := ["CAPTURE"; "SCALE"; "OFFSET"; "UNITS"]%string.

(* pandabussespart.py 192, f"{k}.{suffix}" *)
Definition dotted (k suffix : string) : string := (k ++ "." ++ suffix)%string.

(* enumerate, pandabussespart.py 189, 190 *)
Fixpoint enum {A} (i : nat) (l : list A) : list (nat * A) :=
  match l with [] => [] | x :: r => (i, x) :: enum (S i) r end.

(* pandabussespart.py 189-193, the position lookups *)
Definition pos_lookup (names : list string) : dict nat :=
  fold_left (fun d ik => fold_left (fun d s => dset (dotted (snd ik) s) (fst ik) d) suffixes d)
            (enum 0 names)
            (fold_left (fun d ik => dset (snd ik) (fst ik) d) (enum 0 names) []).

(* pandabussespart.py 165-193, create_busses.  Called once for a part
   (pandamanagercontroller.py 103), so that _pos_values is empty before *)
Definition create_busses (ds : bool) (pcap : dict (list string)) (pos_names : list string)
  : busses :=
  let '(names, idx, fields, words) := fold_left create_word pcap ([], [], [], []) in
  mkB (initial_bits ds names) (initial_pos ds pos_names) idx (pos_lookup pos_names)
      (map (fun ik => (fst ik, 0%Z)) (enum 0 pos_names)) words fields.

(* ------------------------------------------------------------------ *)
(* pandabussespart.py 202: the value as it is put in the table *)
Definition cell_of (v : value) : cell :=
  match v with VBit b => CB b | VText t => CS (raw t) end.
(* pandabussespart.py 214: int(value); int(True) is 1 *)
Definition to_int (v : value) : option Z :=
  match v with VBit b => Some (if b then 1%Z else 0%Z) | VText t => as_int t end.
(* pandabussespart.py 221: float(value) *)
Definition to_float (v : value) : option Q :=
  match v with VBit b => Some (if b then 1 else 0)%Q | VText t => as_float t end.

(* pandablocks/util.py 41-55, the values of PositionCapture *)
Definition captures : list string :=
  ["No"; "Value"; "Diff"; "Sum"; "Mean"; "Min"; "Max"; "Min Max"; "Min Max Mean"]%string.
(* pandabussespart.py 223: PositionCapture(value) *)
Definition to_capture (v : value) : option string :=
  match v with
  | VText t => if smem (raw t) captures then Some (raw t) else None
  | VBit _ => None
  end.

(* str.split("."), pandabussespart.py 211 *)
Fixpoint split_dot (s : string) : list string :=
  match s with
  | EmptyString => [EmptyString]
  | String c r =>
      if Ascii.eqb c "."%char then EmptyString :: split_dot r
      else match split_dot r with
           | [] => [String c EmptyString]
           | x :: l => String c x :: l
           end
  end.

(* str.lower on ASCII, pandabussespart.py 218 *)
Definition lower_char (c : ascii) : ascii :=
  let n := nat_of_ascii c in
  if (Nat.leb 65 n && Nat.leb n 90)%bool then ascii_of_nat (n + 32) else c.
(* pandabussespart.py 218. *)
Fixpoint lower (s : string) : string :=
  match s with EmptyString => EmptyString | String c r => String (lower_char c) (lower r) end.

(* pandabussespart.py 195-204, _handle_bit; None is the return value None *)
Definition handle_bit (b : busses) (k : string) (v : value) (chg : table)
  : result berr (option table) :=
  match dget k (bit_indexes b) with
  | None => Ok None
  | Some i => match update_column chg "value" (bits b) i (cell_of v) with
              | Ok c => Ok (Some c)
              | Err e => Err e
              end
  end.

(* pandabussespart.py 220-225: the parsed value of a field of a position *)
Definition parse_field (column : string) (v : value) : result berr cell :=
  if (String.eqb column "scale" || String.eqb column "offset")%bool then
    match to_float v with Some q => Ok (CN q) | None => Err BadValue end
  else if String.eqb column "capture" then
    match to_capture v with Some s => Ok (CS s) | None => Err BadValue end
  else Ok (cell_of v).

(* pandabussespart.py 233-234: column_changes.get(col, table_value.col)[i] as a number *)
Definition number_at (chg t : table) (col : string) (i : nat) : result berr Q :=
  match (match dget col chg with Some l => Some l | None => dget col t end) with
  | None => Err NoColumn
  | Some l => match nth_error l i with
              | Some (CN q) => Ok q
              | Some _ => Err BadValue
              | None => Err NoRow
              end
  end.

(* pandabussespart.py 211-229: what a change does before the value is worked out again *)
Definition handle_pos_field (b : busses) (vals : list (nat * Z)) (k : string) (v : value)
  (chg : table) (i : nat) : result berr (table * list (nat * Z)) :=
  match split_dot k with
  | [_; _] => match to_int v with
              | Some z => Ok (chg, nset i z vals)
              | None => Err BadValue
              end
  | [_; _; s] => match parse_field (lower s) v with
                 | Err e => Err e
                 | Ok c => match update_column chg (lower s) (positions b) i c with
                           | Ok chg' => Ok (chg', vals)
                           | Err e => Err e
                           end
                 end
  | _ => Err BadName
  end.

(* pandabussespart.py 206-241, _handle_pos.  The counts come back also from a change
   that fails, since they are kept in the part *)
Definition handle_pos (b : busses) (vals : list (nat * Z)) (k : string) (v : value)
  (chg : table) : result berr (option table) * list (nat * Z) :=
  match dget k (pos_indexes b) with
  | None => (Ok None, vals)
  | Some i =>
      match handle_pos_field b vals k v chg i with
      | Err e => (Err e, vals)
      | Ok (chg1, vals1) =>
          (match number_at chg1 (positions b) "scale" i with
           | Err e => Err e
           | Ok scale =>
               match number_at chg1 (positions b) "offset" i with
               | Err e => Err e
               | Ok offset =>
                   match nget i vals1 with
                   | None => Err NoKey
                   | Some z =>
                       match update_column chg1 "value" (positions b) i
                               (CN (inject_Z z * scale + offset)) with
                       | Ok c => Ok (Some c)
                       | Err e => Err e
                       end
                   end
               end
           end, vals1)
      end
  end.

(* pandabussespart.py 251-253, the bits of one capture field *)
Fixpoint capture_bits (b : busses) (capture : bool) (l : list nat) (chg : table)
  : result berr table :=
  match l with
  | [] => Ok chg
  | i :: r => match update_column chg "capture" (bits b) i (CB capture) with
              | Ok c => capture_bits b capture r c
              | Err e => Err e
              end
  end.

(* pandabussespart.py 243-254, _handle_pcap *)
Definition handle_pcap (b : busses) (k : string) (v : value) (chg : table)
  : result berr (option table) :=
  match dget k (pcap_bit_indexes b) with
  | None => Ok None
  | Some l =>
      let capture := match v with VText t => negb (String.eqb (raw t) "No") | VBit _ => true end in
      match capture_bits b capture l chg with
      | Ok c => Ok (Some c)
      | Err e => Err e
      end
  end.

(* pandabussespart.py 259-264, one change of a batch; the first handler which knows the
   field has it *)
Definition handle_change (b : busses) (acc : table * table * list (nat * Z)) (kv : string * value)
  : result berr (table * table) * list (nat * Z) :=
  let '(bc, pc, vals) := acc in
  match handle_bit b (fst kv) (snd kv) bc with
  | Err e => (Err e, vals)
  | Ok (Some bc') => (Ok (bc', pc), vals)
  | Ok None =>
      match handle_pos b vals (fst kv) (snd kv) pc with
      | (Err e, vals') => (Err e, vals')
      | (Ok (Some pc'), vals') => (Ok (bc, pc'), vals')
      | (Ok None, vals') =>
          match handle_pcap b (fst kv) (snd kv) bc with
          | Err e => (Err e, vals')
          | Ok (Some bc') => (Ok (bc', pc), vals')
          | Ok None => (Err Unknown, vals')
          end
      end
  end.

(* pandabussespart.py 259-264, the loop over the changes *)
Fixpoint handle_each (b : busses) (changes : list (string * value))
  (acc : table * table * list (nat * Z)) : result berr (table * table) * list (nat * Z) :=
  match changes with
  | [] => let '(bc, pc, vals) := acc in (Ok (bc, pc), vals)
  | kv :: r => match handle_change b acc kv with
               | (Ok (bc, pc), vals) => handle_each b r (bc, pc, vals)
               | (Err e, vals) => (Err e, vals)
               end
  end.

(* the part after its attributes and counts were set (pandabussespart.py 124, 142, 214,
   269, 273) *)
Definition with_tables (b : busses) (bt pt : table) (vals : list (nat * Z)) : busses :=
  mkB bt pt (bit_indexes b) (pos_indexes b) vals (pcap_bit_indexes b) (bit_pcap_fields b).

(* pandabussespart.py 256-273, handle_changes; alarm and time stamp left out.  An empty
   dictionary of changes gives the table again, so the tests at 267, 271 are not needed *)
Definition handle_changes (b : busses) (changes : list (string * value))
  : busses * option berr :=
  match handle_each b changes ([], [], pos_values b) with
  | (Err e, vals) => (with_tables b (bits b) (positions b) vals, Some e)
  | (Ok (bc, pc), vals) =>
      (with_tables b (make_updated_table (bits b) bc) (make_updated_table (positions b) pc) vals,
       None)
  end.

(* ------------------------------------------------------------------ *)
(* the strings of the name column, pandabussespart.py 91 *)
Definition strings (l : list cell) : list string :=
  map (fun c => match c with CS s => s | _ => ""%string end) l.
(* table.name, pandabussespart.py 90, 91, 112, 133 *)
Definition names (t : table) : list string :=
  match dget "name" t with Some l => strings l | None => [] end.

(* old[k][j] != new_value, pandabussespart.py 101 *)
Definition cell_eqb (a b : cell) : bool :=
  match a, b with
  | CB x, CB y => Bool.eqb x y
  | CN x, CN y => Qeq_bool x y
  | CS x, CS y => String.eqb x y
  | _, _ => false
  end.

(* pandabussespart.py 90: the dictionary comprehension; a later row of the same name
   takes the place of the earlier *)
Definition lookup_of (t : table) : dict nat :=
  fold_left (fun d ik => dset (snd ik) (fst ik) d) (enum 0 (names t)) [].

(* pandabussespart.py 92-103, one column of one row of the new table *)
Definition change_cell (old new : table) (lookup : dict nat) (i : nat) (name : string)
  (chg : table) (k : string) : result berr table :=
  if (String.eqb k "name" || String.eqb k "value")%bool then Ok chg
  else match dget k new with
       | None => Err NoColumn
       | Some l =>
           match nth_error l i with
           | None => Err NoRow
           | Some v =>
               match dget name lookup with
               | None => Ok chg
               | Some j =>
                   match dget k old with
                   | None => Err NoColumn
                   | Some ol => match nth_error ol j with
                                | None => Err NoRow
                                | Some o => if cell_eqb o v then Ok chg
                                            else update_column chg k old j v
                                end
                   end
               end
           end
       end.

(* pandabussespart.py 92, the columns of one row *)
Fixpoint change_row (old new : table) (lookup : dict nat) (i : nat) (name : string)
  (cols : list string) (chg : table) : result berr table :=
  match cols with
  | [] => Ok chg
  | k :: r => match change_cell old new lookup i name chg k with
              | Ok c => change_row old new lookup i name r c
              | Err e => Err e
              end
  end.

(* pandabussespart.py 91, the rows of the new table *)
Fixpoint change_rows (old new : table) (lookup : dict nat) (rows : list (nat * string))
  (chg : table) : result berr table :=
  match rows with
  | [] => Ok chg
  | (i, n) :: r => match change_row old new lookup i n (dkeys old) chg with
                   | Ok c => change_rows old new lookup r c
                   | Err e => Err e
                   end
  end.

(* pandabussespart.py 88-104, get_column_changes *)
Definition get_column_changes (old new : table) : result berr table :=
  change_rows old new (lookup_of old) (enum 0 (names new)) [].

(* one call of the client's set_fields (pandablocksclient.py 354-365): the fields and
   their values; numbers are not turned to text *)
Definition fields := dict cell.

(* pandabussespart.py 110-121, the capture fields of set_bits *)
Fixpoint capture_fields (b : busses) (column : list cell) (rows : list string) (fv : fields)
  : result berr fields :=
  match rows with
  | [] => Ok fv
  | bit :: r =>
      match dget bit (bit_indexes b) with
      | None => Err NoKey
      | Some i =>
          match nth_error column i with
          | None => Err NoRow
          | Some c =>
              match dget bit (bit_pcap_fields b) with
              | None => Err NoKey
              | Some f =>
                  let fv' := match c with
                             | CB true => dset f (CS "Value") fv
                             | _ => if dmem f fv then fv else dset f (CS "No") fv
                             end in
                  capture_fields b column r fv'
              end
          end
      end
  end.

(* pandabussespart.py 106-124, set_bits; [refused] is true when the device refuses one of
   the fields sent.  Out: the calls of set_fields made *)
Definition set_bits (b : busses) (new : table) (refused : bool)
  : busses * list fields * option berr :=
  match get_column_changes (bits b) new with
  | Err e => (b, [], Some e)
  | Ok chg =>
      let done := with_tables b (make_updated_table (bits b) chg) (positions b) (pos_values b) in
      match dget "capture" chg with
      | None => (done, [], None)
      | Some column =>
          match capture_fields b column (names new) [] with
          | Err e => (b, [], Some e)
          | Ok fv => if refused then (b, [fv], Some Refused) else (done, [fv], None)
          end
      end
  end.

(* str.upper of the four attribute names, pandabussespart.py 134 *)
Definition attrs : list (string * string) :=
  [("capture", "CAPTURE"); ("scale", "SCALE"); ("offset", "OFFSET"); ("units", "UNITS")]%string.

(* pandabussespart.py 133-139: all rows of a column which changed *)
Fixpoint position_fields (suffix : string) (ns : list string) (column : list cell) (fv : fields)
  : result berr fields :=
  match ns, column with
  | [], _ => Ok fv
  | n :: r, c :: l => position_fields suffix r l (dset (dotted n suffix) c fv)
  | _ :: _, [] => Err NoRow
  end.

(* pandabussespart.py 129-140, the loop over the four attributes.  [refused] is the call
   of set_fields, counted from 0, in which the device refuses a field *)
Fixpoint send_columns (ns : list string) (chg : table) (refused : option nat)
  (l : list (string * string)) (sent : list fields) : list fields * option berr :=
  match l with
  | [] => (sent, None)
  | (attr, suffix) :: r =>
      match dget attr chg with
      | None => send_columns ns chg refused r sent
      | Some column =>
          match position_fields suffix ns column [] with
          | Err e => (sent, Some e)
          | Ok fv =>
              if match refused with Some n => Nat.eqb n (length sent) | None => false end
              then (sent ++ [fv], Some Refused)
              else send_columns ns chg refused r (sent ++ [fv])
          end
      end
  end.

(* pandabussespart.py 126-142, set_positions *)
Definition set_positions (b : busses) (new : table) (refused : option nat)
  : busses * list fields * option berr :=
  match get_column_changes (positions b) new with
  | Err e => (b, [], Some e)
  | Ok chg =>
      match send_columns (names (positions b)) chg refused attrs [] with
      | (sent, Some e) => (b, sent, Some e)
      | (sent, None) =>
          (with_tables b (bits b) (make_updated_table (positions b) chg) (pos_values b),
           sent, None)
      end
  end.

(* ------------------------------------------------------------------ *)
(* What happens to the part: a poll of the device (pandamanagercontroller.py 309-310) or
   a put to one of its two attributes (80-81) *)
Inductive bop :=
| Report (changes : list (string * value))
| SetBits (t : table) (refused : bool)
| SetPositions (t : table) (refused : option nat).

(* one of these: pandabussespart.py 106-142, 256-273 *)
Definition bstep (b : busses) (o : bop) : busses * list fields * option berr :=
  match o with
  | Report c => let '(b', e) := handle_changes b c in (b', [], e)
  | SetBits t r => set_bits b t r
  | SetPositions t r => set_positions b t r
  end.

(* the part after a list of these (pandamanagercontroller.py 116-150, one after the other),
   and whether none of them raised *)
Fixpoint brun (b : busses) (l : list bop) : busses * bool :=
  match l with
  | [] => (b, true)
  | o :: r => let '(b', _, e) := bstep b o in
              let '(b'', ok) := brun b' r in
              (b'', match e with None => ok | Some _ => false end)
  end.
