(* Model of the PandA sequencer rows and double buffering:
   /repo/malcolm/modules/ADPandABlocks/doublebuffer.py and the row generator
   /repo/malcolm/modules/ADPandABlocks/parts/pandaseqtriggerpart.py *)
From Coq Require Import String Bool ZArith QArith Lia List.
From Verif Require Import Base.
Import ListNotations.
Local Open Scope list_scope.
Local Open Scope Z_scope.

(* doublebuffer.py 11, SEQ_TABLE_ROWS *)
Definition SEQ_TABLE_ROWS : Z := 4096.
(* doublebuffer.py 14, TICK in seconds; an exact rational here, a float there *)
Definition TICK : Q := 8 # 1000000000.
(* doublebuffer.py 17, MIN_PULSE in ticks *)
Definition MIN_PULSE : Z := 1250.
(* doublebuffer.py 20, MAX_REPEATS *)
Definition MAX_REPEATS : Z := 4096.
(* doublebuffer.py 23, SEQ_TABLE_SWITCH_DELAY in ticks *)
Definition SEQ_TABLE_SWITCH_DELAY : Z := 6.
(* doublebuffer.py 27, MIN_TABLE_DURATION in seconds *)
Definition MIN_TABLE_DURATION : Q := 15 # 1.

(* ADPandABlocks/util.py 11-27, Trigger: the values used by the row generator;
   the six position compare strings are kept as one constructor holding the
   string found in trigger_enums *)
Inductive trigger := IMMEDIATE | BITA_0 | BITA_1 | POS (s : string).

(* ADPandABlocks/util.py 57-78, SequencerRow: outputs c-f of phase 1 and all the
   outputs of phase 2 are always 0 in doublebuffer.py 154-174, so are left out *)
Record row := mkRow {
  r_repeats : Z; r_trigger : trigger; r_position : Z;
  r_time1 : Z; r_live : bool; r_dead : bool; r_time2 : Z }.

(* doublebuffer.py 140-174, SequencerRows._seq_row *)
Definition seq_row (repeats : Z) (t : trigger) (position half : Z)
  (live dead : bool) (trim : Z) : row :=
  mkRow repeats t position half live dead (half - trim).

(* namedtuple _replace(repeats=..), used at doublebuffer.py 90, 94, 103, 104 *)
Definition set_repeats (r : row) (n : Z) : row :=
  mkRow n (r_trigger r) (r_position r) (r_time1 r) (r_live r) (r_dead r) (r_time2 r).
(* namedtuple _replace(time2=..), used at doublebuffer.py 107-109 *)
Definition set_time2 (r : row) (t : Z) : row :=
  mkRow (r_repeats r) (r_trigger r) (r_position r) (r_time1 r) (r_live r) (r_dead r) t.

(* doublebuffer.py 32-37: the rows and _duration (ticks; a rational because
   split subtracts seconds from it) *)
Record seqrows := mkSR { s_rows : list row; s_dur : Q }.

(* doublebuffer.py 177-183, _calculate_duration *)
Definition calc_duration (rows : list row) : Z :=
  fold_left (fun d r => d + r_repeats r * (r_time1 r + r_time2 r)) rows 0.

(* doublebuffer.py 35-37, SequencerRows() *)
Definition sr_empty : seqrows := mkSR [] 0%Q.
(* doublebuffer.py 35-41, SequencerRows(rows) *)
Definition sr_of (rows : list row) : seqrows :=
  match rows with
  | [] => sr_empty
  | _ => mkSR rows (inject_Z (calc_duration rows))
  end.

(* doublebuffer.py 130-133, duration in seconds *)
Definition sr_duration (s : seqrows) : Q := (s_dur s * TICK)%Q.

(* doublebuffer.py 135-137, __len__ *)
Definition sr_len (s : seqrows) : Z := Z.of_nat (length (s_rows s)).

(* doublebuffer.py 114-117, extend *)
Definition sr_extend (s o : seqrows) : seqrows :=
  mkSR (s_rows s ++ s_rows o) (s_dur s + s_dur o)%Q.

(* doublebuffer.py 47-68, add_seq_entry; count >= 0 (it is an array length or a
   literal at every call), so // and % are Z.div and Z.modulo *)
Definition add_seq_entry (s : seqrows) (count : Z) (t : trigger)
  (position half : Z) (live dead : bool) (trim : Z) : seqrows :=
  let complete_rows := count / MAX_REPEATS in
  let remaining := count mod MAX_REPEATS in
  let r := seq_row MAX_REPEATS t position half live dead trim in
  mkSR ((s_rows s ++ repeat r (Z.to_nat complete_rows))
          ++ [seq_row remaining t position half live dead trim])
       (s_dur s + inject_Z (count * (2 * half - trim)))%Q.

(* doublebuffer.py 76, 81: the assertions; 79 and 88: a negative repeat count
   leaves the variable remainder unset (UnboundLocalError) *)
Inductive seq_err := ZeroLength | LoopNotLast | Unbound.

(* list[-1] = x: doublebuffer.py 70-112 *)
Fixpoint set_last {A} (l : list A) (x : A) : list A :=
  match l with
  | [] => []
  | [_] => [x]
  | y :: r => y :: set_last r x
  end.

(* doublebuffer.py 106-112, the tail of split: take the switch delay from the
   last row; subtract it, and the remainder's duration (in seconds, as the code
   does), from _duration *)
Definition split_finish (rows : list row) (dur : Q) (rem : seqrows) : seqrows :=
  match rev rows with
  | [] => mkSR rows dur
  | final :: _ =>
      mkSR (set_last rows (set_time2 final (r_time2 final - SEQ_TABLE_SWITCH_DELAY)))
           (dur - inject_Z SEQ_TABLE_SWITCH_DELAY - sr_duration rem)%Q
  end.

(* doublebuffer.py 70-112, split: returns (self afterwards, remainder);
   count >= 1 *)
Definition split (s : seqrows) (count : Z) : result seq_err (seqrows * seqrows) :=
  let rows := s_rows s in
  match rev rows with
  | [] => Err ZeroLength
  | lastrow :: _ =>
    if count <=? sr_len s then
      let n := Z.to_nat count in
      match nth_error rows (n - 1) with
      | None => Err ZeroLength (* unreachable: count <= len *)
      | Some final =>
        if r_repeats final =? 0 then
          if sr_len s =? count then Ok (s, sr_empty) else Err LoopNotLast
        else if r_repeats final =? 1 then
          let rem := sr_of (skipn n rows) in
          Ok (split_finish (firstn n rows) (s_dur s) rem, rem)
        else if 1 <? r_repeats final then
          let rem := sr_extend (sr_of [set_repeats final (r_repeats final - 1)])
                               (sr_of (skipn n rows)) in
          Ok (split_finish (firstn (n - 1) rows ++ [set_repeats final 1]) (s_dur s) rem,
              rem)
        else Err Unbound
      end
    else
      if r_repeats lastrow =? 0 then Ok (s, sr_empty)
      else if 1 <? r_repeats lastrow then
        Ok (split_finish
              (set_last rows (set_repeats lastrow (r_repeats lastrow - 1))
                 ++ [set_repeats lastrow 1]) (s_dur s) sr_empty, sr_empty)
      else Ok (split_finish rows (s_dur s) sr_empty, sr_empty)
  end.

(* doublebuffer.py 214-220, the while loop inside _get_tables: yields tables and
   returns what is left; fuel bounds the number of rounds (the remainder gets
   shorter in each round, proved in Seq_Proofs) *)
Fixpoint split_loop (fuel : nat) (s : seqrows) : result seq_err (list (list row) * seqrows) :=
  match fuel with
  | O => Err Unbound
  | S f =>
    match split s SEQ_TABLE_ROWS with
    | Err e => Err e
    | Ok (self, rem) =>
      if sr_len rem <=? SEQ_TABLE_ROWS then Ok ([s_rows self], rem)
      else match split_loop f rem with
           | Err e => Err e
           | Ok (ts, rem') => Ok (s_rows self :: ts, rem')
           end
    end
  end.

(* doublebuffer.py 213: rows.duration > MIN_TABLE_DURATION or
   len(rows) > SEQ_TABLE_ROWS *)
Definition must_split (s : seqrows) : bool :=
  negb (Qle_bool (sr_duration s) MIN_TABLE_DURATION) || (SEQ_TABLE_ROWS <? sr_len s).

(* doublebuffer.py 203-222, _get_tables, run to exhaustion: the list of yielded
   tables (get_table 119-121 copies the rows column by column) *)
Fixpoint get_tables_from (s : seqrows) (gen : list seqrows)
  : result seq_err (list (list row)) :=
  match gen with
  | [] => Ok (if sr_len s =? 0 then [] else [s_rows s])
  | rs :: gen' =>
    let s1 := sr_extend s rs in
    if must_split s1 then
      match split_loop (S (length (s_rows s1))) s1 with
      | Err e => Err e
      | Ok (ts, rem) =>
        match get_tables_from rem gen' with
        | Err e => Err e
        | Ok ts' => Ok (ts ++ ts')
        end
      end
    else get_tables_from s1 gen'
  end.
(* doublebuffer.py 209 *)
Definition get_tables (gen : list seqrows) := get_tables_from sr_empty gen.

(* ------------------------------------------------------------------ *)
(* The double buffer.  doublebuffer.py 189-196; the table generator is the list
   of tables still to come.  [true] is seqA, [false] is seqB.  db_written logs
   the put_value calls of _fill_table 198-201. *)
Record dbuf {T : Type} := mkDB {
  db_gen : list T; db_status : bool -> option bool;
  db_subscribed : bool; db_finished : bool; db_written : list (bool * T) }.
Arguments dbuf : clear implicits.
Arguments mkDB {T}.

(* doublebuffer.py 292-296, clean_up (and 285-290) *)
Definition db_cleanup {T} (d : dbuf T) : dbuf T :=
  mkDB (db_gen d) (fun _ => None) false true (db_written d).

(* doublebuffer.py 198-201, _fill_table; None is StopIteration *)
Definition db_fill {T} (d : dbuf T) (side : bool) : option (dbuf T) :=
  match db_gen d with
  | [] => None
  | t :: g => Some (mkDB g (db_status d) (db_subscribed d) (db_finished d)
                         (db_written d ++ [(side, t)]))
  end.

(* doublebuffer.py 224-254, configure, with the tables _get_tables will yield;
   the writes to repeats and prescale are not modelled *)
Definition db_configure {T} (d : dbuf T) (tables : list T) : dbuf T :=
  let d0 := db_cleanup d in
  let d1 := mkDB tables (db_status d0) (db_subscribed d0) (db_finished d0) (db_written d0) in
  match db_fill d1 true with
  | None => mkDB (db_gen d1) (db_status d1) (db_subscribed d1) true (db_written d1)
  | Some d2 =>
    match db_fill d2 false with
    | None => mkDB (db_gen d2) (db_status d2) (db_subscribed d2) true (db_written d2)
    | Some d3 => mkDB (db_gen d3) (db_status d3) (db_subscribed d3) false (db_written d3)
    end
  end.

(* doublebuffer.py 278-283, run *)
Definition db_run {T} (d : dbuf T) : dbuf T :=
  if db_finished d then d
  else mkDB (db_gen d) (db_status d) true (db_finished d) (db_written d).

(* update of one entry of the _seq_status dict, doublebuffer.py 267 *)
Definition set_status (f : bool -> option bool) (side v : bool) : bool -> option bool :=
  fun s => if Bool.eqb s side then Some v else f s.

(* doublebuffer.py 256-267, _seq_active_handler; called only while subscribed *)
Definition db_active {T} (d : dbuf T) (side v : bool) : dbuf T :=
  if negb (db_subscribed d) then d
  else
    match db_status d side, v with
    | Some true, false =>
      match db_fill d side with
      | None => db_cleanup d
      | Some d' => mkDB (db_gen d') (set_status (db_status d') side v)
                        (db_subscribed d') (db_finished d') (db_written d')
      end
    | _, _ => mkDB (db_gen d) (set_status (db_status d) side v)
                   (db_subscribed d) (db_finished d) (db_written d)
    end.

(* a history of updates of the two `active` attributes: doublebuffer.py 256-276 *)
Definition db_events {T} (d : dbuf T) (es : list (bool * bool)) : dbuf T :=
  fold_left (fun d e => db_active d (fst e) (snd e)) es d.

(* doublebuffer.py 189-196, __init__ *)
Definition db_init {T} : dbuf T := mkDB [] (fun _ => None) false true [].

(* ------------------------------------------------------------------ *)
(* The row generator.  A point is an abstract P with its duration, whether it is
   joined to the next, the compare settings of _what_moves_most 47-72 and the
   blind time of _how_long_moving_wrong_way 74-106 are parameters (the
   assertions in there only stop the scan before it starts). *)
Section Rows.
  Context {P : Type}.
  (* durations, in any unit with decidable equality *)
  Variable dur : P -> Z.
  (* int(round(duration / TICK / 2)), pandaseqtriggerpart.py 148, 158 *)
  Variable half : Z -> Z.
  (* pmac/util.py 169-185, all_points_joined at one index *)
  Variable joined : P -> P -> bool.
  (* pandaseqtriggerpart.py 40: axis_mapping non empty; 42: trigger_enums non empty *)
  Variable has_axes has_pcomp : bool.
  (* 165-167 and 179: trigger string and compare_cts for a point *)
  Variable compare : P -> trigger * Z.
  (* 171-174: half_blind for (last_point, point) *)
  Variable half_blind : P -> P -> Z.

  (* 132-151: seq_durations zipped with seq_lengths, the run length coding made
     by the numpy not_equal / nonzero / diff lines 138-144 *)
  Fixpoint run_lengths (ds : list Z) : list (Z * Z) :=
    match ds with
    | [] => []
    | d :: rest =>
      match run_lengths rest with
      | (d', n) :: more => if d =? d' then (d, n + 1) :: more else (d, 1) :: (d', n) :: more
      | [] => [(d, 1)]
      end
    end.

  (* 132-151, _create_immediate_rows: pandaseqtriggerpart.py 132-151 *)
  Definition create_immediate_rows (ds : list Z) : seqrows :=
    fold_left (fun rows dc =>
                 add_seq_entry rows (snd dc) IMMEDIATE 0 (half (fst dc)) true false 0)
              (run_lengths ds) sr_empty.

  (* python slice l[a:b]: pandaseqtriggerpart.py 195-197, 246 *)
  Definition slice {A} (l : list A) (a b : nat) : list A := firstn (b - a) (skipn a l).

  (* 153-199, _create_triggered_rows; [prev] is self.last_point (used only when
     add_blind; it is then never None): pandaseqtriggerpart.py 153-199 *)
  Definition create_triggered_rows (prev : option P) (points : list P)
    (start_index end_index : nat) (add_blind : bool) : seqrows :=
    match nth_error points start_index with
    | None => sr_empty (* IndexError; start_index < len at every call *)
    | Some p =>
      let half_frame := half (dur p) in
      let rows :=
        if has_pcomp then
          let rows :=
            match add_blind, prev with
            | true, Some lp =>
                add_seq_entry sr_empty 1 IMMEDIATE 0 (half_blind lp p) false true 0
            | _, _ => sr_empty
            end in
          add_seq_entry rows 1 (fst (compare p)) (snd (compare p)) half_frame true false 0
        else
          let rows :=
            if add_blind then add_seq_entry sr_empty 1 BITA_0 0 MIN_PULSE false true 0
            else sr_empty in
          add_seq_entry rows 1 BITA_1 0 half_frame true false 0 in
      sr_extend rows
        (create_immediate_rows (map dur (slice points (start_index + 1) end_index)))
    end.

  (* 116-120, start_indices; the numbering starts at i: pandaseqtriggerpart.py 116-122 *)
  Fixpoint start_indices (i : nat) (points : list P) : list nat :=
    match points with
    | p :: rest =>
      match rest with
      | q :: _ =>
          if joined p q then start_indices (S i) rest
          else S i :: start_indices (S i) rest
      | [] => []
      end
    | [] => []
    end.

  (* 124-128, end_indices: pandaseqtriggerpart.py 124-128 *)
  Definition end_indices (starts : list nat) (len : nat) : list nat :=
    match starts with
    | [] => []
    | _ :: r => r ++ [len]
    end.

  (* 249-251, the remaining rows of the batch: pandaseqtriggerpart.py 248-251 *)
  Fixpoint remaining_rows (last : option P) (points : list P) (se : list (nat * nat))
    : list seqrows * option P :=
    match se with
    | [] => ([], last)
    | (s, e) :: more =>
      let r := create_triggered_rows last points s e true in
      let (rs, last') := remaining_rows (nth_error points (e - 1)) points more in
      (r :: rs, last')
    end.

  (* 227-251, the body of the loop in get_rows for one batch of points: pandaseqtriggerpart.py 227-251 *)
  Definition batch_rows (last : option P) (points : list P) : list seqrows * option P :=
    if negb has_axes then
      let durations := match last with
                       | Some _ => tl (map dur points)
                       | None => map dur points
                       end in
      ([create_immediate_rows durations], nth_error points (length points - 1))
    else
      let starts := start_indices 0 points in
      let ends := end_indices starts (length points) in
      let e := match starts with s :: _ => s | [] => length points end in
      let (first, last1) :=
        match last with
        | None => (create_triggered_rows None points 0 e false, nth_error points (e - 1))
        | Some _ => (create_immediate_rows (map dur (slice points 1 e)), last)
        end in
      let (rs, last2) := remaining_rows last1 points (combine starts ends) in
      (first :: rs, last2).

  (* pandaseqtriggerpart.py 27, BATCH_SIZE; a parameter of the model *)
  Variable BATCH_SIZE : nat.

  (* 211-220, the while loop of _overlapping_points_range; fuel bounds the number
     of rounds, high_index grows by BATCH_SIZE each round *)
  Fixpoint ranges_from (fuel low high e : nat) : list (nat * nat) :=
    match fuel with
    | O => []
    | S f =>
      (low, high) ::
      (if Nat.eqb high e then []
       else ranges_from f (high - 1) (Nat.min (high - 1 + BATCH_SIZE + 1) e) e)
    end.

  (* 202-220, _overlapping_points_range, as index pairs: pandaseqtriggerpart.py 201-220 *)
  Definition overlapping_ranges (s e : nat) : list (nat * nat) :=
    if Nat.eqb s e then []
    else ranges_from (S (e - s)) s (Nat.min (s + BATCH_SIZE) e) e.

  (* 224-251, the for loop of get_rows: pandaseqtriggerpart.py 224-251 *)
  Fixpoint batches_rows (last : option P) (bs : list (list P)) : list seqrows :=
    match bs with
    | [] => []
    | b :: more =>
      let (rs, last') := batch_rows last b in
      rs ++ batches_rows last' more
    end.

  (* 253-258, the final dead frame and continuous loop: pandaseqtriggerpart.py 253-258 *)
  Definition final_rows : seqrows :=
    add_seq_entry
      (add_seq_entry sr_empty 1 IMMEDIATE 0 MIN_PULSE false true 0)
      0 IMMEDIATE 0 MIN_PULSE false false 0.

  (* 222-260, get_rows run to exhaustion; generator.get_points(l, h) is the slice
     of the list of all points; last_point starts as None (line 44): pandaseqtriggerpart.py 222-260 *)
  Definition get_rows (all_points : list P) (loaded_up_to scan_up_to : nat) : list seqrows :=
    batches_rows None
      (map (fun lh => slice all_points (fst lh) (snd lh))
           (overlapping_ranges loaded_up_to scan_up_to))
    ++ [final_rows].
End Rows.
