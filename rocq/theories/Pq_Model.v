(* What the client of a PandA asks, and what it makes of the answers: pandablocks/pandablocksclient.py 15-20, 181-372.
   Which answer belongs to which request is in Panda_Model; here every request has its answer. *)
From Coq Require Import String Ascii Bool ZArith DecimalString List.
From Verif Require Import Base Hdf_Model PField_Model.
Import ListNotations.
Local Open Scope nat_scope.
Local Open Scope string_scope.
Local Open Scope list_scope.

(* ---- text ---- *)
(* str.isspace of a character below 128 (Python semantics): pandablocksclient.py 184, 226, 279, 318. *)
Definition blank (c : ascii) : bool :=
  let n := nat_of_ascii c in (Nat.leb 9 n && Nat.leb n 13) || (Nat.leb 28 n && Nat.leb n 32).
(* s.split() (Python semantics): pandablocksclient.py 184, 226, 280, 318. *)
Fixpoint words (s : string) : list string :=
  match s with
  | EmptyString => []
  | String c r =>
      if blank c then words r
      else match r with
           | EmptyString => [String c ""]
           | String d _ => if blank d then String c "" :: words r
                           else match words r with w :: l => String c w :: l | [] => [String c ""] end
           end
  end.
(* s.split(c) (Python semantics): pandablocksclient.py 334. *)
Fixpoint split_on (c : ascii) (s : string) : list string :=
  match s with
  | EmptyString => [""]
  | String x r => if Ascii.eqb x c then "" :: split_on c r
                  else match split_on c r with w :: l => String x w :: l | [] => [String x ""] end
  end.
(* int(s) of digits (Python semantics): pandablocksclient.py 185, 234, 334. *)
Definition digits (s : string) : option Z :=
  match s with
  | EmptyString => None
  | _ => match NilEmpty.uint_of_string s with Some u => Some (Z.of_nat (Nat.of_uint u)) | None => None end
  end.
(* int(s) of text without white space (Python semantics; underscores between digits are left out):
   pandablocksclient.py 185, 234, 334. *)
Definition py_int (s : string) : option Z :=
  match s with
  | String c r => if Ascii.eqb c "-" then option_map Z.opp (digits r)
                  else if Ascii.eqb c "+" then digits r else digits s
  | EmptyString => None
  end.
(* s.startswith(p), with what follows (Python semantics): pandablocksclient.py 16-19. *)
Fixpoint strip_prefix (p s : string) : option string :=
  match p, s with
  | EmptyString, _ => Some s
  | String c p, String d s => if Ascii.eqb c d then strip_prefix p s else None
  | _, _ => None
  end.
(* s.endswith(p) (Python semantics): pandablocksclient.py 301. *)
Fixpoint ends_with (p s : string) : bool :=
  String.eqb p s || match s with EmptyString => false | String _ r => ends_with p r end.
(* The text without its last character, and that character; None: empty (Python semantics):
   pandablocksclient.py 296-298. *)
Fixpoint last_char (s : string) : option (string * ascii) :=
  match s with
  | EmptyString => None
  | String c r => match last_char r with Some (t, d) => Some (String c t, d) | None => Some ("", c) end
  end.
(* The end of a line: pandablocksclient.py 183. *)
Definition nl : string := String (ascii_of_nat 10) "".

(* ---- requests and answers ---- *)
(* A line, lines, or ERR, which is raised when it is received: pandablocksclient.py 100-106, 153-179. *)
Inductive reply := Line (s : string) | Lines (l : list string) | Error (s : string).
(* What the server answers: pandablocksclient.py 108-119. *)
Definition server := string -> reply.
(* ValueError, AssertionError, any other: pandablocksclient.py 15-20, 227-230. *)
Inductive cerr := CValue | CAssert | COther.
(* An answer that is used as lines.  A loop over a single line would go over its characters; it is an error
   here: pandablocksclient.py 183, 225, 279, 317. *)
Definition recv_lines (srv : server) (q : string) : result cerr (list string) :=
  match srv q with Lines l => Ok l | Line _ => Err COther | Error _ => Err CValue end.
(* strip_ok of an answer: pandablocksclient.py 15-20. *)
Definition strip_ok (r : reply) : result cerr string :=
  match r with
  | Line s => match strip_prefix "OK =" s with Some v => Ok v | None => Err CAssert end
  | Lines _ => Err COther
  | Error _ => Err CValue
  end.
(* One result after the other, up to an error: pandablocksclient.py 204-289. *)
Fixpoint collect {A B} (f : A -> result cerr B) (l : list A) : result cerr (list B) :=
  match l with
  | [] => Ok []
  | x :: r => match f x with
              | Err e => Err e
              | Ok y => match collect f r with Ok ys => Ok (y :: ys) | Err e => Err e end
              end
  end.
(* What follows a result that is no error: pandablocksclient.py 204-341 (Python semantics). *)
Definition then_ {A B} (r : result cerr A) (f : A -> result cerr B) : result cerr B :=
  match r with Ok x => f x | Err e => Err e end.
(* A loop that adds to something: pandablocksclient.py 183-185, 225-234, 317-327. *)
Fixpoint gather {A B} (f : B -> A -> result cerr B) (acc : B) (l : list A) : result cerr B :=
  match l with
  | [] => Ok acc
  | x :: r => match f acc x with Ok acc => gather f acc r | Err e => Err e end
  end.

(* ---- the blocks ---- *)
(* FieldData: pandablocksclient.py 9. *)
Record field_data := mkField { fd_type : string; fd_subtype : string; fd_desc : string; fd_labels : list string }.
(* BlockData: pandablocksclient.py 8. *)
Record block_data := mkBlock { bd_number : Z; bd_desc : string; bd_fields : dict field_data }.
(* _get_block_numbers: pandablocksclient.py 181-186. *)
Definition get_block_numbers (srv : server) : result cerr (dict Z) :=
  then_ (recv_lines srv ("*BLOCKS?" +++ nl)) (gather (fun d line =>
    match words line with
    | [name; number] => match py_int number with Some n => Ok (dset name n d) | None => Err CValue end
    | _ => Err CValue
    end) []).
(* The loop over the lines of a block: pandablocksclient.py 224-234. *)
Definition parse_fields (lines : list string) : result cerr (dict (Z * string * string)) :=
  gather (fun d line =>
    match words line with
    | [name; index; t] => match py_int index with Some i => Ok (dset name (i, t, "") d) | None => Err CValue end
    | [name; index; t; s] => match py_int index with Some i => Ok (dset name (i, t, s) d) | None => Err CValue end
    | _ => Err CAssert
    end) [] lines.
(* sorted by the index, which keeps the order of equal ones (Python semantics): pandablocksclient.py 236-240. *)
Fixpoint insert_by {A} (key : A -> Z) (x : A) (l : list A) : list A :=
  match l with
  | [] => [x]
  | y :: r => if Z.leb (key x) (key y) then x :: l else y :: insert_by key x r
  end.
(* ... (Python semantics): pandablocksclient.py 240. *)
Definition sort_by {A} (key : A -> Z) (l : list A) : list A := fold_right (insert_by key) [] l.
(* enum_fields: pandablocksclient.py 248-254. *)
Definition enum_field (f : string * (Z * string * string)) : list string :=
  match f with
  | (name, (_, t, s)) =>
      if smem t ["bit_mux"; "pos_mux"] || String.eqb s "enum" then [name]
      else if String.eqb t "ext_out" then [name +++ ".CAPTURE"] else []
  end.
(* One turn of the last loop: pandablocksclient.py 255-271. *)
Definition read_field (srv : server) (block : string) (enums : list string) (f : string * (Z * string * string))
  : result cerr (string * field_data) :=
  match f with
  | (name, (_, t, s)) =>
      let ask e := recv_lines srv ("*ENUMS." +++ block +++ "." +++ e +++ "?" +++ nl) in
      then_ (if smem name enums then ask name
            else if smem (name +++ ".CAPTURE") enums then ask (name +++ ".CAPTURE") else Ok []) (fun labels =>
      then_ (strip_ok (srv ("*DESC." +++ block +++ "." +++ name +++ "?" +++ nl))) (fun desc =>
      Ok (name, mkField t s desc labels)))
  end.
(* One turn of the loop over the blocks: pandablocksclient.py 212-271. *)
Definition read_block (srv : server) (numbers : dict Z) (name : string) : result cerr (string * block_data) :=
  then_ (strip_ok (srv ("*DESC." +++ name +++ "?" +++ nl))) (fun desc =>
  then_ (recv_lines srv (name +++ ".*?" +++ nl)) (fun lines =>
  then_ (parse_fields lines) (fun unsorted =>
  let sorted := sort_by (fun f => fst (fst (snd f))) unsorted in
  then_ (collect (read_field srv name (flat_map enum_field sorted)) sorted) (fun fields =>
  Ok (name, mkBlock (match dget name numbers with Some n => n | None => 0%Z end) desc fields))))).
(* get_blocks_data: pandablocksclient.py 204-273. *)
Definition get_blocks_data (srv : server) : result cerr (dict block_data) :=
  then_ (get_block_numbers srv) (fun numbers => collect (read_block srv numbers) (PField_Model.sorted (dkeys numbers))).
(* get_pcap_bits_fields: pandablocksclient.py 275-289. *)
Definition get_pcap_bits_fields (srv : server) : result cerr (dict (list string)) :=
  then_ (recv_lines srv ("PCAP.*?" +++ nl)) (fun lines =>
  let fields := flat_map (fun line => match words line with
                                      | [f; _; t; s] => if String.eqb t "ext_out" && String.eqb s "bits"
                                                        then ["PCAP." +++ f] else []
                                      | _ => []
                                      end) lines in
  then_ (collect (fun k => then_ (recv_lines srv (k +++ ".BITS?" +++ nl)) (fun l => Ok (k +++ ".CAPTURE", l)))
                (PField_Model.sorted fields)) (fun l => Ok (fold_left (fun d kv => dset (fst kv) (snd kv) d) l []))).

(* ---- tables ---- *)
(* TableFieldData: pandablocksclient.py 10-12. *)
Record column := mkColumn { cl_hi : Z; cl_lo : Z; cl_desc : string; cl_labels : option (list string); cl_signed : bool }.
(* The first loop: the bits and the sign of each, and those whose labels were asked for: pandablocksclient.py 315-327. *)
Definition parse_columns (lines : list string) : result cerr (dict (string * bool) * list string) :=
  gather (fun (a : dict (string * bool) * list string) line =>
    match words line with
    | bits :: name :: more =>
        let kind := match more with k :: _ => k | [] => "" end in
        Ok (dset name (bits, String.eqb kind "int") (fst a),
            if String.eqb kind "enum" then name :: snd a else snd a)
    | _ => Err COther
    end) ([], []) lines.
(* get_table_fields: pandablocksclient.py 314-341. *)
Definition get_table_fields (srv : server) (block field : string) : result cerr (dict column) :=
  then_ (recv_lines srv (block +++ "." +++ field +++ ".FIELDS?" +++ nl)) (fun lines =>
  then_ (parse_columns lines) (fun p =>
  collect (fun f : string * (string * bool) =>
    match f with
    | (name, (bits, signed)) =>
        match map py_int (split_on ":" bits) with
        | [Some hi; Some lo] =>
            then_ (strip_ok (srv ("*DESC." +++ block +++ "." +++ field +++ "[]." +++ name +++ "?" +++ nl))) (fun desc =>
            then_ (if smem name (snd p)
                  then then_ (recv_lines srv ("*ENUMS." +++ block +++ "." +++ field +++ "[]." +++ name +++ "?" +++ nl))
                            (fun l => Ok (Some l))
                  else Ok None) (fun labels =>
            Ok (name, mkColumn hi lo desc labels signed)))
        | _ => Err CValue
        end
    end) (fst p))).

(* ---- changes ---- *)
(* What is given with a field: a value, None for a table that follows, Exception, the lines of a
   table: pandablocksclient.py 291-312. *)
Inductive change := Value (s : string) | Pending | Failed | Table (l : list string).
(* The first loop: what it gives, and the tables it asked for: pandablocksclient.py 291-310. *)
Fixpoint first_changes (errors : bool) (lines : list string) : list (string * change) * list string * option cerr :=
  match lines with
  | [] => ([], [], None)
  | line :: r =>
      let give f v tables := match first_changes errors r with (l, t, e) => ((f, v) :: l, tables ++ t, e) end in
      match split1 "=" line with
      | Some (f, v) => give f (Value v) []
      | None =>
          match last_char line with
          | None => ([], [], Some COther)
          | Some (f, c) =>
              if Ascii.eqb c "<" then give f Pending [f]
              else if ends_with "(error)" line && errors
              then give (match split1 " " line with Some (f, _) => f | None => line end) Failed []
              else first_changes errors r
          end
      end
  end.
(* The keys of table_queues: each once, where it came first (Python semantics): pandablocksclient.py 300, 311. *)
Fixpoint once (seen l : list string) : list string :=
  match l with [] => [] | x :: r => if smem x seen then once seen r else x :: once (x :: seen) r end.
(* The second loop: pandablocksclient.py 311-312. *)
Fixpoint second_changes (srv : server) (tables : list string) : list (string * change) * option cerr :=
  match tables with
  | [] => ([], None)
  | f :: r => match recv_lines srv (f +++ "?" +++ nl) with
              | Ok l => match second_changes srv r with (t, e) => ((f, Table l) :: t, e) end
              | Err e => ([], Some e)
              end
  end.
(* get_changes; what was given before an error stays given: pandablocksclient.py 291-312. *)
Definition get_changes (srv : server) (errors : bool) : list (string * change) * option cerr :=
  match recv_lines srv ("*CHANGES?" +++ nl) with
  | Err e => ([], Some e)
  | Ok lines => match first_changes errors lines with
                | (l, _, Some e) => (l, Some e)
                | (l, tables, None) => match second_changes srv (once [] tables) with (t, e) => (l ++ t, e) end
                end
  end.

(* ---- sets ---- *)
(* The text that set_fields sends, all of it before it looks at an answer: pandablocksclient.py 354-358. *)
Definition set_fields_text (fv : dict string) : list string := map (fun f => fst f +++ "=" +++ snd f +++ nl) fv.
(* Its end: the first answer that is not OK: pandablocksclient.py 359-365. *)
Fixpoint set_fields_end (l : list reply) : option cerr :=
  match l with
  | [] => None
  | Line s :: r => if String.eqb s "OK" then set_fields_end r else Some CAssert
  | Lines _ :: _ => Some CAssert
  | Error _ :: _ => Some CValue
  end.
(* The text of set_table: pandablocksclient.py 367-371; the numbers are those of an unsigned array. *)
Definition set_table_text (block field : string) (values : list nat) : string :=
  block +++ "." +++ field +++ "<" +++ nl +++ String.concat "" (map (fun v => str v +++ nl) values) +++ nl.
