(* Model of value validation, tables and tags: /repo/malcolm/core/models.py, table.py,
   tags.py. *)
From Coq Require Import String Ascii Bool ZArith QArith Lia List.
From Verif Require Import Base.
Import ListNotations.
Local Open Scope string_scope.
Local Open Scope list_scope.
Local Open Scope nat_scope.

(* ------------------------------------------------------------------ *)
(* Python values *)

(* What can be put to an attribute (Python language).  A float is an exact rational (no nan
   or inf); an Enum member has a class, a name and a string value (one that is also a str, or
   has another value, is not modelled); a dict has string keys; a PTable is an instance of
   Table (table.py 5) with its columns in the order of call_types:
   core/models.py 195-204, 444-449, 539-545, 681-686, 712-719 *)
Inductive pv :=
| PNone | PBool (b : bool) | PInt (z : Z) | PFloat (q : Q) | PStr (s : string)
| PEnum (cls : nat) (name value : string)
| PList (l : list pv)
| PDict (d : list (string * pv))
| PTable (cols : list (string * list pv)).

(* the exceptions raised (models.py, table.py, tags.py):
   core/models.py 438-932, core/table.py 8-30, core/tags.py 82-100 *)
Inductive exn := AssertionError | ValueError | TypeError | IndexError.

(* hash(v) does not raise (Python language; Table has __eq__ without __hash__, table.py 38) *)
Definition hashable (v : pv) : bool :=
  match v with PList _ | PDict _ | PTable _ => false | _ => true end.

(* the number a value counts as in comparisons: True is 1 (Python language):
   core/models.py 539-545, 681-686 *)
Definition as_number (v : pv) : option Q :=
  match v with
  | PBool b => Some (inject_Z (if b then 1 else 0))
  | PInt z => Some (inject_Z z)
  | PFloat q => Some q
  | _ => None
  end.

(* a == b for values used as keys (Python language); 1, 1.0 and True are the same key:
   core/models.py 539-545 *)
Definition key_eq (a b : pv) : bool :=
  match as_number a, as_number b with
  | Some x, Some y => Qeq_bool x y
  | None, None =>
    match a, b with
    | PNone, PNone => true
    | PStr s, PStr t => String.eqb s t
    | PEnum c n _, PEnum c' n' _ => Nat.eqb c c' && String.eqb n n'
    | _, _ => false
    end
  | _, _ => false
  end.

(* a dict with such keys (Python language; choices_lookup of models.py 484) *)
Definition pdict := list (pv * pv).
(* d.get(k) (Python language): core/models.py 543 *)
Fixpoint pget (k : pv) (d : pdict) : option pv :=
  match d with [] => None | (k', v) :: r => if key_eq k k' then Some v else pget k r end.
(* d[k] = v (Python language): core/models.py 489-527 *)
Fixpoint pset (k v : pv) (d : pdict) : pdict :=
  match d with
  | [] => [(k, v)]
  | (k', v') :: r => if key_eq k k' then (k', v) :: r else (k', v') :: pset k v r
  end.

(* ------------------------------------------------------------------ *)
(* Scalar metas *)

(* models.py 433, FALSE_STRINGS *)
Definition FALSE_STRINGS : list string := ["0"; "False"; "false"; "FALSE"; "No"; "no"; "NO"].

(* bool(v) (Python language); an Enum member is true: core/models.py 444-449 *)
Definition truth (v : pv) : bool :=
  match v with
  | PNone => false
  | PBool b => b
  | PInt z => negb (Z.eqb z 0)
  | PFloat q => negb (Qeq_bool q 0)
  | PStr s => negb (String.eqb s "")
  | PEnum _ _ _ => true
  | PList l => negb (Nat.eqb (length l) 0)
  | PDict d => negb (Nat.eqb (length d) 0)
  | PTable _ => true
  end.

(* models.py 444-449, BooleanMeta.validate; `in` a set hashes the value *)
Definition validate_bool (v : pv) : result exn pv :=
  if hashable v then
    if existsb (fun s => key_eq v (PStr s)) FALSE_STRINGS then Ok (PBool false)
    else Ok (PBool (truth v))
  else Err TypeError.

(* models.py 712-719, StringMeta.validate; pystr is str() *)
Definition validate_string (pystr : pv -> string) (v : pv) : result exn pv :=
  match v with
  | PNone => Ok (PStr "")
  | PStr s => Ok (PStr s)
  | _ => Ok (PStr (pystr v))
  end.

(* models.py 489-537, the loop of ChoiceMeta.set_choices; typ is enum_typ (a class other than
   an Enum fails the assertion of 515 at once), i the index *)
Fixpoint add_choices (cs : list pv) (i : nat) (typ : option nat) (lk : pdict)
  : result exn pdict :=
  match cs with
  | [] => Ok lk
  | c :: r =>
    match c with
    | PStr s =>
      match typ with
      | Some _ => Err AssertionError
      | None => add_choices r (S i) None (pset (PInt (Z.of_nat i)) c (pset c c lk))
      end
    | PEnum k n v =>
      if (match typ with Some k' => Nat.eqb k k' | None => true end)
      then add_choices r (S i) (Some k)
             (pset (PInt (Z.of_nat i)) c (pset c c (pset (PStr v) c lk)))
      else Err AssertionError
    | _ => Err AssertionError
    end
  end.

(* models.py 473-487: choices and choices_lookup *)
Record choice_meta := mkCM { cm_choices : list pv; cm_lookup : pdict }.
(* models.py 489-537, set_choices (enum_cls and the Array made of the choices not modelled) *)
Definition set_choices (cs : list pv) : result exn choice_meta :=
  match add_choices cs 0 None [] with
  | Err e => Err e
  | Ok lk => Ok (mkCM cs (pset PNone (match cs with c :: _ => c | [] => PStr "" end) lk))
  end.
(* models.py 539-545, ChoiceMeta.validate; looking up an unhashable key raises TypeError *)
Definition validate_choice (m : choice_meta) (v : pv) : result exn pv :=
  if hashable v then
    match pget v (cm_lookup m) with Some x => Ok x | None => Err ValueError end
  else Err TypeError.

(* what `for x in v` gives, models.py 790; None: not iterable, TypeError *)
Definition elements_of (v : pv) : option (list pv) :=
  match v with
  | PStr s => Some [PStr s]  (* 784-785: a string counts as one choice *)
  | PList l => Some l
  | PDict d => Some (map (fun kv => PStr (fst kv)) d)
  | PTable cols => Some (map (fun kv => PStr (fst kv)) cols)
  | _ => None
  end.
(* the loop of 790-800: core/models.py 790-800 *)
Fixpoint each (f : pv -> result exn pv) (l : list pv) : result exn (list pv) :=
  match l with
  | [] => Ok []
  | x :: r => match f x with
              | Err e => Err e
              | Ok y => match each f r with Err e => Err e | Ok ys => Ok (y :: ys) end
              end
  end.
(* models.py 778-804, ChoiceArrayMeta.validate: the elements; keeping the same Array when
   nothing changes (is_same) makes no difference to the value *)
Definition validate_choices (m : choice_meta) (v : pv) : result exn (list pv) :=
  match v with
  | PNone => Ok []
  | _ => match elements_of v with
         | None => Err TypeError
         | Some l => each (validate_choice m) l
         end
  end.

(* ------------------------------------------------------------------ *)
(* Maps *)

(* models.py 987-1021, MapMeta: elements and required; an element is its validate *)
Record map_meta := mkMM { mm_elements : list (string * (pv -> result exn pv));
                          mm_required : list string }.
(* models.py 1035-1040, the loop over the elements *)
Fixpoint map_args (es : list (string * (pv -> result exn pv))) (ps : list (string * pv))
  (add_missing : bool) : result exn (list (string * pv)) :=
  match es with
  | [] => Ok []
  | (k, m) :: r =>
    match dget k ps with
    | Some v => match m v with
                | Err e => Err e
                | Ok x => match map_args r ps add_missing with
                          | Err e => Err e | Ok l => Ok ((k, x) :: l) end
                end
    | None =>
      if add_missing
      then match m PNone with
           | Err e => Err e
           | Ok x => match map_args r ps add_missing with
                     | Err e => Err e | Ok l => Ok ((k, x) :: l) end
           end
      else map_args r ps add_missing
    end
  end.
(* models.py 1023-1045, MapMeta.validate *)
Definition validate_map (mm : map_meta) (ps : list (string * pv)) (add_missing : bool)
  : result exn (list (string * pv)) :=
  if forallb (fun k => dmem k (mm_elements mm)) (dkeys ps) then
    match map_args (mm_elements mm) ps add_missing with
    | Err e => Err e
    | Ok args => if forallb (fun k => dmem k args) (mm_required mm)
                 then Ok args else Err AssertionError
    end
  else Err AssertionError.

(* ------------------------------------------------------------------ *)
(* Tables *)

(* table.py 5-6: the columns, in the order of call_types: core/table.py 5-9 *)
Definition table := list (string * list pv).

(* table.py 8-10, validate_column_lengths: exactly one length *)
Definition same_lengths (t : table) : bool :=
  match t with
  | [] => false
  | (_, c) :: r => forallb (fun kc => Nat.eqb (length c) (length (snd kc))) r
  end.

(* l[i] (Python language): negative indexes count from the end: core/table.py 12-21 *)
Definition index (l : list pv) (i : Z) : result exn pv :=
  let j := if Z.ltb i 0 then (i + Z.of_nat (length l))%Z else i in
  if Z.ltb j 0 then Err IndexError
  else match nth_error l (Z.to_nat j) with Some x => Ok x | None => Err IndexError end.

(* table.py 18-19: the row of one integer *)
Fixpoint row_of (t : table) (i : Z) : result exn (list pv) :=
  match t with
  | [] => Ok []
  | (_, c) :: r => match index c i with
                   | Err e => Err e
                   | Ok x => match row_of r i with Err e => Err e | Ok xs => Ok (x :: xs) end
                   end
  end.
(* table.py 12-21, __getitem__ with an int *)
Definition table_row (t : table) (i : Z) : result exn (list pv) :=
  if same_lengths t then row_of t i else Err AssertionError.

(* zip of lists (Python language): stops with the shortest; n bounds the rows: core/table.py 24-36 *)
Fixpoint zip_rows (n : nat) (cols : list (list pv)) : list (list pv) :=
  match n with
  | O => []
  | S n' =>
    if existsb (fun c => match c with [] => true | _ => false end) cols then []
    else map (fun c => hd PNone c) cols :: zip_rows n' (map (@tl pv) cols)
  end.
(* table.py 32-36, rows *)
Definition table_rows (t : table) : result exn (list (list pv)) :=
  if same_lengths t then
    match t with
    | [] => Ok []
    | (_, c) :: _ => Ok (zip_rows (length c) (map snd t))
    end
  else Err AssertionError.

(* table.py 27-28: for key, data in zip(call_types, row): attrs[key].append(data) *)
Fixpoint add_row (keys : list string) (row : list pv) (attrs : table) : table :=
  match keys, row with
  | k :: ks, x :: xs =>
    add_row ks xs (dset k (match dget k attrs with Some l => l ++ [x] | None => [x] end) attrs)
  | _, _ => attrs
  end.
(* table.py 23-30, from_rows; making Arrays of the columns does not change the values *)
Definition from_rows (keys : list string) (rows : list (list pv)) : table :=
  fold_left (fun a r => add_row keys r a) rows (map (fun k => (k, [])) keys).

(* models.py 869-880, TableMeta.elements: the validate of the meta of each column *)
Definition table_meta := list (string * (pv -> result exn (list pv))).
(* models.py 914, args *)
Fixpoint table_args (es : table_meta) (d : list (string * pv)) : result exn table :=
  match es with
  | [] => Ok []
  | (k, m) :: r =>
    match dget k d with
    | None => Err AssertionError  (* not reached: keys were checked *)
    | Some v => match m v with
                | Err e => Err e
                | Ok x => match table_args r d with Err e => Err e | Ok l => Ok ((k, x) :: l) end
                end
    end
  end.
(* models.py 897-925, TableMeta.validate; the class of the table just stores its columns
   (a user supplied one that changes them is not modelled) *)
Definition validate_table (es : table_meta) (v : pv) : result exn table :=
  let d := match v with
           | PNone => Some (map (fun ke => (fst ke, PNone)) es)
           | PTable cols => Some (map (fun kc => (fst kc, PList (snd kc))) cols)
           | PDict d => Some d
           | _ => None
           end in
  match d with
  | None => Err ValueError
  | Some d =>
    let keys := filter (fun k => negb (String.eqb k "typeid")) (dkeys d) in
    if forallb (fun k => smem k keys) (dkeys es) && forallb (fun k => dmem k es) keys then
      match table_args es d with
      | Err e => Err e
      | Ok t => if same_lengths t then Ok t else Err AssertionError
      end
    else Err AssertionError
  end.

(* ------------------------------------------------------------------ *)
(* Tags *)

(* tags.py 46-54, Port *)
Inductive port := BOOL | INT32 | NDARRAY | MOTOR | BLOCK.
(* tags.py 50-54, the values *)
Definition port_value (p : port) : string :=
  match p with
  | BOOL => "bool" | INT32 => "int32" | NDARRAY => "NDArray" | MOTOR => "motor"
  | BLOCK => "block"
  end.
(* Port(value), the Enum lookup of 98; None is the ValueError: core/tags.py 98 *)
Definition port_of (s : string) : option port :=
  if String.eqb s "bool" then Some BOOL
  else if String.eqb s "int32" then Some INT32
  else if String.eqb s "NDArray" then Some NDARRAY
  else if String.eqb s "motor" then Some MOTOR
  else if String.eqb s "block" then Some BLOCK
  else None.

(* tags.py 56-72, source_port_tag and sink_port_tag *)
Definition port_tag (is_source : bool) (p : port) (v : string) : string :=
  ((if is_source then "sourcePort:" else "sinkPort:") ++ port_value p ++ ":" ++ v)%string.

(* s.startswith(p) followed by the rest (Python language): core/tags.py 74-126, 154-166 *)
Fixpoint after (p s : string) : option string :=
  match p, s with
  | EmptyString, _ => Some s
  | String a p', String b s' => if Ascii.eqb a b then after p' s' else None
  | String _ _, EmptyString => None
  end.
(* s.startswith(p) (Python language): core/tags.py 74-126, 154-166 *)
Definition starts_with (p s : string) : bool :=
  match after p s with Some _ => true | None => false end.

(* what the pattern for any characters can reach: up to a newline (re): core/tags.py 82-100, 154-160 *)
Fixpoint line (s : string) : string :=
  match s with
  | EmptyString => EmptyString
  | String c r => if Ascii.eqb c "010"%char then EmptyString else String c (line r)
  end.
(* two groups with a colon between them, the first one greedy: it goes up to the last colon
   (re): core/tags.py 82-100, 154-160 *)
Fixpoint last_colon (s : string) : option (string * string) :=
  match s with
  | EmptyString => None
  | String c r =>
    match last_colon r with
    | Some (a, b) => Some (String c a, b)
    | None => if Ascii.eqb c ":"%char then Some (EmptyString, r) else None
    end
  end.
(* tags.py 43, port_tag_re.match(tag): is source, port, extra *)
Definition port_match (tag : string) : option (bool * string * string) :=
  let go b rest := match last_colon (line rest) with
                   | Some (p, e) => Some (b, p, e)
                   | None => None
                   end in
  match after "sourcePort:" tag with
  | Some rest => go true rest
  | None => match after "sinkPort:" tag with Some rest => go false rest | None => None end
  end.

(* tags.py 81-100, port_tag_details *)
Fixpoint port_tag_details (tags : list string) : result exn (option (bool * port * string)) :=
  match tags with
  | [] => Ok None
  | t :: r =>
    match port_match t with
    | Some (b, p, e) => match port_of p with Some p' => Ok (Some (b, p', e)) | None => Err ValueError end
    | None => port_tag_details r
    end
  end.

(* tags.py 74-79, with_source_port_tag *)
Definition with_source_port_tag (p : port) (tags : list string) (v : string) : list string :=
  filter (fun t => negb (starts_with "sourcePort:" t)) tags ++ [port_tag true p v].

(* tags.py 109-112, 122-125, 163-166: without_group_tags, without_linked_value_tags,
   without_config_tags, by their prefix *)
Definition without_tags (prefix : string) (tags : list string) : list string :=
  filter (fun t => negb (starts_with prefix t)) tags.

(* tags.py 154-160, get_config_tag *)
Fixpoint get_config_tag (tags : list string) : option string :=
  match tags with
  | [] => None
  | t :: r => if starts_with "config:" t then Some t else get_config_tag r
  end.
