(* The files for Savu, that works out the forward kinematics after a scan.
   /repo/malcolm/modules/ADPandABlocks/parts/kinematicssavupart.py, pmac/util.py 112-138. *)
From Coq Require Import String Ascii Bool QArith List.
From Verif Require Import Base Hdf_Model Odin_Model.
From Verif Require Pmac_Model.
Import ListNotations.
Local Open Scope nat_scope.
Local Open Scope string_scope.
Local Open Scope list_scope.

(* PositionCapture: pandablocks/util.py 44-58. *)
Inductive capture := CNo | CValue | CDiff | CSum | CMean | CMin | CMax | CMinMax | CMinMaxMean.
(* A row of the positions table of the PandA, as far as it is read here: kinematicssavupart.py
   177-186, 275-277. *)
Record prow := mkRow { r_name : string; r_cap : capture; r_scale : Q; r_offset : Q }.
(* A row of the layout table of the PMAC, with what its block has in cs and axisNumber (None: it has
   no such attribute): pmac/util.py 122-132.  Axis numbers are natural numbers. *)
Record motor := mkMotor { m_name : string; m_cs : option string; m_axis : option nat }.

(* What the context gives: the pmac and panda of the child block (113-115), and for each mri the
   layout, the positions, the i, p and m variables, and the forward kinematics and q variables:
   kinematicssavupart.py 111-300. *)
Record world := mkW { w_pmac : string; w_panda : string;
                      w_layout : dict (list motor); w_positions : dict (list prow);
                      w_status : dict (string * string * string); w_cs : dict (string * string) }.

(* PVar: kinematicssavupart.py 33. *)
Record pvar := mkPV { v_path : string; v_file : string; v_number : string }.

(* The attributes of the part: kinematicssavupart.py 62-82; savu_file is never used. *)
Record part := mkS { s_cs_port : option string; s_suffix : string;
                     s_nxs : string; s_vds : string; s_pl : string; s_savu : string;
                     s_code : list string; s_vars : dict string; s_q : list (nat * string);
                     s_p : list pvar; s_min_max : bool; s_gen : gen; s_pos : list prow;
                     s_pmac : string; s_axes : dict nat }.

(* __init__: kinematicssavupart.py 54-82. *)
Definition init (port : option string) (suffix : string) : part :=
  mkS port suffix "" "" "" "" [] [] [] [] true (mkGen [] [] (fun _ => "")) [] "" [].

(* What can go wrong: no such block (block_view), cs_axis_mapping, no port (161), no dataset for an
   axis (188), no value dataset (219), bad variables (293), a name that h5py has already:
   kinematicssavupart.py 95-412. *)
Inductive serr := NoBlock | BadAxes | NoPort | NoDataset (axis : string) | NoValue (axis : string)
                | BadVariables | NameTaken.

(* name % x and (..) + ".nxs" with the extension of the template taken off: kinematicssavupart.py
   117-123; for templates with one %s and no other %. *)
Definition file_name (template what : string) : string := subst (splitext template) what +++ ".nxs".
(* os.path.join for a directory without a slash at its end and a relative name:
   kinematicssavupart.py 126-139. *)
Definition join (dir name : string) : string := dir +++ "/" +++ name.

(* The index in CS_AXIS_NAMES, plus one: kinematicssavupart.py 155-156; None is the ValueError, or
   not in the list. *)
Fixpoint index_of (x : string) (l : list string) (i : nat) : option nat :=
  match l with [] => None | y :: r => if String.eqb x y then Some i else index_of x r (S i) end.
(* d[n] = x for a dict with numbers for keys: kinematicssavupart.py 157 (Python semantics). *)
Fixpoint nset (n : nat) (x : string) (d : list (nat * string)) : list (nat * string) :=
  match d with
  | [] => [(n, x)]
  | (m, y) :: r => if Nat.eqb n m then (m, x) :: r else (m, y) :: nset n x r
  end.
(* d[n]: kinematicssavupart.py 394-396 (Python semantics). *)
Fixpoint nget (n : nat) (d : list (nat * string)) : option string :=
  match d with [] => None | (m, y) :: r => if Nat.eqb n m then Some y else nget n r end.
(* The loop that makes q_value_mapping: kinematicssavupart.py 153-157; the scannable of the MotorInfo
   is the key (pmac/util.py 92). *)
Definition q_mapping (m : dict (string * string)) : list (nat * string) :=
  fold_left (fun d kv => match index_of (snd (snd kv)) Pmac_Model.CS_AXIS_NAMES 1 with
                         | Some q => nset q (fst kv) d
                         | None => d
                         end) m [].

(* cs.split(",", 1)[0]: pmac/util.py 135. *)
Fixpoint before_comma (s : string) : string :=
  match s with
  | EmptyString => ""
  | String c r => if Ascii.eqb c ","%char then "" else String c (before_comma r)
  end.
(* cs_axis_numbers: pmac/util.py 112-138. *)
Fixpoint cs_axis_numbers (rows : list motor) (port : string) (d : dict nat) : dict nat :=
  match rows with
  | [] => d
  | m :: r =>
    cs_axis_numbers r port
      (match m_cs m, m_axis m with
       | Some (String c cs), Some (S n) =>
           if String.eqb port (before_comma (String c cs)) then dset (m_name m) (S n) d else d
       | _, _ => d
       end)
  end.

(* The loop over the positions table for one axis: kinematicssavupart.py 173-186; the pair of
   dataset_i and use_min_max, the row number first. *)
Fixpoint find_dataset (scannable : string) (ind : nat) (rows : list prow) (acc : option nat * bool)
  : option nat * bool :=
  match rows with
  | [] => acc
  | r :: rest =>
    find_dataset scannable (S ind) rest
      (if String.eqb (r_name r) scannable then
         match r_cap r with
         | CMinMaxMean => (Some ind, snd acc)
         | CMean | CValue => (Some ind, false)
         | _ => acc
         end
       else acc)
  end.
(* The loop over the axes: kinematicssavupart.py 171-189; the assertion of 189 is for the truth of
   dataset_i. *)
Fixpoint check_datasets (axes : dict nat) (rows : list prow) (use : bool) : result serr bool :=
  match axes with
  | [] => Ok use
  | (scannable, _) :: r =>
    match find_dataset scannable 0 rows (None, use) with
    | (Some (S _), use') => check_datasets r rows use'
    | _ => Err (NoDataset scannable)
    end
  end.

(* dtypes: kinematicssavupart.py 170, 191-193. *)
Definition dtypes (use : bool) : list (string * dstype) :=
  ("mean", POSITION_VALUE) :: (if use then [("min", POSITION_MIN); ("max", POSITION_MAX)] else []).
(* produced_datasets: kinematicssavupart.py 194-203. *)
Definition produced_datasets (q : list (nat * string)) (use : bool) (file : string) (g : gen) : list produced :=
  flat_map (fun kv => map (fun t => mkP (snd kv +++ "." +++ fst t) file (snd t) (length (g_dims g))
                                        ("/entry/" +++ snd kv +++ "." +++ fst t) "") (dtypes use)) q.

(* The rows for cs_axis_mapping: pmac/util.py 62-74; a block without cs is an error there as well
   (AttributeError instead of the assertion). *)
Definition cs_rows (rows : list motor) : list (string * string) :=
  map (fun m => (m_name m, match m_cs m with Some c => c | None => "" end)) rows.

(* on_configure: kinematicssavupart.py 95-205.  The attributes of the part when it fails are not
   modelled.  The assertion of 159-161 always holds, as the file name ends in .nxs.  The assertions
   that the tables are there are for tables as objects, which are always true. *)
Definition on_configure (s : part) (w : world) (dir template : string) (g : gen) (axes : list string)
  : result serr (part * list produced) :=
  match dget (w_pmac w) (w_layout w) with
  | None => Err NoBlock
  | Some layout =>
    match Pmac_Model.cs_axis_mapping (cs_rows layout) axes with
    | Err _ => Err BadAxes
    | Ok m =>
      let port := match s_cs_port s with
                  | Some p => Some p
                  | None => match m with [] => None | (_, (p, _)) :: _ => Some p end
                  end in
      match dget (w_panda w) (w_positions w) with
      | None => Err NoBlock
      | Some pos =>
        match port with
        | None | Some EmptyString => Err NoPort
        | Some p =>
          let numbers := cs_axis_numbers layout p [] in
          match check_datasets numbers pos true with
          | Err e => Err e
          | Ok use =>
            let vds := file_name template "kinematics-vds" in
            let q := q_mapping m in
            Ok (mkS port (s_suffix s) (join dir (file_name template "savu")) (join dir vds)
                    (join dir (file_name template "savu_pl"))
                    (join dir (join (subst (splitext template) "savuproc") (file_name template "savu_processed")))
                    [] [] q [] use g pos (w_pmac w) numbers,
                produced_datasets q use vds g)
          end
        end
      end
    end
  end.

(* name.startswith(p) (Python semantics): kinematicssavupart.py 216. *)
Definition startswith (p s : string) : bool := String.prefix p s.
(* The loop that picks a dataset of a type for one axis: kinematicssavupart.py 212-221; the last one
   is kept. *)
Definition same_type (a b : dstype) : bool :=
  match a, b with
  | POSITION_MIN, POSITION_MIN | POSITION_MAX, POSITION_MAX | POSITION_VALUE, POSITION_VALUE => true
  | _, _ => false
  end.
(* See above: one of min_i, max_i and value_i: kinematicssavupart.py 213-222. *)
Fixpoint pick (scannable : string) (t : dstype) (infos : list produced) (acc : option produced) : option produced :=
  match infos with
  | [] => acc
  | i :: r => pick scannable t r
                (if startswith (scannable +++ ".") (p_name i) && same_type (p_type i) t then Some i else acc)
  end.
(* PVar of an info: kinematicssavupart.py 224-245. *)
Definition to_pvar (i : produced) (n : nat) (what : string) : pvar :=
  mkPV (p_path i) (p_file i) ("p" +++ str n +++ what).
(* The loop over the axes: kinematicssavupart.py 211-247. *)
Fixpoint link_axes (axes : dict nat) (infos : list produced) (acc : list pvar) (use : bool)
  : result serr (list pvar * bool) :=
  match axes with
  | [] => Ok (acc, use)
  | (scannable, n) :: r =>
    match pick scannable POSITION_VALUE infos None with
    | None => Err (NoValue scannable)
    | Some v =>
      match pick scannable POSITION_MIN infos None, pick scannable POSITION_MAX infos None with
      | Some mn, Some mx => link_axes r infos (acc ++ [to_pvar v n "mean"; to_pvar mn n "min"; to_pvar mx n "max"]) use
      | _, _ => link_axes r infos (acc ++ [to_pvar v n "mean"]) false
      end
    end
  end.

(* "%02d" % n: kinematicssavupart.py 36-41, 401 (Python semantics). *)
Definition two (n : nat) : string := if Nat.ltb n 10 then "0" +++ str n else str n.
(* MRES_VAR: kinematicssavupart.py 36-37. *)
Definition MRES_VAR (axis : nat) : string := "P48" +++ two axis.
(* OFFSET_VAR: kinematicssavupart.py 40-41. *)
Definition OFFSET_VAR (axis : nat) : string := "P49" +++ two axis.

(* The row of datasetName.index(scannable): kinematicssavupart.py 274. *)
Fixpoint first_row (scannable : string) (rows : list prow) : option prow :=
  match rows with
  | [] => None
  | r :: rest => if String.eqb (r_name r) scannable then Some r else first_row scannable rest
  end.
(* check_mres_and_pos: kinematicssavupart.py 271-283: the new split_var[1]; None is the ValueError of
   index. *)
Fixpoint check_mres_and_pos (axes : dict nat) (rows : list prow) (name value : string) : option string :=
  match axes with
  | [] => Some value
  | (scannable, n) :: r =>
    match first_row scannable rows with
    | None => None
    | Some row =>
      check_mres_and_pos r rows name
        (if String.eqb name (MRES_VAR n) then (if Qeq_bool (r_scale row) 1 then value else "1.0")
         else if String.eqb name (OFFSET_VAR n) then (if Qeq_bool (r_offset row) 0 then value else "0.0")
         else value)
    end
  end.

(* s.split(c) (Python semantics): kinematicssavupart.py 287-289. *)
Fixpoint split (c : ascii) (s : string) : list string :=
  match s with
  | EmptyString => [""]
  | String x r => if Ascii.eqb x c then "" :: split c r
                  else match split c r with w :: l => String x w :: l | [] => [String x ""] end
  end.
(* The body of the loop and the loop of parse_input_variables: kinematicssavupart.py 285-297. *)
Fixpoint parse_words (axes : dict nat) (rows : list prow) (words : list string) (vars : dict string)
  : result serr (dict string) :=
  match words with
  | [] => Ok vars
  | var :: r =>
    if String.eqb var "" then parse_words axes rows r vars
    else match split "="%char var with
         | name :: value :: _ =>
           if startswith "$" value then parse_words axes rows r vars
           else match check_mres_and_pos axes rows name value with
                | None => Err BadVariables
                | Some v => parse_words axes rows r (dset name v vars)
                end
         | _ => Err BadVariables
         end
  end.
(* parse_input_variables: kinematicssavupart.py 285-297. *)
Definition parse_input_variables (axes : dict nat) (rows : list prow) (raw : string) (vars : dict string)
  : result serr (dict string) := parse_words axes rows (split " "%char raw) vars.

(* str.splitlines, for text with \n as line end (Python semantics): kinematicssavupart.py 266. *)
Fixpoint lines (s : string) : list string :=
  match s with
  | EmptyString => []
  | String c r =>
    if Ascii.eqb c (ascii_of_nat 10) then "" :: lines r
    else match lines r with w :: l => String c w :: l | [] => [String c ""] end
  end.

(* A dataset in the VDS file: virtual, with the file and the path of the source and the index in its
   first dimension, or the demand positions: kinematicssavupart.py 379-412. *)
Inductive vds := Virtual (file path : string) (i : nat) | SetPoints (l : list Q).
(* The name in the file of the output for Q i + 1: kinematicssavupart.py 392-406. *)
Definition q_name (q : list (nat * string)) (i : nat) (datatype : string) : string :=
  match nget (i + 1) q with
  | Some axis => "/entry/" +++ axis +++ "." +++ datatype
  | None => "/entry/rawQ" +++ two (i + 1) +++ "." +++ datatype
  end.
(* create_vds_file: kinematicssavupart.py 362-412, what it puts in the file; shapes are not
   modelled. *)
Definition vds_contents (q : list (nat * string)) (savu : string) (use : bool) (g : gen) : list (string * vds) :=
  flat_map (fun datatype => map (fun i => (q_name q i datatype,
              Virtual savu ("/entry/final_result_q" +++ datatype +++ "/data") i)) (seq 0 9))
           (if use then ["min"; "mean"; "max"] else ["mean"])
  ++ flat_map (fun d => map (fun a => ("/entry/" +++ a +++ "_set/" +++ a +++ ".value_set", SetPoints (d_pos d a))) (d_axes d))
              (g_dims g).

(* The input file for Savu: kinematicssavupart.py 311-346; attributes are left out. *)
Record input := mkIn { i_program : list string; i_vars : dict string; i_min_max : bool; i_links : list pvar }.
(* The files written: kinematicssavupart.py 300-359: the names of the input file, of the VDS file and
   of the process list go first; the process list is a copy of a file of the code. *)
Record files := mkF { f_in : string * input; f_pl : string * string; f_vds : string * list (string * vds) }.

(* create_files and create_vds_file: kinematicssavupart.py 300-412; h5py raises an error for a name
   that is taken. *)
Definition create_files (s : part) : result serr files :=
  if Pmac_Model.has_dup (map v_number (s_p s)) then Err NameTaken
  else let c := vds_contents (s_q s) (s_savu s) (s_min_max s) (s_gen s) in
       if Pmac_Model.has_dup (map fst c) then Err NameTaken
       else Ok (mkF (s_nxs s, mkIn (s_code s) (s_vars s) (s_min_max s) (s_p s))
                    (s_pl s, if s_min_max s then "min_mean_max.nxs" else "only_mean.nxs") (s_vds s, c)).

(* on_post_configure: kinematicssavupart.py 207-269; [infos] are the values that filter_values gives
   (210). *)
Definition on_post_configure (s : part) (w : world) (infos : list produced) : result serr (part * files) :=
  match link_axes (s_axes s) infos (s_p s) (s_min_max s) with
  | Err e => Err e
  | Ok (links, use) =>
    match dget (s_pmac s +++ ":STATUS") (w_status w) with
    | None => Err NoBlock
    | Some (iv, pv, mv) =>
      match dget (s_pmac s +++ ":" +++ s_suffix s) (w_cs w) with
      | None => Err NoBlock
      | Some (kin, qv) =>
        match parse_input_variables (s_axes s) (s_pos s) (iv +++ " " +++ pv +++ " " +++ mv +++ " " +++ qv) (s_vars s) with
        | Err e => Err e
        | Ok vars =>
          let s' := mkS (s_cs_port s) (s_suffix s) (s_nxs s) (s_vds s) (s_pl s) (s_savu s) (lines kin) vars
                        (s_q s) links use (s_gen s) (s_pos s) (s_pmac s) (s_axes s) in
          match create_files s' with Err e => Err e | Ok f => Ok (s', f) end
        end
      end
    end
  end.
