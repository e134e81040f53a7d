(* File names for detectors that run on Windows: ADCore/infos.py 7-48, core/info.py 21-84,
   ADCore/util.py 110-112. *)
From Coq Require Import String Ascii Bool List.
From Verif Require Import Base Yaml_Model.
Import ListNotations.
Local Open Scope string_scope.
Local Open Scope list_scope.

(* FilePathTranslatorInfo: ADCore/infos.py 7-20. *)
Record translator := mkTr { windows_drive_letter : string; path_prefix : string; network_prefix : string }.

(* An info: a translator, or of another class.  A part's entry in part_info: a list of infos, None
   or an exception (core/info.py 36-40). *)
Inductive pinfo := PInfos (l : list (option translator)) | PNone | PExc.

(* filter_parts and filter_values: core/info.py 22-58.  The infos of the class in the order of the
   parts. *)
Definition filter_values (part_info : dict pinfo) : list translator :=
  flat_map (fun kv => match snd kv with
                      | PInfos l => flat_map (fun i => match i with Some t => [t] | None => [] end) l
                      | PNone | PExc => []
                      end) part_info.

(* What translate_filepath raises: BadValueError of filter_single_value, the two asserts:
   ADCore/infos.py 22-36. *)
Inductive terr := NotOne | NoPrefix | Colon.

(* filter_single_value: core/info.py 60-84. *)
Definition filter_single_value (part_info : dict pinfo) : result terr translator :=
  match filter_values part_info with [t] => Ok t | _ => Err NotOne end.

(* s.replace(old, new) (Python semantics), also for an empty old: new before each character and
   at the end: ADCore/infos.py 38-47. *)
Fixpoint between (new s : string) : string :=
  match s with
  | EmptyString => new
  | String c r => new ++ String c (between new r)
  end%string.
(* ADCore/infos.py 38-47. *)
Definition py_replace (old new s : string) : string :=
  match old with EmptyString => between new s | _ => replace old new s end.

(* s.find(":") == -1 (Python semantics): ADCore/infos.py 34-36. *)
Fixpoint has_colon (s : string) : bool :=
  match s with EmptyString => false | String c r => Ascii.eqb c ":" || has_colon r end.

(* translate_filepath: ADCore/infos.py 22-48. *)
Definition translate_filepath (part_info : dict pinfo) (filepath : string) : result terr string :=
  match filter_single_value part_info with
  | Err e => Err e
  | Ok t =>
      if negb (String.prefix (path_prefix t) filepath) then Err NoPrefix
      else if has_colon filepath then Err Colon
      else
        let new := if String.eqb (network_prefix t) "" then (windows_drive_letter t ++ ":")%string
                   else (network_prefix t ++ path_prefix t)%string in
        Ok (py_replace "/" "\" (py_replace (path_prefix t) new filepath))
  end.

(* make_xml_filename: ADCore/util.py 110-112; os.path.join for a second part that does not start
   with a slash (posixpath).  An mri does not start with one. *)
Definition path_join (a b : string) : string :=
  match a with
  | EmptyString => b
  | _ => if Ascii.eqb (match String.get (pred (String.length a)) a with Some c => c | None => " "%char end) "/"
         then (a ++ b)%string else (a ++ "/" ++ b)%string
  end.
(* ADCore/util.py 110-112. *)
Definition make_xml_filename (file_dir mri suffix : string) : string :=
  path_join file_dir (py_replace ":" "_" mri ++ "-" ++ suffix ++ ".xml").
