(* Model of the YAML files that blocks are made from, /repo/malcolm/yamlutil.py. *)
From Coq Require Import String Ascii Bool ZArith Lia List.
From Verif Require Import Base.
Import ListNotations.
Local Open Scope string_scope.
Local Open Scope list_scope.
Local Open Scope nat_scope.

(* String append (Python semantics). *)
Infix "+++" := String.append (at level 60, right associativity).

(* s.replace(old, new) (Python semantics) for an old that is not empty: from the left, going on
   after what was replaced.  [skip] characters are still part of the last match: yamlutil.py 312-318. *)
Fixpoint replace_from (skip : nat) (old new s : string) : string :=
  match s with
  | EmptyString => EmptyString
  | String c r =>
    match skip with
    | S k => replace_from k old new r
    | O => if String.prefix old s
           then new +++ replace_from (pred (String.length old)) old new r
           else String c (replace_from 0 old new r)
    end
  end.
(* yamlutil.py 312-318. *)
Definition replace (old new s : string) : string := replace_from 0 old new s.

(* A value as the YAML reader gives it: a string, a list (a MutableSequence), a mapping, or
   something else, such as a number, which never changes: yamlutil.py 251-318. *)
Inductive yval :=
| YStr (s : string)
| YSeq (l : list yval)
| YMap (d : list (string * yval))
| YOther (z : Z).

(* yamlutil.py 312-319, replace_substitutions.  The values of the substitutions are given after
   str(). *)
Definition replace_str (subs : dict string) (s : string) : string :=
  fold_left (fun s kv => replace ("$(" +++ fst kv +++ ")") (snd kv) s) subs s.
(* yamlutil.py 312-318. *)
Fixpoint replace_substitutions (subs : dict string) (v : yval) : yval :=
  match v with
  | YStr s => YStr (replace_str subs s)
  | YSeq l => YSeq (map (replace_substitutions subs) l)
  | _ => v
  end.

(* ------------------------------------------------------------------ *)
(* Making the blocks of a file *)

(* One section of a file (yamlutil.py 181-201), with what it stands for: for a block or an include
   the file that its name leads to (203-251), with its base name and directory (269, 93, 155).
   From here on every value is a string, and the names of parameters and defines are not
   substituted. *)
Inductive section :=
| SParam (n : string) (default : option string)
| SDefine (n v : string)
| SPart (args : dict string)
| SController (args : dict string)
| SBlock (args : dict string) (yamlname yamldir : string) (file : list section)
| SInclude (args : dict string) (yamlname yamldir : string) (file : list section).

(* 288-307, substitute_params: yamlutil.py 288-307. *)
Definition substitute_params (subs : dict string) (args : dict string) : dict string :=
  map (fun kv => (fst kv, replace_str subs (snd kv))) args.

(* 20-29, _create_takes_arguments: name and default of the parameters, those without default
   first: yamlutil.py 20-29. *)
Definition params (file : list section) : list (string * option string) :=
  flat_map (fun s => match s with SParam n d => [(n, d)] | _ => [] end) file.
(* yamlutil.py 20-29. *)
Definition takes_arguments (file : list section) : list (string * option string) :=
  filter (fun nd => match snd nd with None => true | _ => false end) (params file)
  ++ filter (fun nd => match snd nd with None => false | _ => true end) (params file).

(* 53-73, _create_defines: yamlutil.py 53-71. *)
Definition dupdate (d e : dict string) : dict string :=
  fold_left (fun d kv => dset (fst kv) (snd kv) d) e d.
(* yamlutil.py 53-71. *)
Definition create_defines (file : list section) (yamlname yamldir : string) (kwargs : dict string)
  : dict string :=
  let d0 := [("yamlname", yamlname); ("yamldir", yamldir); ("docstring", "")] in
  let d1 := fold_left (fun d s => match s with
                                  | SParam n (Some v) => dset n (replace_str d v) d
                                  | _ => d
                                  end) file d0 in
  let d2 := dupdate d1 kwargs in
  fold_left (fun d s => match s with
                        | SDefine n v => dset n (replace_str d v) d
                        | _ => d
                        end) file d2.

(* 114-134, creator_with_nice_signature with the call of 235-237 (models.py 1023-1046,
   MapMeta.validate): locals() of creator_from_yaml.  An argument that is no parameter or a
   parameter without default that is not given is an exception; the default is the one of the
   signature, made by instantiate({}) (24). *)
Fixpoint bind_args (takes : list (string * option string)) (given : dict string)
  : option (dict string) :=
  match takes with
  | [] => Some []
  | (n, d) :: r =>
    match (match dget n given with Some v => Some v | None => d end), bind_args r given with
    | Some v, Some l => Some ((n, v) :: l)
    | _, _ => None
    end
  end.
(* yamlutil.py 114-121, 164-168. *)
Definition call_args (file : list section) (given : dict string) : option (dict string) :=
  if forallb (fun k => smem k (map fst (takes_arguments file))) (dkeys given)
  then bind_args (takes_arguments file) given else None.

(* What is made: a part, and a controller with its parts (in the order of add_part), each
   known by the arguments that it was made with.  What their constructors do, and that add_part
   refuses a second part of the same name, is not modelled: yamlutil.py 31-51, 164-178. *)
Definition part := dict string.
(* yamlutil.py 31-51, 164-178. *)
Record ctrl := mkC { c_args : dict string; c_parts : list part }.

(* The sections for controllers: 96, 158: yamlutil.py 96, 158. *)
Definition controllers (file : list section) : list (dict string) :=
  flat_map (fun s => match s with SController a => [a] | _ => [] end) file.

(* One section: 31-50 (_create_blocks_and_parts), 102-105 (include_creator), 164-173
   (block_creator); None is an exception.  The checks of 96-99 and 158-161 are made when the
   file is loaded, which is earlier: yamlutil.py 31-51, 102-105, 164-173. *)
Fixpoint make (s : section) (env : dict string) : option (list ctrl * list part) :=
  let all := fix all (l : list section) (defs : dict string) : option (list ctrl * list part) :=
    match l with
    | [] => Some ([], [])
    | s :: r => match make s defs, all r defs with
                | Some (c, p), Some (c', p') => Some (c ++ c', p ++ p')
                | _, _ => None
                end
    end in
  match s with
  | SPart args => Some ([], [substitute_params env args])
  | SBlock args yamlname yamldir file =>
    match call_args file (substitute_params env args) with
    | None => None
    | Some kwargs =>
      let defs := create_defines file yamlname yamldir kwargs in
      match all file defs, controllers file with
      | Some (cs, ps), [a] => Some (cs ++ [mkC (substitute_params defs a) ps], [])
      | _, _ => None
      end
    end
  | SInclude args yamlname yamldir file =>
    match call_args file (substitute_params env args) with
    | None => None
    | Some kwargs =>
      match all file (create_defines file yamlname yamldir kwargs), controllers file with
      | Some r, [] => Some r
      | _, _ => None
      end
    end
  | _ => Some ([], [])
  end.
(* 31-50 for a list of sections: yamlutil.py 31-51. *)
Fixpoint make_all (l : list section) (defs : dict string) : option (list ctrl * list part) :=
  match l with
  | [] => Some ([], [])
  | s :: r => match make s defs, make_all r defs with
              | Some (c, p), Some (c', p') => Some (c ++ c', p ++ p')
              | _, _ => None
              end
  end.
(* 137-178, make_block_creator: the function called with arguments: yamlutil.py 137-178. *)
Definition block_creator (file : list section) (yamlname yamldir : string) (given : dict string)
  : option (list ctrl) :=
  match make (SBlock given yamlname yamldir file) [] with Some (cs, _) => Some cs | None => None end.
