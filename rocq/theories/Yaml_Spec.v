(* What the writer of a YAML file relies on. *)
From Coq Require Import String Ascii Bool ZArith Lia List.
From Verif Require Import Base Yaml_Model.
Import ListNotations.
Local Open Scope string_scope.
Local Open Scope list_scope.
Local Open Scope nat_scope.

(* a text with references: a character other than $, a $ that starts nothing, or $(name) *)
Inductive token := Lit (c : ascii) | Dollar (c : ascii) | Ref (n : string).
Definition dollar : ascii := "$"%char.
Definition lparen : ascii := "("%char.
Definition rparen : ascii := ")"%char.
Fixpoint has (c : ascii) (s : string) : Prop :=
  match s with EmptyString => False | String d r => d = c \/ has c r end.
Definition token_ok (t : token) : Prop :=
  match t with
  | Lit c => c <> dollar
  | Dollar c => c <> dollar /\ c <> lparen
  | Ref n => ~ has dollar n /\ ~ has rparen n
  end.
Definition write (t : token) : string :=
  match t with
  | Lit c => String c ""
  | Dollar c => String dollar (String c "")
  | Ref n => "$(" +++ n +++ ")"
  end.
Fixpoint text (ts : list token) : string :=
  match ts with [] => "" | t :: r => write t +++ text r end.
(* each reference to a known name becomes its value; the rest stays *)
Fixpoint filled (subs : dict string) (ts : list token) : string :=
  match ts with
  | [] => ""
  | t :: r => match t with
              | Ref n => match dget n subs with Some v => v | None => write t end
              | _ => write t
              end +++ filled subs r
  end.
(* names without a closing bracket, values without $ *)
Definition plain_subs (subs : dict string) : Prop :=
  forall n v, In (n, v) subs -> ~ has rparen n /\ ~ has dollar v.

(* the strings in lists, at any depth *)
Inductive in_lists : yval -> yval -> Prop :=
| il_here v : in_lists v v
| il_in v w l : In w l -> in_lists v w -> in_lists v (YSeq l).

(* ---- what a file makes ---- *)
Definition defines_of (file : list section) (n : string) : Prop := exists v, In (SDefine n v) file.
Definition is_param (s : section) : bool := match s with SParam _ _ => true | _ => false end.

Definition is_controller (s : section) : bool := match s with SController _ => true | _ => false end.

(* s' is s itself or is in a file that s includes, at any depth, with env' the values known
   there *)
Inductive included : dict string -> section -> dict string -> section -> Prop :=
| inc_here env s : included env s env s
| inc_file env args yn yd file kw s env' s' :
    call_args file (substitute_params env args) = Some kw -> In s file ->
    included (create_defines file yn yd kw) s env' s' ->
    included env (SInclude args yn yd file) env' s'.
(* the same through blocks and includes *)
Inductive reached : dict string -> section -> dict string -> section -> Prop :=
| re_here env s : reached env s env s
| re_include env args yn yd file kw s env' s' :
    call_args file (substitute_params env args) = Some kw -> In s file ->
    reached (create_defines file yn yd kw) s env' s' ->
    reached env (SInclude args yn yd file) env' s'
| re_block env args yn yd file kw s env' s' :
    call_args file (substitute_params env args) = Some kw -> In s file ->
    reached (create_defines file yn yd kw) s env' s' ->
    reached env (SBlock args yn yd file) env' s'.

(* how many blocks and parts are written in all the files *)
Fixpoint n_blocks (s : section) : nat :=
  match s with
  | SBlock _ _ _ file => S (list_sum (map n_blocks file))
  | SInclude _ _ _ file => list_sum (map n_blocks file)
  | _ => 0
  end.
Fixpoint n_parts (s : section) : nat :=
  match s with
  | SPart _ => 1
  | SBlock _ _ _ file | SInclude _ _ _ file => list_sum (map n_parts file)
  | _ => 0
  end.
