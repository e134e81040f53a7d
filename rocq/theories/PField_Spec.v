(* What is asked of the attributes of a PandA block (C72, C73), without the functions of the model. *)
From Coq Require Import String Ascii Bool Arith List.
From Verif Require Import Base PField_Model.
Import ListNotations.
Local Open Scope string_scope.
Local Open Scope list_scope.

(* The kind of value of the subtypes of the PandA. *)
Inductive kind_of (labels : list string) : string -> mkind -> Prop :=
| kind_enum : kind_of labels "enum" (KChoice labels)
| kind_bit : kind_of labels "bit" KBool
| kind_uint : kind_of labels "uint" (KNum "uint32")
| kind_none : kind_of labels "" (KNum "uint32")
| kind_int : kind_of labels "int" (KNum "int32")
| kind_pos : kind_of labels "pos" (KNum "int32")
| kind_scalar : kind_of labels "scalar" (KNum "float64")
| kind_lut : kind_of labels "lut" KString.

Definition units : mkind := KChoice ["min"; "s"; "ms"; "us"].

(* shows d x h: of a field of the type d, what the device reports as "FIELD" followed by x is shown by h, or
   left to the table of the busses where h is None. *)
Inductive shows (d : fdata) : string -> option handler -> Prop :=
| sh_time : f_type d = "time" \/ f_type d = "param" /\ f_sub d = "time" ->
    shows d "" (Some (HField (KNum "float64") true (Some 2)))
| sh_read_time : f_type d = "read" -> f_sub d = "time" -> shows d "" (Some (HField (KNum "float64") false None))
| sh_units : f_type d = "time" \/ (f_type d = "param" \/ f_type d = "read") /\ f_sub d = "time" ->
    shows d ".UNITS" (Some (HField units true (Some 1)))
| sh_param k : f_type d = "param" \/ f_type d = "write" -> kind_of (f_labels d) (f_sub d) k ->
    shows d "" (Some (HField k true (Some 1)))
| sh_read k : f_type d = "read" -> kind_of (f_labels d) (f_sub d) k -> shows d "" (Some (HField k false None))
| sh_bit_out : f_type d = "bit_out" -> shows d "" (Some (HField KBool false None))
| sh_pos_out : f_type d = "pos_out" -> shows d "" (Some (HField (KNum "int32") false None))
| sh_pos_bus x : f_type d = "pos_out" -> In x [".CAPTURE"; ".UNITS"; ".SCALE"; ".OFFSET"; ".DATA_DELAY"] ->
    shows d x None
| sh_bits : f_type d = "ext_out" -> f_sub d = "bits" -> shows d ".CAPTURE" None
| sh_ext : f_type d = "ext_out" -> f_sub d <> "bits" ->
    shows d ".CAPTURE" (Some (HField (KChoice (f_labels d)) true (Some 1)))
| sh_mux l : f_type d = "bit_mux" \/ f_type d = "pos_mux" -> l = mux_labels (f_labels d) ->
    shows d "" (Some (HField (KChoice l) true (Some 1)))
| sh_delay : f_type d = "bit_mux" -> shows d ".DELAY" (Some (HField (KNum "uint8") true (Some 1)))
| sh_table : f_type d = "table" -> shows d "" (Some HTable).

(* A field that shows nothing, but is a method. *)
Definition is_action (d : fdata) : Prop := f_type d = "write" /\ f_sub d = "action".
Definition is_mux (d : fdata) : Prop := f_type d = "bit_mux" \/ f_type d = "pos_mux".

(* The types that are known. *)
Definition known (d : fdata) : Prop := is_action d \/ exists x h, shows d x h.

(* No character c in s. *)
Fixpoint free (c : ascii) (s : string) : Prop :=
  match s with EmptyString => True | String x r => x <> c /\ free c r end.

(* The device reports the field fn of the block bn as k. *)
Inductive reports (bn fn : string) : string -> Prop :=
| rep_field : free "." bn -> bn <> "*METADATA" -> reports bn fn (bn +++ "." +++ fn)
| rep_label : fn = "LABEL" -> reports bn fn ("*METADATA.LABEL_" +++ bn).

(* The last of the changes for the field fn of the block bn. *)
Definition last_report (bn fn : string) (cs : list (string * string)) (v : string) : Prop :=
  exists k l1 l2, cs = l1 ++ (k, v) :: l2 /\ reports bn fn k
    /\ forall k' v', In (k', v') l2 -> ~ reports bn fn k'.

(* The handling of a poll does not come between the sending of a set and its end. *)
Fixpoint apart {V} (setting : bool) (es : list (ev V)) : bool :=
  match es with
  | [] => true
  | SetSend _ :: r => apart true r
  | SetEnd :: r => apart false r
  | PollHandle :: r => negb setting && apart setting r
  | _ :: r => apart setting r
  end.

(* The part p is made of the field f. *)
Definition makes (f : string) (d : fdata) (p : string) : Prop :=
  (exists x h, shows d x (Some h) /\ p = underscored (f +++ x)) \/ is_action d /\ p = f.

(* Names as the device has them: words of letters in upper case, each with digits after them or not, joined by
   underscores.  st is 0 at the start of a word, 1 after a letter, 2 after a digit. *)
Definition upper_letter (c : ascii) : Prop := (65 <= nat_of_ascii c <= 90)%nat.
Definition digit_char (c : ascii) : Prop := (48 <= nat_of_ascii c <= 57)%nat.
Inductive snake : nat -> string -> Prop :=
| snake_end st : st <> 0 -> snake st ""
| snake_letter st c r : st <> 2 -> upper_letter c -> snake 1 r -> snake st (String c r)
| snake_digit st c r : st <> 0 -> digit_char c -> snake 2 r -> snake st (String c r)
| snake_next st r : st <> 0 -> snake 0 r -> snake st (String "_"%char r).

(* The names that each block has already. *)
Definition taken : list string :=
  ["HEALTH"; "ICON"; "LABEL"; "HELP"; "PARAMETERS"; "READBACKS"; "OUTPUTS"; "INPUTS"].
