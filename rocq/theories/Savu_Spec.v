(** What the files for Savu should be, without the functions of the model that make them. *)
From Coq Require Import String Ascii Bool QArith List.
From Verif Require Import Base Hdf_Model Odin_Model Savu_Model.
Import ListNotations.
Local Open Scope nat_scope.
Local Open Scope string_scope.
Local Open Scope list_scope.

(** [a] is a motor of the coordinate system on [port], number [n] on the controller. *)
Definition raw_axis (layout : list motor) (port a : string) (n : nat) : Prop :=
  exists cs axis, In (mkMotor a (Some cs) (Some n)) layout /\ n <> 0 /\ cs <> "" /\
    (cs = port +++ "," +++ axis \/ cs = port) /\ ~ In ","%char (list_ascii_of_string port).

(** A row that gives the position of [a] for each point. *)
Definition captured (a : string) (r : prow) : Prop :=
  r_name r = a /\ In (r_cap r) [CMean; CValue; CMinMaxMean].
(** A row that gives no minimum and maximum with it. *)
Definition only_mean (a : string) (r : prow) : Prop := r_name r = a /\ In (r_cap r) [CMean; CValue].

(** The letters of the axes of a coordinate system: Q1 is the position of A, up to Q9 for Z. *)
Definition letters : list string := ["A"; "B"; "C"; "U"; "V"; "W"; "X"; "Y"; "Z"].

(** All [axes] are in the coordinate system on [port], [a] with the letter [letter a]. *)
Definition moved (layout : list motor) (axes : list string) (port : string) (letter : string -> string) : Prop :=
  ~ In ","%char (list_ascii_of_string port) /\
  (forall a, In a axes -> In (letter a) letters /\ exists n, In (mkMotor a (Some (port +++ "," +++ letter a)) n) layout) /\
  (forall a b, In a axes -> In b axes -> letter a = letter b -> a = b).

(** The datasets that are calculated. *)
Definition kinds : list (string * dstype) := [("mean", POSITION_VALUE); ("min", POSITION_MIN); ("max", POSITION_MAX)].

(** [i] is a dataset of type [t] for the axis [a], and the last one. *)
Definition of_axis (a : string) (t : dstype) (i : produced) : Prop :=
  p_type i = t /\ exists suffix, p_name i = a +++ "." +++ suffix.
(** See above. *)
Definition picked (a : string) (t : dstype) (infos : list produced) (i : produced) : Prop :=
  exists l1 l2, infos = l1 ++ i :: l2 /\ of_axis a t i /\ forall j, In j l2 -> ~ of_axis a t j.

(** The text of some variables, as the controller gives it. *)
Definition text (l : list (string * string)) : string :=
  String.concat " " (map (fun nv => fst nv +++ "=" +++ snd nv) l).
(** Names and values do not have the characters that part them. *)
Definition plain (s : string) : Prop :=
  ~ In " "%char (list_ascii_of_string s) /\ ~ In "="%char (list_ascii_of_string s).
(** See above. *)
Definition all_plain (l : list (string * string)) : Prop := forall n v, In (n, v) l -> plain n /\ plain v.
(** A value in hex. *)
Definition hex (v : string) : Prop := exists r, v = "$" +++ r.
(** The last value that is not in hex. *)
Definition last_value (l : list (string * string)) (n v : string) : Prop :=
  exists l1 l2, l = l1 ++ (n, v) :: l2 /\ ~ hex v /\ forall v', In (n, v') l2 -> hex v'.

(** The row that gives scale and offset of [a]: the first one with its name. *)
Definition row_of (rows : list prow) (a : string) (r : prow) : Prop :=
  exists l1 l2, rows = l1 ++ r :: l2 /\ r_name r = a /\ forall x, In x l1 -> r_name x <> a.
(** A number with two digits or more. *)
Definition two_digits (n : nat) (s : string) : Prop := (n < 10 /\ s = "0" +++ str n) \/ (10 <= n /\ s = str n).
(** [n] is the variable with the resolution of an axis that the PandA scales itself. *)
Definition scaled (layout : list motor) (port : string) (rows : list prow) (n : string) : Prop :=
  exists a k r d, raw_axis layout port a k /\ two_digits k d /\ n = "P48" +++ d /\ row_of rows a r /\ ~ (r_scale r == 1)%Q.
(** [n] is the variable with the offset of an axis that the PandA shifts itself. *)
Definition shifted (layout : list motor) (port : string) (rows : list prow) (n : string) : Prop :=
  exists a k r d, raw_axis layout port a k /\ two_digits k d /\ n = "P49" +++ d /\ row_of rows a r /\ ~ (r_offset r == 0)%Q.
(** The value that Savu gets instead of [v]. *)
Definition adjusted (layout : list motor) (port : string) (rows : list prow) (n v v' : string) : Prop :=
  (scaled layout port rows n /\ v' = "1.0") \/ (shifted layout port rows n /\ v' = "0.0") \/
  (~ scaled layout port rows n /\ ~ shifted layout port rows n /\ v' = v).
