(* Which co-ordinate system (CS) and axis a motor belongs to, and moves in a CS.
   /repo/malcolm/modules/pmac/parts/rawmotorsinkportspart.py, compoundmotorsinkportspart.py,
   cssourceportspart.py, cspart.py. *)
From Coq Require Import String Ascii Bool QArith List Decimal DecimalString.
From Verif Require Import Base Hdf_Model Savu_Model.
From Verif Require Pmac_Model.
Import ListNotations.
Local Open Scope string_scope.
Local Open Scope list_scope.
Local Open Scope nat_scope.

(* CS_AXIS_NAMES + ["I"]: rawmotorsinkportspart.py 75, 105. *)
Definition letters : list string := Pmac_Model.CS_AXIS_NAMES ++ ["I"].

(* ValueError of the ChoiceMeta (core/models.py 539-545), IndexError, ValueError of int() or of index (rawmotorsinkportspart.py 102, 113-115, 132; compoundmotorsinkportspart.py 62-64). *)
Inductive perr := NotAChoice | OutOfRange | BadText.

(* The attributes of the part and of its block: rawmotorsinkportspart.py 37-50.  cs with whether it has
   an alarm; pmac and axisNumber without their alarms, 0 and "" for None. *)
Record st := mkSt { t_ports : list string; t_choices : list string; t_port : option string; t_axis : option string;
                    t_cs : string * bool; t_pmac : string; t_number : nat }.

(* __init__: rawmotorsinkportspart.py 29-50. *)
Definition init : st := mkSt [] [] None None ("", false) "" 0.

(* The choices: rawmotorsinkportspart.py 72-77. *)
Definition make_choices (ports : list string) : list string :=
  "" :: flat_map (fun p => map (fun a => p +++ "," +++ a) letters) (tl ports).

(* s.rstrip(")") (Python semantics): rawmotorsinkportspart.py 113, compoundmotorsinkportspart.py 62. *)
Fixpoint rstrip (s : string) : string :=
  match s with
  | EmptyString => ""
  | String c r => match rstrip r with
                  | EmptyString => if Ascii.eqb c ")"%char then "" else String c ""
                  | r' => String c r'
                  end
  end.
(* s.strip(), for blanks only (Python semantics): from the left,:
   rawmotorsinkportspart.py 114-115, compoundmotorsinkportspart.py 63-64 *)
Fixpoint lstrip (s : string) : string :=
  match s with
  | String " " r => lstrip r
  | _ => s
  end.
(* and from the right (Python semantics):
   rawmotorsinkportspart.py 114-115, compoundmotorsinkportspart.py 63-64. *)
Fixpoint rstrip_blank (s : string) : string :=
  match s with
  | EmptyString => ""
  | String c r => match rstrip_blank r with
                  | EmptyString => if Ascii.eqb c " "%char then "" else String c ""
                  | r' => String c r'
                  end
  end.
(* s.strip() (Python semantics): rawmotorsinkportspart.py 114-115, compoundmotorsinkportspart.py 63-64. *)
Definition strip (s : string) : string := rstrip_blank (lstrip s).
(* The two fields of "@asyn(PORT,num)": rawmotorsinkportspart.py 113-115,
   compoundmotorsinkportspart.py 62-64; None for each is an IndexError. *)
Definition fields (s : string) : option string * option string :=
  match split "("%char s with
  | _ :: x :: _ => match split ","%char (rstrip x) with
                   | a :: b :: _ => (Some (strip a), Some (strip b))
                   | a :: _ => (Some (strip a), None)
                   | [] => (None, None)
                   end
  | _ => (None, None)
  end.
(* int(s), for digits only (Python semantics): compoundmotorsinkportspart.py 64. *)
Definition int_of (s : string) : option nat :=
  match s with
  | EmptyString => None
  | _ => match NilEmpty.uint_of_string s with Some u => Some (Nat.of_uint u) | None => None end
  end.

(* What a PV tells: None if it is not ok: rawmotorsinkportspart.py 94-118. *)
Inductive reading := RPort (i : option nat) | RAxis (a : option string) | ROut (s : option string).

(* self.port_choices[i] (Python semantics): rawmotorsinkportspart.py 78, 102, 139. *)
Definition port_at (s : st) (i : nat) : option string := nth_error (t_ports s) i.
(* self.port = ... and self.axis = ...: rawmotorsinkportspart.py 78, 97-108. *)
Definition set_port (s : st) (p : option string) : st :=
  mkSt (t_ports s) (t_choices s) p (t_axis s) (t_cs s) (t_pmac s) (t_number s).
(* See above: rawmotorsinkportspart.py 105-108. *)
Definition set_axis (s : st) (a : option string) : st :=
  mkSt (t_ports s) (t_choices s) (t_port s) a (t_cs s) (t_pmac s) (t_number s).
(* cs_attr.set_value: rawmotorsinkportspart.py 119-127 with core/models.py 539-545. *)
Definition set_cs (s : st) (v : string) (alarm : bool) : st * option perr :=
  if smem v (t_choices s)
  then (mkSt (t_ports s) (t_choices s) (t_port s) (t_axis s) (v, alarm) (t_pmac s) (t_number s), None)
  else (s, Some NotAChoice).
(* The end of _update_value: rawmotorsinkportspart.py 119-127; None as a value is the first choice
   (core/models.py 521-526), and with no choices the empty string. *)
Definition show (s : st) : st * option perr :=
  match t_port s, t_axis s with
  | Some p, Some a =>
    if negb (String.eqb p "") && negb (String.eqb a "") then set_cs s (p +++ "," +++ a) false
    else set_cs s "" false
  | _, _ => (mkSt (t_ports s) (t_choices s) (t_port s) (t_axis s) (hd "" (t_choices s), true) (t_pmac s) (t_number s), None)
  end.
(* _update_value: rawmotorsinkportspart.py 94-127; with an exception, if any. *)
Definition update (s : st) (r : reading) : st * option perr :=
  match r with
  | RPort None => show (set_port s None)
  | RPort (Some 0) => show (set_port s (Some ""))
  | RPort (Some i) => match port_at s i with
                      | Some p => show (set_port s (Some p))
                      | None => (s, Some OutOfRange)
                      end
  | RAxis (Some a) => show (set_axis s (if smem a letters then Some a else None))
  | RAxis None => show (set_axis s None)
  | ROut None => show (mkSt (t_ports s) (t_choices s) (t_port s) (t_axis s) (t_cs s) "" 0)
  | ROut (Some x) =>
    match fields x with
    | (None, _) => (s, Some OutOfRange)
    | (Some p, n) =>
      let s1 := mkSt (t_ports s) (t_choices s) (t_port s) (t_axis s) (t_cs s) p (t_number s) in
      match n with
      | None => (s1, Some OutOfRange)
      | Some n => match int_of n with
                  | None => (s1, Some BadText)
                  | Some k => show (mkSt (t_ports s) (t_choices s) (t_port s) (t_axis s) (t_cs s) p k)
                  end
      end
    end
  end.
(* Several of them: an exception in the callback of a monitor is printed, and ends only that callback:
   rawmotorsinkportspart.py 82-87. *)
Definition updates (s : st) (l : list reading) : st := fold_left (fun s r => fst (update s r)) l s.

(* reconnect: rawmotorsinkportspart.py 62-87, when all PVs are connected: the names of the ports, and
   the readbacks. *)
Definition reconnect (s : st) (ports : list string) (i : nat) (axis out : string) : st * option perr :=
  let s1 := mkSt ports (make_choices ports) (t_port s) (t_axis s) (t_cs s) (t_pmac s) (t_number s) in
  match nth_error ports i with
  | None => (s1, Some OutOfRange)
  | Some p => match update (set_port s1 (Some p)) (RAxis (Some axis)) with
              | (s2, None) => update s2 (ROut (Some out))
              | r => r
              end
  end.

(* caput: rawmotorsinkportspart.py 129-136: what is put (port index and axis); None is an exception. *)
Definition put_values (s : st) (v : string) : option (nat * string) :=
  if String.eqb v "" then Some (0, "")
  else match split ","%char v with
       | [port; axis] => match index_of port (t_ports s) 0 with
                         | Some i => Some (i, axis)
                         | None => None
                         end
       | _ => None
       end.
(* The end of caput, with the readbacks: rawmotorsinkportspart.py 137-140. *)
Definition after_put (s : st) (i : nat) (axis : string) : st * option perr :=
  match nth_error (t_ports s) i with
  | None => (s, Some OutOfRange)
  | Some p => update (set_port s (Some p)) (RAxis (Some axis))
  end.

(* CompoundMotorSinkPortsPart._update_value: compoundmotorsinkportspart.py 57-65, for a PV that is ok;
   CS_AXIS_NAMES[-1] is the last. *)
Definition compound (out : string) : result perr string :=
  match fields out with
  | (Some port, Some n) =>
    match int_of n with
    | None => Err BadText
    | Some 0 => Ok (port +++ "," +++ last Pmac_Model.CS_AXIS_NAMES "")
    | Some (S k) => match nth_error Pmac_Model.CS_AXIS_NAMES k with
                    | Some a => Ok (port +++ "," +++ a)
                    | None => Err OutOfRange
                    end
    end
  | _ => Err OutOfRange
  end.

(* CSSourcePortsPart.update_tags: cssourceportspart.py 42-52: the connected values of the source ports of
   a CS block with this port. *)
Definition source_values (port : string) : list (string * string) := map (fun k => (k, port +++ "," +++ k)) letters.

(* s.endswith(e) (Python semantics): cspart.py 46-48. *)
Fixpoint endswith (s e : string) : bool :=
  String.eqb s e || match s with EmptyString => false | String _ r => endswith r e end.
(* CSPart.on_init: cspart.py 40-48, whether the port is accepted. *)
Definition cs_accepted (cs : nat) (port : string) : bool := endswith port (str cs).
(* The method that it has: cspart.py 28. *)
Definition cs_method (cs : nat) : string := "moveCS" +++ str cs.
(* re.search("\d+$", port).group(): pmacchildpart.py 297-299: the digits at the end. *)
Definition is_digit (c : ascii) : bool := let n := nat_of_ascii c in Nat.leb 48 n && Nat.leb n 57.
(* See above: all characters are digits: pmacchildpart.py 297. *)
Fixpoint digits (s : string) : bool := match s with EmptyString => true | String c r => is_digit c && digits r end.
(* See above: pmacchildpart.py 297. *)
Fixpoint end_digits (s : string) : string :=
  match s with EmptyString => "" | String _ r => if digits s then s else end_digits r end.
(* The method that is called for a port: pmacchildpart.py 297-299; None is the AssertionError. *)
Definition called_method (port : string) : option string :=
  match end_digits port with EmptyString => None | d => Some ("moveCS" +++ d) end.

(* What move does to the CS block, in order: cspart.py 68-85. *)
Inductive ev := Defer (b : bool) | MoveTime (ms : Q) | Demand (axis : string) (x : Q).
(* move: cspart.py 53-85: what is put, and whether it gets to the end.  The demands are those that are
   given, by the letter of their axis; [received] tells for which of them the PV shows the value within
   a second; [arrived] whether the moves end in time. *)
Definition move (demands : dict Q) (time : Q) (received : string -> bool) (arrived : bool) : list ev * bool :=
  let used := filter (fun x => dmem x demands) Pmac_Model.CS_AXIS_NAMES in
  let start := Defer true :: MoveTime (time * 1000)%Q
               :: flat_map (fun x => match dget x demands with Some v => [Demand x v] | None => [] end) used in
  if forallb received used then (start ++ [Defer false], arrived) else (start, false).
