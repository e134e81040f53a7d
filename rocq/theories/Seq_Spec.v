(* Specification vocabulary for the PandA sequencer properties: what a list of
   sequencer rows makes the hardware do.  Uses only the row type of the model. *)
From Coq Require Import Bool ZArith List.
From Verif Require Import Base Seq_Model.
Import ListNotations.
Local Open Scope Z_scope.

(* One pulse: wait for the trigger, then phase 1 with its outputs, then phase 2. *)
Record pulse := mkPulse {
  p_trigger : trigger; p_position : Z; p_time1 : Z; p_live : bool; p_dead : bool;
  p_time2 : Z }.

(* The hardware does a pulse once, or (repeats = 0) for ever. *)
Inductive act := Once (p : pulse) | Forever (p : pulse).

Definition pulse_of (r : row) : pulse :=
  mkPulse (r_trigger r) (r_position r) (r_time1 r) (r_live r) (r_dead r) (r_time2 r).

(* A row is done r_repeats times; 0 means for ever. *)
Definition acts_of_row (r : row) : list act :=
  if r_repeats r =? 0 then [Forever (pulse_of r)]
  else repeat (Once (pulse_of r)) (Z.to_nat (r_repeats r)).

Definition acts (rows : list row) : list act := flat_map acts_of_row rows.

(* The pulse list with n ticks taken off phase 2 of its last pulse. *)
Definition shorten (n : Z) (a : act) : act :=
  match a with
  | Once p => Once (mkPulse (p_trigger p) (p_position p) (p_time1 p) (p_live p)
                            (p_dead p) (p_time2 p - n))
  | Forever p => Forever p
  end.

Inductive trimmed (n : Z) : list act -> list act -> Prop :=
| trimmed_last : forall l a, trimmed n (l ++ [a]) (l ++ [shorten n a]).

(* [done] is the sequence of pulses of successive tables made out of [wanted]:
   all tables but the last have their last pulse shortened by [n], the last
   table is complete. *)
Inductive replays (n : Z) : list act -> list (list act) -> Prop :=
| replays_none : replays n [] []
| replays_end : forall l, l <> [] -> replays n l [l]
| replays_more : forall l l' rest tables,
    trimmed n l l' -> replays n rest tables -> replays n (l ++ rest) (l' :: tables).

(* Rows that end in exactly one continuous row, all others being finite. *)
Definition ends_in_loop (rows : list row) : Prop :=
  exists init last, rows = init ++ [last] /\ r_repeats last = 0 /\
    Forall (fun r => 1 <= r_repeats r) init.

(* total time of the finite pulses *)
Definition act_time (a : act) : Z :=
  match a with Once p => p_time1 p + p_time2 p | Forever _ => 0 end.
Definition total_time (l : list act) : Z := fold_right (fun a t => act_time a + t) 0 l.

(* The phase lengths of the pulses with the live output on, in order. *)
Definition live_pulses (l : list act) : list (Z * Z) :=
  flat_map (fun a => match a with
                     | Once p => if p_live p then [(p_time1 p, p_time2 p)] else []
                     | Forever _ => []
                     end) l.

(* Trigger and phase lengths of the pulses with the dead output on, in order. *)
Definition dead_pulses (l : list act) : list (trigger * Z * Z) :=
  flat_map (fun a => match a with
                     | Once p => if p_dead p then [(p_trigger p, p_time1 p, p_time2 p)] else []
                     | Forever _ => []
                     end) l.

Definition has_forever (l : list act) : bool :=
  existsb (fun a => match a with Forever _ => true | Once _ => false end) l.

(* Falling edges seen on two `active` lines, given their last known values. *)
Fixpoint falls (sa sb : bool) (es : list (bool * bool)) : list bool :=
  match es with
  | [] => []
  | (side, v) :: more =>
    let old := if side then sa else sb in
    let sa' := if side then v else sa in
    let sb' := if side then sb else v in
    if old && negb v then side :: falls sa' sb' more else falls sa' sb' more
  end.

(* all the rows of a row source, in order *)
Definition all_rows (gen : list seqrows) : list row := flat_map s_rows gen.

(* what is in the table of one sequencer: the last one written to it *)
Definition latest {T} (side : bool) (w : list (bool * T)) : option T :=
  fold_left (fun acc x => if Bool.eqb (fst x) side then Some (snd x) else acc) w None.

(* The hardware: play the table in sequencer [turn] (it becomes active, then
   inactive), then go to the other one. *)
Fixpoint play {T} (n : nat) (d : dbuf T) (turn : bool) : list (option T) :=
  match n with
  | O => []
  | S m => latest turn (db_written d)
           :: play m (db_active (db_active d turn true) turn false) (negb turn)
  end.

Definition infix {A} (s l : list A) : Prop := exists l1 l2, l = l1 ++ s ++ l2.

(* no 4096 consecutive equal durations *)
Definition no_long_run (ds : list Z) : Prop :=
  forall d, ~ infix (repeat d (Z.to_nat 4096)) ds.

(* consecutive points the motion does not join *)
Fixpoint breaks {P} (joined : P -> P -> bool) (ps : list P) : list (P * P) :=
  match ps with
  | p :: r =>
    match r with
    | q :: _ => (if joined p q then [] else [(p, q)]) ++ breaks joined r
    | [] => []
    end
  | [] => []
  end.
