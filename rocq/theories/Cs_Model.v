(* Which coordinate system of a PMAC a scan uses, and what is called on the PMAC for it: pmac/util.py 18, 27-50,
   301-312, pmac/parts/pmacchildpart.py 211-221, 295-299, 329-437. *)
From Coq Require Import String Ascii Bool ZArith QArith List.
From Verif Require Import Base Ports_Model Pmac_Model Motion_Model.
From Verif Require Bus_Model.
Import ListNotations.
Local Open Scope string_scope.
Local Open Scope list_scope.
Local Open Scope nat_scope.

(* get_motion_axes: util.py 42-50.  A generator: whether it is a StaticPointGenerator, and its axes. *)
Definition motion_axes (gens : list (bool * list string)) (axes_to_move : list string) : list string :=
  let static := flat_map (fun g : bool * list string => if fst g then snd g else []) gens in
  filter (fun a => negb (smem a static)) axes_to_move.

(* The errors: two MotionTriggerInfos (util.py 308), two MinTurnaroundInfos (333-347), those of the mapping (53-109), a
   block of the layout without the field that is read (AttributeError, 33, 65), no CS found (39), no number at the end
   of the port (pmacchildpart.py 298), those of the positions (300-320) and of the profile (418), and no point of that
   number (IndexError of the generator). *)
Inductive cerr := CTrig | CTurn | CMap (e : merr) | CField | CNoPort | CNumber | CMotion (e : perr) | CIndex.

(* cs_port_with_motors_in: util.py 27-39.  A row: the name, and the value of cs of its block, if it has that field. *)
Fixpoint cs_port_with_motors (rows : list (string * option string)) : result cerr string :=
  match rows with
  | [] => Err CNoPort
  | (_, None) :: _ => Err CField
  | (_, Some EmptyString) :: r => cs_port_with_motors r
  | (_, Some cs) :: r =>
      match split_comma cs with
      | None => Err (CMap Unpack)
      | Some (port, ax) => if smem ax CS_AXIS_NAMES then Ok port else cs_port_with_motors r
      end
  end.

(* get_motion_trigger: util.py 301-312. *)
Definition get_motion_trigger (infos : list trigger) : result cerr trigger :=
  match infos with [] => Ok EVERY_POINT | [t] => Ok t | _ => Err CTrig end.
(* taking_part_in_scan: pmacchildpart.py 211-221. *)
Definition taking_part (trig : trigger) (axes : list string) : bool :=
  match axes with [] => match trig with NONE => false | _ => true end | _ => true end.

(* get_cs_port: pmacchildpart.py 329-354: the port, and the axis mapping.  A block of the layout that is asked for but
   is no motor raises AttributeError in cs_axis_mapping (util.py 62-69); which of two errors comes first can differ. *)
Definition get_cs_port (rows : list (string * option string)) (axes : list string)
  : result cerr (string * dict (string * string)) :=
  match axes with
  | [] => match cs_port_with_motors rows with Ok p => Ok (p, []) | Err e => Err e end
  | _ =>
      if existsb (fun r => smem (fst r) axes && match snd r with None => true | _ => false end) rows then Err CField
      else
        match cs_axis_mapping (flat_map (fun r => match snd r with Some c => [(fst r, c)] | None => [] end) rows) axes with
        | Err e => Err (CMap e)
        | Ok (((_, (port, _)) :: _) as m) => Ok (port, m)
        | Ok [] => Err CIndex
        end
  end.

(* What is called on the PMAC: writeProfile of one point with the zero program (393-397), executeProfile, a method that
   moves axes (325), writeProfile of a trajectory for so many steps (418-419), abortProfile: pmacchildpart.py. *)
Inductive call := CZero (port : string) | CExec | CMove (method : string) (args : list (string * Q))
  | CBuild (port : string) (axes : list string) (done todo : nat) | CAbort.

(* What on_configure is given, and what it reads of the child: pmacchildpart.py 359-367, util.py 27-39, 53-109. *)
Record request := mkReq { q_done : nat; q_todo : nat; q_trigs : list trigger; q_turns : list (Q * Q);
                          q_gens : list (bool * list string); q_move : list string;
                          q_rows : list (string * option string) }.

(* The part: whether it has a generator, and whether its last hook failed: pmacchildpart.py 101, 376-379. *)
Record part := mkPart { has_gen : bool; failed : bool }.

Section Cs.
  (* The motors by the name of their axis (util.py 65-96), and as in Pmac_Model: pmacchildpart.py 70-101. *)
  Variable motors : string -> motor.
  Variable gen : list ppoint.
  Variables joined same : ppoint -> ppoint -> bool.
  Variable gap : ppoint -> ppoint -> list (Q * (string -> Q)).
  Variables PP BATCH : nat.

  (* The axes of the mapping: name, lower case letter, motor: pmacchildpart.py 416-417. *)
  Definition axes_of (m : dict (string * string)) : list (string * (string * motor)) :=
    map (fun x => (fst x, (Bus_Model.lower (snd (snd x)), motors (fst x)))) m.

  (* move_to_start: pmacchildpart.py 295-327; the time of the move is left out. *)
  Definition to_start (port : string) (axes : list (string * (string * motor))) (done : nat) : result cerr call :=
    match called_method port with
    | None => Err CNumber
    | Some m => match nth_error gen done with
                | None => Err CIndex
                | Some p => match move_to_start axes p with Ok l => Ok (CMove m l) | Err e => Err (CMotion e) end
                end
    end.

  (* on_configure from where it takes part: pmacchildpart.py 381-421; what was called, and an error.  The arrays of the
     trajectory are C42; its axes are those that the profile has from 416-417 on. *)
  Definition take_part (q : request) (trig : trigger) (axes : list string) : list call * option cerr :=
    match get_min_turnaround (q_turns q) with
    | Err _ => ([], Some CTurn)
    | Ok (_, interval) =>
        match get_cs_port (q_rows q) axes with
        | Err e => ([], Some e)
        | Ok (port, m) =>
            let head := [CZero port; CExec] in
            let moved := match axes with [] => Ok [] | _ => match to_start port (axes_of m) (q_done q) with
                                                          | Ok c => Ok [c] | Err e => Err e end end in
            match moved with
            | Err e => (head, Some e)
            | Ok mv =>
                match on_configure (axes_of m) gen (q_done q + q_todo q) joined same gap trig interval PP BATCH (q_done q) with
                | Err e => (head ++ mv, Some (CMotion e))
                | Ok _ => (head ++ mv ++ [CBuild port (map (fun a => fst (snd a)) (axes_of m)) (q_done q) (q_todo q)], None)
                end
            end
        end
    end.

  (* The hooks: on_configure 356-421, on_run 422-430, on_abort 432-437 (also on_reset 131-134): pmacchildpart.py. *)
  Inductive hook := HConfigure (q : request) | HRun | HAbort.
  (* One hook, and what it calls.  A run is started only if no hook has failed (runnablecontroller.py 519-541); what
     the updates of a run append (C42) is left out: pmacchildpart.py 356-437. *)
  Definition hstep (s : part) (h : hook) : part * list call :=
    match h with
    | HConfigure q =>
        match get_motion_trigger (q_trigs q) with
        | Err _ => (mkPart (has_gen s) true, [])
        | Ok trig =>
            let axes := motion_axes (q_gens q) (q_move q) in
            if taking_part trig axes then
              let (calls, e) := take_part q trig axes in
              (mkPart true (match e with Some _ => true | None => false end), calls)
            else (mkPart false false, [])
        end
    | HRun => (s, if has_gen s && negb (failed s) then [CExec] else [])
    | HAbort => (s, if has_gen s then [CAbort] else [])
    end.
  (* A history of hooks: pmacchildpart.py 356-437. *)
  Fixpoint hrun (s : part) (l : list hook) : part * list call :=
    match l with
    | [] => (s, [])
    | h :: r => let (s1, c1) := hstep s h in let (s2, c2) := hrun s1 r in (s2, c1 ++ c2)
    end.
End Cs.
(* A part that was just made: pmacchildpart.py 101. *)
Definition new_part : part := mkPart false false.
