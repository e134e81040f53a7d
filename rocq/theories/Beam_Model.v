(* The beam selector, that goes to and fro between two detectors.
   /repo/malcolm/modules/pmac/parts/beamselectorpart.py, pmac/util.py 333-382.
   Floats are rationals. *)
From Coq Require Import String Bool QArith Qminmax List.
From Verif Require Import Base.
Import ListNotations.
Local Open Scope nat_scope.

(* The part, as __init__ leaves it: beamselectorpart.py 45-74; move_time is more than zero (59-60). *)
Record part := mkPart { b_imaging : Q; b_diffraction : Q; b_imaging_det : string; b_diffraction_det : string; b_move : Q }.
(* A row of the detector table: beamselectorpart.py 105. *)
Record drow := mkDet { d_enable : bool; d_name : string; d_mri : string; d_exposure : Q; d_frames : nat }.

(* __init__: beamselectorpart.py 45-74; that the names are strings is not modelled. *)
Definition init (imaging diffraction : Q) (idet ddet : string) (move : Q) : option part :=
  if Qle_bool move 0 then None else Some (mkPart imaging diffraction idet ddet move).

(* The errors: beamselectorpart.py 82-95, 116-119, pmac/util.py 339, beamselectorpart.py 149-151, 211-213. *)
Inductive berr := Frames | NotEnabled | Exposure | NoDiffraction | NoImaging | ManyTurnarounds | NotStatic | Duration.

(* _check_detector_parameters: beamselectorpart.py 79-95. *)
Definition check_detector (r : drow) : option berr :=
  if negb (Nat.eqb (d_frames r) 1) then Some Frames
  else if negb (d_enable r) then Some NotEnabled
  else if Qle_bool (d_exposure r) 0 then Some Exposure
  else None.

(* The loop of _get_detector_exposure_times: beamselectorpart.py 105-115; the exposures that were
   found so far, diffraction first. *)
Fixpoint find_exposures (p : part) (rows : list drow) (acc : option Q * option Q) : result berr (option Q * option Q) :=
  match rows with
  | [] => Ok acc
  | r :: rest =>
    let next := if String.eqb (d_name r) (b_diffraction_det p) then
                  match check_detector r with Some e => Err e | None => Ok (Some (d_exposure r), snd acc) end
                else if String.eqb (d_name r) (b_imaging_det p) then
                  match check_detector r with Some e => Err e | None => Ok (fst acc, Some (d_exposure r)) end
                else Ok acc in
    match next with
    | Err e => Err e
    | Ok (Some d, Some i) => Ok (Some d, Some i)
    | Ok acc' => find_exposures p rest acc'
    end
  end.
(* _get_detector_exposure_times: beamselectorpart.py 97-121. *)
Definition exposure_times (p : part) (rows : list drow) : result berr (Q * Q) :=
  match find_exposures p rows (None, None) with
  | Err e => Err e
  | Ok (None, _) => Err NoDiffraction
  | Ok (_, None) => Err NoImaging
  | Ok (Some d, Some i) => Ok (d, i)
  end.

(* MIN_TIME: pmac/util.py 22. *)
Definition MIN_TIME : Q := 2 # 1000.
(* max (Python semantics), used in beamselectorpart.py 134-137 and pmac/util.py 340. *)
Definition qmax (a b : Q) : Q := if Qle_bool b a then a else b.
(* get_min_turnaround: pmac/util.py 333-347, the time; [gaps] are those of the infos. *)
Definition min_turnaround (gaps : list Q) : result berr Q :=
  match gaps with
  | [] => Ok MIN_TIME
  | [g] => Ok (qmax MIN_TIME g)
  | _ => Err ManyTurnarounds
  end.

(* _get_time_at_positions: beamselectorpart.py 123-139; diffraction first. *)
Definition times_at (p : part) (gaps : list Q) (rows : list drow) : result berr (Q * Q) :=
  match exposure_times p rows with
  | Err e => Err e
  | Ok (d, i) => match min_turnaround gaps with
                 | Err e => Err e
                 | Ok t => Ok (qmax t d, qmax t i)
                 end
  end.
(* _calculate_cycle_duration: beamselectorpart.py 141-146. *)
Definition cycle_duration (p : part) (td ti : Q) : Q := (td + ti + 2 * b_move p)%Q.

(* The generator that is asked for: its first generator, if it is static with its size, and the
   duration; more is not read (beamselectorpart.py 161, 173, 198-199, 212, 221). *)
Record gen := mkGen { g_static : option nat; g_duration : Q }.

(* on_validate: beamselectorpart.py 153-184: the new duration, if any. *)
Definition on_validate (p : part) (g : gen) (gaps : list Q) (rows : list drow) : result berr (option Q) :=
  match g_static g with
  | None => Err NotStatic
  | Some _ => match times_at p gaps rows with
              | Err e => Err e
              | Ok (td, ti) => let c := cycle_duration p td ti in
                               Ok (if Qeq_bool (g_duration g) c then None else Some c)
              end
  end.

(* A point of the generator that the PMAC gets: from lower to upper in the duration, then the
   delay (beamselectorpart.py 215-247, pmac/util.py 364-383). *)
Record point := mkPoint { p_lower : Q; p_upper : Q; p_duration : Q; p_delay : Q }.
(* The points of the generator of beamselectorpart.py 220-247.  A LineGenerator of scanpointgenerator with one point
   goes from its start to its stop, and back every second time with alternate; mutate is
   pmac/util.py 359-383. *)
Definition get_point (p : part) (td ti : Q) (j : nat) : point :=
  if Nat.even j then mkPoint (b_imaging p) (b_diffraction p) (b_move p) td
  else mkPoint (b_diffraction p) (b_imaging p) (b_move p) ti.

(* What PmacChildPart.on_configure is called with: beamselectorpart.py 249-251. *)
Record call := mkCall { c_completed : nat; c_todo : nat; c_size : nat; c_point : nat -> point }.

(* on_configure: beamselectorpart.py 186-251. *)
Definition on_configure (p : part) (completed todo : nat) (gaps : list Q) (g : gen) (rows : list drow) : result berr call :=
  match g_static g with
  | None => Err NotStatic
  | Some size =>
    match times_at p gaps rows with
    | Err e => Err e
    | Ok (td, ti) =>
      if Qeq_bool (g_duration g) (cycle_duration p td ti)
      then Ok (mkCall completed (todo * 2) (size * 2) (get_point p td ti))
      else Err Duration
    end
  end.

(* The points that the PMAC goes through: from completed_steps, up to completed_steps + steps_to_do,
   pmacchildpart.py 406-419 (C42). *)
Definition driven (c : call) : list point := map (c_point c) (seq (c_completed c) (c_todo c)).
(* The steps that it reports when it is through with them: pmacchildpart.py 440-448. *)
Definition reported (c : call) : list nat := map S (seq (c_completed c) (c_todo c)).
(* add_tail_off: beamselectorpart.py 253-265: the last point and the one that the tail goes to. *)
Definition tail (c : call) : point * point :=
  let up_to := c_completed c + c_todo c in (c_point c (up_to - 1), c_point c (up_to - 2)).
