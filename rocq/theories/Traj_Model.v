(* Writing a trajectory to a PMAC.  /repo/malcolm/modules/pmac/parts/pmactrajectorypart.py. *)
From Coq Require Import String Bool ZArith QArith List.
From Verif Require Import Base.
From Verif Require Pmac_Model.
Import ListNotations.
Local Open Scope string_scope.
Local Open Scope list_scope.
Local Open Scope nat_scope.

(* The arguments of write_profile: pmactrajectorypart.py 95-111; w_axes are the axes a to z, those that
   are given, by their letter in capitals. *)
Record args := mkArgs { w_time : list Z; w_port : option string; w_vel : option (list Z); w_prog : option (list Z);
                        w_axes : dict (list Q) }.

(* A part of a profile that the PMAC driver has taken over: the arrays as they were when buildProfile or
   appendProfile was called, for the axes in use: pmactrajectorypart.py 153-166. *)
Record segment := mkSeg { g_points : nat; g_time : list Z; g_vel : list Z; g_prog : list Z; g_pos : dict (list Q) }.

(* The child block: the attributes that are read or put, and the profile in the driver: buildProfile
   starts a new one, appendProfile adds to it (assumed of the driver): pmactrajectorypart.py 112-166. *)
Record child := mkChild { k_version : Z; k_choices : list string; k_num : Z; k_cs : string; k_use : dict bool;
                          k_time : list Z; k_points : nat; k_vel : list Z; k_prog : list Z; k_pos : dict (list Q);
                          k_profile : list segment }.

(* pmactrajectorypart.py: IncompatibleError (122-127), ValueError (142-145), AssertionError (45-47), an error of the driver. *)
Inductive terr := Incompatible | NoSuchPort | WrongLength | Driver.

(* TRAJECTORY_PROGRAM_NUM, FALLBACK_TRAJ_PROGRAM_NUM, MAX_NUM_POINTS: pmactrajectorypart.py 19-23. *)
Definition PROGRAM : Z := 3.
(* See above: pmactrajectorypart.py 20. *)
Definition FALLBACK : Z := 2.
(* See above: pmactrajectorypart.py 23. *)
Definition MAX_NUM_POINTS : Z := 4000000.

(* _zeros_or_right_length: pmactrajectorypart.py 41-48. *)
Definition zeros_or_right_length (a : option (list Z)) (n : nat) : option (list Z) :=
  match a with
  | None => Some (repeat 0%Z n)
  | Some l => if Nat.eqb (length l) n then Some l else None
  end.

(* use_axes: pmactrajectorypart.py 129-133. *)
Definition use_axes (a : args) : list string := filter (fun x => dmem x (w_axes a)) Pmac_Model.CS_AXIS_NAMES.

(* The build branch: pmactrajectorypart.py 134-151: the child block after it; false is the ValueError. *)
Definition start_build (k : child) (a : args) (port : string) : child * bool :=
  let k1 := mkChild (k_version k) (k_choices k) MAX_NUM_POINTS (k_cs k) (k_use k) (k_time k) (k_points k) (k_vel k) (k_prog k)
                    (k_pos k) (k_profile k) in
  if smem port (k_choices k)
  then (mkChild (k_version k) (k_choices k) MAX_NUM_POINTS port
                (map (fun x => (x, smem x (use_axes a))) Pmac_Model.CS_AXIS_NAMES)
                (k_time k) (k_points k) (k_vel k) (k_prog k) (k_pos k) (k_profile k), true)
  else (k1, false).

(* The arrays: pmactrajectorypart.py 153-163. *)
Definition fill (k : child) (a : args) (vel prog : list Z) : child :=
  mkChild (k_version k) (k_choices k) (k_num k) (k_cs k) (k_use k) (w_time a) (length (w_time a)) vel prog
          (fold_left (fun d x => match dget x (w_axes a) with Some l => dset x l d | None => d end) (use_axes a) (k_pos k))
          (k_profile k).

(* What the driver takes over: the arrays, for the axes in use (assumed of the driver):
   pmactrajectorypart.py 153-166. *)
Definition taken (k : child) : segment :=
  mkSeg (k_points k) (k_time k) (k_vel k) (k_prog k)
        (flat_map (fun x => match dget x (k_use k), dget x (k_pos k) with
                            | Some true, Some l => [(x, l)]
                            | _, _ => []
                            end) Pmac_Model.CS_AXIS_NAMES).
(* buildProfile and appendProfile (assumed of the driver): pmactrajectorypart.py 136, 151, 166. *)
Definition set_profile (k : child) (p : list segment) : child :=
  mkChild (k_version k) (k_choices k) (k_num k) (k_cs k) (k_use k) (k_time k) (k_points k) (k_vel k) (k_prog k) (k_pos k) p.

(* write_profile: pmactrajectorypart.py 94-168: total_points and the child block after it.  [ok]: the
   driver does what it is asked for.  That another put fails is not modelled. *)
Definition write_profile (total : nat) (k : child) (a : args) (ok : bool) : nat * child * result terr unit :=
  if negb (k_version k =? PROGRAM)%Z && negb (FALLBACK <=? k_version k)%Z then (total, k, Err Incompatible)
  else
    let '(total1, k1, started) :=
      match w_port a with
      | Some port => let '(k1, s) := start_build k a port in (0, k1, s)
      | None => (total, k, true)
      end in
    if negb started then (total1, k1, Err NoSuchPort)
    else
      let n := length (w_time a) in
      match zeros_or_right_length (w_vel a) n, zeros_or_right_length (w_prog a) n with
      | Some vel, Some prog =>
        let k2 := fill k1 a vel prog in
        if ok then
          (total1 + n,
           set_profile k2 (match w_port a with Some _ => [taken k2] | None => k_profile k2 ++ [taken k2] end),
           Ok tt)
        else (total1, k2, Err Driver)
      | _, _ => (total1, k1, Err WrongLength)
      end.

(* Calls one after the other: total_points and the child block, as long as each succeeds:
   pmactrajectorypart.py 94-168. *)
Fixpoint writes (total : nat) (k : child) (l : list args) : option (nat * child) :=
  match l with
  | [] => Some (total, k)
  | a :: r => match write_profile total k a true with
              | (t, k', Ok _) => writes t k' r
              | _ => None
              end
  end.

(* execute_profile: pmactrajectorypart.py 173-191: whether it returns, when the driver has stopped with
   pointsScanned at this value; otherwise it times out. *)
Definition execute_returns (total scanned : nat) : bool := Nat.eqb scanned total.
