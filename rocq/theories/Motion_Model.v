(* How the motion of a scan is worked out: the duration of a point, the move to the start, the
   turnarounds between rows, and what the PandA is told of them.
   /repo/malcolm/modules/pmac/parts/pmacchildpart.py, /repo/malcolm/modules/pmac/util.py,
   /repo/malcolm/modules/pmac/infos.py and
   /repo/malcolm/modules/ADPandABlocks/parts/pandaseqtriggerpart.py.
   Python floats are exact rationals here: rounding errors are not modelled. *)
From Coq Require Import String Ascii Bool ZArith QArith Qround List.
From Verif Require Import Base Pmac_Model.
Import ListNotations.
Local Open Scope list_scope.
Local Open Scope Q_scope.

(* pmac/util.py 22: MIN_TIME. *)
Definition MIN_TIME : Q := 2 # 1000.
(* pmac/util.py 24: MIN_INTERVAL. *)
Definition MIN_INTERVAL : Q := 2 # 1000.
(* pmacchildpart.py 30: TICK_S. *)
Definition TICK_S : Q := 1 # 1000000.

(* np.isclose(a, b) with the default rtol 1e-5 and atol 1e-8 (pmacchildpart.py 200, 593;
   util.py 283). *)
Definition isclose (a b : Q) : bool := Qle_bool (qabs (a - b)) ((1 # 100000000) + (1 # 100000) * qabs b).
(* np.isclose(a, 0.0, atol=1e-12): util.py 271. *)
Definition is_tiny (a : Q) : bool := Qle_bool (qabs a) (1 # 1000000000000).

(* ------------------------------------------------------------------ *)
(* The duration of a point *)

(* get_aligned_duration_with_servo_frequency: pmacchildpart.py 194-209. *)
Definition get_aligned (frequency duration : Q) : Q :=
  let ticks := inject_Z (Qceiling (frequency * (1 # 2) * duration)) in
  let ticks := if isclose frequency 3200 then ticks else ticks - (2 # 1000) in
  let micros := Qfloor (ticks / frequency * 1000000) in
  2 * inject_Z micros / 1000000.

(* calculate_duration_from_first_two_points: pmacchildpart.py 269-293. *)
Definition duration_from_first_two (axes : list (string * (string * motor))) (p q : ppoint) : Q :=
  let d := fold_left (fun d a => let m := (pt_pos q (fst a) - pt_pos p (fst a)) / mi_max (snd (snd a)) in
                                 if Qle_bool m d then d else m) axes 0 in
  if Qeq_bool d 0 then TICK_S else d.

(* get_min_turnaround: util.py 333-349: time and interval; [infos] are the gap and interval of the
   MinTurnaroundInfos. *)
Definition get_min_turnaround (infos : list (Q * Q)) : result unit (Q * Q) :=
  match infos with
  | [] => Ok (MIN_TIME, MIN_INTERVAL)
  | [(gap, interval)] => Ok (qmax MIN_TIME gap, interval)
  | _ => Err tt
  end.

(* calculate_generator_duration: pmacchildpart.py 223-267.  [mapping]: the result of cs_axis_mapping
   (None: it raised AssertionError); [fly]: the first two points if the generator is continuous and
   has more than one. *)
Definition generator_duration (moves : bool) (mapping : option (list (string * (string * motor))))
    (fly : option (ppoint * ppoint)) (infos : list (Q * Q)) : result unit (option Q) :=
  if moves then
    match mapping with
    | None => Ok None
    | Some axes =>
        match fly with
        | Some (p, q) => Ok (Some (duration_from_first_two axes p q))
        | None => match get_min_turnaround infos with Ok (t, _) => Ok (Some t) | Err e => Err e end
        end
    end
  else Ok (Some TICK_S).

(* on_validate: pmacchildpart.py 136-192: the new duration, if it is tweaked; Err is an assertion.
   [superset]: all motion axes are on the motor list (145-152). *)
Definition on_validate (superset : bool) (trig : trigger) (frequency : Q) (moves : bool)
    (guess : result unit (option Q)) (duration : Q) : result unit (option Q) :=
  if negb superset then Err tt else
  if negb (Qle_bool 0 duration) then Err tt else
  let taking_part := moves || match trig with NONE => false | _ => true end in
  let align d := match trig with EVERY_POINT => get_aligned frequency d | _ => d end in
  let tweak d := if Qeq_bool (align d) duration then Ok None else Ok (Some (align d)) in
  if Qeq_bool duration 0 then
    if taking_part then
      match guess with
      | Err e => Err e
      | Ok None => Ok None
      | Ok (Some d) => if Qeq_bool d 0 then Ok None else tweak d
      end
    else Ok None
  else tweak duration.

(* ------------------------------------------------------------------ *)
(* The move to the start *)

(* MotorInfo.acceleration_time: pmac/infos.py 77-80. *)
Definition acceleration_time (mo : motor) (v1 v2 : Q) : Q := qabs (v2 - v1) / mi_acc mo.
(* MotorInfo.ramp_distance: pmac/infos.py 82-89. *)
Definition ramp_distance (mo : motor) (v1 v2 : Q) (ramp_time min_ramp_time : option Q) : Q :=
  let t := match ramp_time with Some t => t | None => acceleration_time mo v1 v2 end in
  let t := match min_ramp_time with Some m => qmax t m | None => t end in
  (v1 + v2) * t / 2.

(* move_to_start: pmacchildpart.py 295-327: where each axis is sent.  The time of the move, which is
   from the external velocity_profile, and the number of the coordinate system are not modelled; all
   velocities are computed before the loop in the code, so which of two errors comes first can
   differ. *)
Fixpoint move_to_start (axes : list (string * (string * motor))) (p : ppoint) : result perr (list (string * Q)) :=
  match axes with
  | [] => Ok []
  | a :: r =>
      match point_velocity a p true with
      | Err e => Err e
      | Ok v =>
          let pos := pt_low p (fst a) - ramp_distance (snd (snd a)) 0 v None (Some MIN_TIME) in
          if within_limits (snd (snd a)) pos then
            match move_to_start r p with
            | Err e => Err e
            | Ok l => Ok ((fst (snd a), pos) :: l)
            end
          else Err PAssert
      end
  end.

(* ------------------------------------------------------------------ *)
(* The turnaround *)

(* What is used of a VelocityProfile (external package velocity_profile) after get_profile: t_total,
   check_quantize(), make_arrays() and make_arrays() after quantize(), as nodes of time and
   velocity: read in pmac/util.py 222-298. *)
Record vprof := mkVp { vp_total : Q; vp_quantize : bool; vp_arrays : list (Q * Q); vp_quantized : list (Q * Q) }.

(* TVelocity: the assertion of point_velocities; TValue: ValueError of util.py 298, or the assertion of pandaseqtriggerpart.py 101-103; TIndex: IndexError. *)
Inductive terr := TVelocity | TValue | TIndex.

(* An axis of axis_mapping: name, cs axis, motor: pmac/util.py 76-95. *)
Definition axis := (string * (string * motor))%type.

Section Turn.
  (* MotorInfo.make_velocity_profile: pmac/infos.py 91-117: axis, v1, v2, distance, min_time,
     min_interval. *)
  Variable make_velocity_profile : axis -> Q -> Q -> Q -> Q -> Q -> vprof.

  (* point_velocities: util.py 188-219, in the order of the axes. *)
  Fixpoint point_velocities (axes : list axis) (p : ppoint) (entry : bool) : result terr (list (axis * Q)) :=
    match axes with
    | [] => Ok []
    | a :: r => match point_velocity a p entry with
                | Err _ => Err TVelocity
                | Ok v => match point_velocities r p entry with Ok l => Ok ((a, v) :: l) | Err e => Err e end
                end
    end.

  (* The distance of an axis: util.py 269-272. *)
  Definition gap_distance (p q : ppoint) (n : string) : Q :=
    let d := pt_low q n - pt_up p n in if is_tiny d then 0 else d.

  (* util.py 268-282, the for loop. *)
  Definition profiles (starts ends : list (axis * Q)) (p q : ppoint) (min_time min_interval : Q) : list (axis * vprof) :=
    map (fun se => let a := fst (fst se) in
                   (a, make_velocity_profile a (snd (fst se)) (snd (snd se)) (gap_distance p q (fst a)) min_time min_interval))
        (combine starts ends).

  (* util.py 258-298, the while loop; [new] is new_min_time. *)
  Fixpoint rounds (iterations : nat) (starts ends : list (axis * Q)) (p q : ppoint) (new min_time min_interval : Q)
    : result terr (list (axis * list (Q * Q))) :=
    match iterations with
    | O => Err TValue
    | S n =>
        let ps := profiles starts ends p q min_time min_interval in
        let new := fold_left (fun t ap => qmax t (vp_total (snd ap))) ps new in
        if isclose new min_time then
          let quantize := existsb (fun ap => vp_quantize (snd ap)) ps in
          Ok (map (fun ap => (fst ap, if quantize then vp_quantized (snd ap) else vp_arrays (snd ap))) ps)
        else rounds n starts ends p q new new min_interval
    end.

  (* profile_between_points: util.py 222-298. *)
  Definition profile_between_points (axes : list axis) (p q : ppoint) (min_time min_interval : Q)
    : result terr (list (axis * list (Q * Q))) :=
    match point_velocities axes p true with
    | Err e => Err e
    | Ok starts =>
        match point_velocities axes q false with
        | Err e => Err e
        | Ok ends => rounds 2 starts ends p q 0 min_time min_interval
        end
    end.

  (* np.unique and np.sort: pmacchildpart.py 558-561. *)
  Fixpoint uniq_insert (t : Q) (l : list Q) : list Q :=
    match l with
    | [] => [t]
    | x :: r => if Qeq_bool t x then l else if Qle_bool t x then t :: l else x :: uniq_insert t r
    end.
  (* The times of all axes without the first: pmacchildpart.py 554-561. *)
  Definition combined_times (arrays : list (axis * list (Q * Q))) : list Q :=
    tl (fold_right uniq_insert [] (flat_map (fun aa => map fst (snd aa)) arrays)).
  (* pmacchildpart.py 565-570. *)
  Fixpoint time_intervals (prev : Q) (ts : list Q) : list Q :=
    match ts with [] => [] | t :: r => (t - prev) :: time_intervals t r end.

  (* pmacchildpart.py 587-613, the loop over the intervals for one axis; [nodes] are the nodes of the
     axis from axis_pt - 1 on; [since] is time_interval; the positions. *)
  Fixpoint axis_positions (nodes : list (Q * Q)) (since prev_velocity position : Q) (cts : list (Q * Q))
    : result terr (list Q) :=
    match cts with
    | [] => Ok []
    | (c, interval) :: r =>
        match nodes with
        | (t0, v0) :: ((t1, v1) :: _) as rest =>
            let close := isclose c t1 in
            let since' := if close then 0 else since + interval in
            let v := if close then v1 else v0 + since' / (t1 - t0) * (v1 - v0) in
            let position' := position + (prev_velocity + v) * interval / 2 in
            match axis_positions (if close then tl nodes else nodes) since' v position' r with
            | Err e => Err e
            | Ok l => Ok (position' :: l)
            end
        | _ => Err TIndex
        end
    end.

  (* pmacchildpart.py 576-613, the loop over the axes; IndexError also without a first velocity. *)
  Fixpoint all_positions (arrays : list (axis * list (Q * Q))) (start : string -> Q) (cts : list (Q * Q))
    : result terr (list (axis * list Q)) :=
    match arrays with
    | [] => Ok []
    | (a, nodes) :: r =>
        match nodes with
        | [] => Err TIndex
        | (_, v0) :: _ =>
            match axis_positions nodes 0 v0 (start (fst a)) cts with
            | Err e => Err e
            | Ok l => match all_positions r start cts with Ok m => Ok ((a, l) :: m) | Err e => Err e end
            end
        end
    end.

  (* calculate_profile_from_velocities: pmacchildpart.py 545-623, up to adding the points: the
     intervals and the positions of each axis. *)
  Definition calculate_profile (arrays : list (axis * list (Q * Q))) (start : string -> Q)
    : result terr (list Q * list (axis * list Q)) :=
    let ts := combined_times arrays in
    let is := time_intervals 0 ts in
    match all_positions arrays start (combine ts is) with
    | Ok m => Ok (is, m)
    | Err e => Err e
    end.

  (* profile[cs_axis][-1] = x: pmacchildpart.py 1014-1015; without any point of the gap the code writes
     over the point before instead. *)
  Definition set_last (x : Q) (l : list Q) : list Q :=
    match l with [] => [] | _ => removelast l ++ [x] end.

  (* insert_gap: pmacchildpart.py 992-1015, with the delay_after of the point left and
     min_turnaround. *)
  Definition turnaround (axes : list axis) (p q : ppoint) (delay_after time interval : Q)
    : result terr (list Q * list (axis * list Q)) :=
    match profile_between_points axes p q (qmax time delay_after) interval with
    | Err e => Err e
    | Ok arrays =>
        match calculate_profile arrays (pt_up p) with
        | Err e => Err e
        | Ok (is, m) => Ok (is, map (fun al => (fst al, set_last (pt_low q (fst (fst al))) (snd al))) m)
        end
    end.

  (* ------------------------------------------------------------------ *)
  (* What the PandA is told *)

  (* pandaseqtriggerpart.py 92-104: the loop backwards over the velocities; the index is at the head of
     the time left. *)
  Fixpoint last_wrong (increasing : bool) (resolution : Q) (nodes : list (Q * Q)) : option (Q * list (Q * Q)) :=
    match nodes with
    | [] => None
    | (t, v) :: r =>
        match last_wrong increasing resolution r with
        | Some x => Some x
        | None => let v := v / resolution in
                  if (increasing && Qle_bool v 0) || (negb increasing && Qle_bool 0 v) then Some (t, r) else None
        end
    end.
  (* pandaseqtriggerpart.py 88-106: the blind time from the arrays of the axis. *)
  Definition blind_time (increasing : bool) (resolution : Q) (nodes : list (Q * Q)) : result terr Q :=
    match last_wrong increasing resolution nodes with
    | Some (t, []) => Err TValue
    | Some (t, _) => Ok t
    | None => match nodes with (t, _) :: _ => Ok t | [] => Err TIndex end
    end.
  (* _how_long_moving_wrong_way: pandaseqtriggerpart.py 74-106; [delay_after] is that of the point
     that is gone to. *)
  Definition how_long_moving_wrong_way (axes : list axis) (name : string) (resolution : Q) (last p : ppoint)
      (delay_after time interval : Q) (increasing : bool) : result terr Q :=
    match profile_between_points axes last p (qmax time delay_after) interval with
    | Err e => Err e
    | Ok arrays =>
        match find (fun aa => String.eqb (fst (fst aa)) name) arrays with
        | None => Err TIndex
        | Some (_, nodes) => blind_time increasing resolution nodes
        end
    end.
End Turn.

(* round() of Python: to the nearest, halves to even: pandaseqtriggerpart.py 148, 158, 174. *)
Definition py_round (x : Q) : Z :=
  let f := Qfloor x in
  let d := x - inject_Z f in
  if negb (Qle_bool (1 # 2) d) then f
  else if Qeq_bool d (1 # 2) then (if Z.even f then f else f + 1)%Z
  else (f + 1)%Z.

(* MotorInfo.in_cts: pmac/infos.py 119-122; resolution and offset. *)
Definition in_cts (ro : Q * Q) (position : Q) : Z := py_round ((position - snd ro) / fst ro).

(* _what_moves_most: pandaseqtriggerpart.py 47-72; the axes with resolution and offset; None is the
   assertion.  max takes the first of equals. *)
Definition what_moves_most (axes : list (string * (Q * Q))) (p : ppoint) : option (string * Z * bool) :=
  let diffs := flat_map (fun a =>
      let compare_cts := in_cts (snd a) (pt_low p (fst a)) in
      let diff := (in_cts (snd a) (pt_pos p (fst a)) - compare_cts)%Z in
      if (diff =? 0)%Z then [] else [(fst a, compare_cts, diff)]) axes in
  match diffs with
  | [] => None
  | d :: r =>
      let best := fold_left (fun b x => if (Z.abs (snd b) <? Z.abs (snd x))%Z then x else b) r d in
      Some (fst (fst best), snd (fst best), (0 <? snd best)%Z)
  end.

(* What setup_pcomp_dicts fills in: the axes of axis_mapping with resolution and offset, and the input
   named in trigger_enums for each (both directions have the same input). *)
(* pandaseqtriggerpart.py 401-404. *)
Record pcomp := mkPc { pc_axes : dict (Q * Q); pc_inputs : dict string }.

(* A row of the positions table of the PandA (pandaseqtriggerpart.py 385-400): name, datasetName, scale, offset. *)
Record posrow := mkRow { pr_name : string; pr_dataset : string; pr_scale : Q; pr_offset : Q }.

(* seq_pos of setup_pcomp_dicts: pandaseqtriggerpart.py 373-381.  [seqa], [seqb]: the values of posa, posb and posc;
   [wanted] below: the scannables of axis_mapping. *)
Definition seq_pos (inputs : string * string * string) : dict string :=
  match inputs with (a, b, c) => dset c "POSC"%string (dset b "POSB"%string (dset a "POSA"%string [])) end.
(* One row of the loop: pandaseqtriggerpart.py 386-404. *)
Definition pcomp_row (pos : dict string) (wanted : list string) (s : pcomp) (row : posrow) : pcomp :=
  match dget (pr_name row) pos with
  | None => s
  | Some input =>
      if smem (pr_dataset row) wanted
      then mkPc (dset (pr_dataset row) (pr_scale row, pr_offset row) (pc_axes s))
                (dset (pr_dataset row) input (pc_inputs s))
      else s
  end.
(* setup_pcomp_dicts: pandaseqtriggerpart.py 368-410. *)
Definition setup_pcomp (seqa seqb : string * string * string) (wanted : list string) (rows : list posrow)
  : result unit pcomp :=
  match seqa, seqb with
  | (a, b, c), (a', b', c') =>
      if String.eqb a a' && String.eqb b b' && String.eqb c c' then
        let s := fold_left (pcomp_row (seq_pos seqa) wanted) rows (mkPc [] []) in
        match pc_axes s with [] => Err tt | _ => Ok s end
      else Err tt
  end.
