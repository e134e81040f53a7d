(* Model of the PMAC motion profile, /repo/malcolm/modules/pmac/parts/pmacchildpart.py
   and of the axis mapping, /repo/malcolm/modules/pmac/util.py.
   Python floats are exact rationals here: rounding errors are not modelled. *)
From Coq Require Import String Ascii Bool ZArith QArith Qround Lia List.
From Verif Require Import Base.
Import ListNotations.
Local Open Scope list_scope.
Local Open Scope nat_scope.

(* ------------------------------------------------------------------ *)
(* Profile arrays *)

(* pmacchildpart.py 35-39, VelocityModes *)
Definition AVERAGE_PREV_TO_NEXT : Z := 0.
(* pmacchildpart.py 37-42. *)
Definition REAL_PREV_TO_CURRENT : Z := 1.
(* pmacchildpart.py 37-42. *)
Definition AVERAGE_PREV_TO_CURRENT : Z := 2.
(* pmacchildpart.py 37-42. *)
Definition ZERO_VELOCITY : Z := 3.

(* pmacchildpart.py 43-48, UserPrograms *)
Definition NO_PROGRAM : Z := 0.
(* pmacchildpart.py 45-50. *)
Definition LIVE_PROGRAM : Z := 1.
(* pmacchildpart.py 45-50. *)
Definition DEAD_PROGRAM : Z := 2.
(* pmacchildpart.py 45-50. *)
Definition MID_PROGRAM : Z := 4.
(* pmacchildpart.py 45-50. *)
Definition ZERO_PROGRAM : Z := 8.

(* pmacchildpart.py 51-56, PointType *)
Inductive ptype := START_OF_ROW | MID_POINT | POINT_JOIN | END_OF_ROW | TURNAROUND.
(* scanning/infos.py, MotionTrigger: scanning/infos.py 115-121 *)
Inductive trigger := NONE | ROW_GATE | EVERY_POINT.

(* pmacchildpart.py 517-543, user_program and get_user_program *)
Definition user_program (t : trigger) (p : ptype) : Z :=
  match t, p with
  | NONE, _ => NO_PROGRAM
  | ROW_GATE, START_OF_ROW => LIVE_PROGRAM
  | ROW_GATE, END_OF_ROW => ZERO_PROGRAM
  | ROW_GATE, _ => NO_PROGRAM
  | EVERY_POINT, POINT_JOIN => LIVE_PROGRAM
  | EVERY_POINT, START_OF_ROW => LIVE_PROGRAM
  | EVERY_POINT, MID_POINT => MID_PROGRAM
  | EVERY_POINT, END_OF_ROW => DEAD_PROGRAM
  | EVERY_POINT, TURNAROUND => ZERO_PROGRAM
  end.

(* pmacchildpart.py 32, MAX_MOVE_TIME *)
Definition MAX_MOVE_TIME : Q := 4.
(* pmacchildpart.py 29, TICK_S = 0.000001: t / TICK_S *)
Definition TICKS_PER_S : Q := 1000000.

(* pmacchildpart.py 481-515: what one writeProfile sends *)
Record block := mkBlock {
  b_ticks : list Z; b_mode : list Z; b_prog : list Z; b_axes : dict (list Q) }.

(* pmacchildpart.py 70-101: self.profile (timeArray, velocityMode, userPrograms and one
   list per cs axis), completed_steps_lookup, time_since_last_pvt, end_index,
   tail_off_added; pf_sent logs what was written *)
Record prof := mkProf {
  pf_time : list Q; pf_mode : list Z; pf_prog : list Z; pf_axes : dict (list Q);
  pf_lookup : list Z; pf_since : Q; pf_end : nat; pf_tail : bool; pf_sent : list block }.

(* NoStretch: the assertion of 630-632; PIndex: IndexError; PKey: KeyError;
   PAssert: the velocity and soft limit assertions: pmacchildpart.py 625-658, pmac/infos.py 77-129 *)
Inductive perr := NoStretch | PIndex | PKey | PAssert.

(* pmacchildpart.py 366, 405-414: the state on_configure starts from; axes are the
   lower case cs axis names *)
Definition prof_init (cs_axes : list string) : prof :=
  mkProf [] [] [] (map (fun a => (a, [])) cs_axes) [] 0 0 false [].

(* axis_mapping as axis name -> lower case cs axis (638, 657), in dict order: pmacchildpart.py 368-419 *)
Definition mapping := list (string * string).
(* pmacchildpart.py 637-657. *)
Definition cs_of (m : mapping) (k : string) : option string := dget k m.

(* l[-1]; None is IndexError: pmacchildpart.py 625-658 *)
Definition last_of {A} (l : list A) : option A :=
  match rev l with [] => None | x :: _ => Some x end.

(* pmacchildpart.py 639-642: last_point + i * per_section for i in range(1, nsplit) *)
Definition sections (last v : Q) (nsplit : nat) : list Q :=
  map (fun i => (last + inject_Z (Z.of_nat i) * ((v - last) / inject_Z (Z.of_nat nsplit)))%Q)
      (seq 1 (nsplit - 1)).

(* the loops "for k, v in axis_points.items(): cs_axis = self.axis_mapping[k].cs_axis.lower();
   change self.profile[cs_axis]" of pmacchildpart.py 637-642, 656-658 and 1015-1016; g v l is
   the new list *)
Fixpoint over_axes (m : mapping) (g : Q -> list Q -> result perr (list Q))
  (pts : list (string * Q)) (d : dict (list Q)) : result perr (dict (list Q)) :=
  match pts with
  | [] => Ok d
  | (k, v) :: r =>
    match cs_of m k with
    | None => Err PKey
    | Some a =>
      match dget a d with
      | None => Err PKey
      | Some l =>
        match g v l with
        | Err e => Err e
        | Ok l' => over_axes m g r (dset a l' d)
        end
      end
    end
  end.

(* pmacchildpart.py 637-642: when stretching *)
Definition stretch_axes (m : mapping) (n : nat) :=
  over_axes m (fun v l => match last_of l with
                          | None => Err PIndex
                          | Some lp => Ok (l ++ sections lp v n)
                          end).

(* pmacchildpart.py 656-658: the loop that appends the requested point *)
Definition append_axes (m : mapping) := over_axes m (fun v l => Ok (l ++ [v])).

(* pmacchildpart.py 633: int(time_point / MAX_MOVE_TIME + 1), for time_point > 0 *)
Definition nsplit (t : Q) : nat := Z.to_nat (Qfloor (t / MAX_MOVE_TIME + 1)).

(* pmacchildpart.py 652-658 *)
Definition set_point (m : mapping) (st : prof) (mode prog step : Z) (pts : list (string * Q))
  : result perr prof :=
  match append_axes m pts (pf_axes st) with
  | Err e => Err e
  | Ok ax => Ok (mkProf (pf_time st) (pf_mode st ++ [mode]) (pf_prog st ++ [prog]) ax
                        (pf_lookup st ++ [step]) (pf_since st) (pf_end st) (pf_tail st)
                        (pf_sent st))
  end.

(* pmacchildpart.py 625-658, add_profile_point *)
Definition add_profile_point (m : mapping) (st : prof) (t : Q) (mode prog step : Z)
  (pts : list (string * Q)) : result perr prof :=
  if negb (Qle_bool t MAX_MOVE_TIME) then
    match pf_time st with
    | [] => Err NoStretch
    | _ =>
      let n := nsplit t in
      match stretch_axes m n pts (pf_axes st) with
      | Err e => Err e
      | Ok ax =>
        match last_of (pf_lookup st) with
        | None => Err PIndex
        | Some s =>
          set_point m
            (mkProf (pf_time st ++ repeat (t / inject_Z (Z.of_nat n))%Q n)
                    (pf_mode st ++ repeat AVERAGE_PREV_TO_NEXT (n - 1))
                    (pf_prog st ++ repeat NO_PROGRAM (n - 1)) ax
                    (pf_lookup st ++ repeat s (n - 1))
                    (pf_since st) (pf_end st) (pf_tail st) (pf_sent st))
            mode prog step pts
        end
      end
    end
  else
    set_point m (mkProf (pf_time st ++ [t]) (pf_mode st) (pf_prog st) (pf_axes st)
                        (pf_lookup st) (pf_since st) (pf_end st) (pf_tail st) (pf_sent st))
              mode prog step pts.

(* l[-1] = x; None is IndexError: pmacchildpart.py 992-1021 *)
Definition set_last {A} (l : list A) (x : A) : option (list A) :=
  match rev l with [] => None | _ :: r => Some (rev r ++ [x]) end.

(* pmacchildpart.py 1015-1016: the loop over the axes in insert_gap *)
Definition fix_axes (m : mapping) :=
  over_axes m (fun v l => match set_last l v with None => Err PIndex | Some l' => Ok l' end).

(* pmacchildpart.py 1012-1021: the end of insert_gap *)
Definition fix_last (m : mapping) (st : prof) (mode prog : Z) (pts : list (string * Q))
  : result perr prof :=
  match fix_axes m pts (pf_axes st), set_last (pf_mode st) mode, set_last (pf_prog st) prog with
  | Ok ax, Some mo, Some pr =>
    Ok (mkProf (pf_time st) mo pr ax (pf_lookup st) (pf_since st) (pf_end st) (pf_tail st)
               (pf_sent st))
  | Err e, _, _ => Err e
  | _, _, _ => Err PIndex
  end.

(* pmacchildpart.py 497-507: the loop over the times; t >= 0 so int() is floor and
   ticks % 1 is the fractional part *)
Fixpoint ticks_of (overflow : Q) (ts : list Q) : list Z :=
  match ts with
  | [] => []
  | t :: r =>
    let ticks := (t * TICKS_PER_S)%Q in
    let o := (overflow + (ticks - inject_Z (Qfloor ticks)))%Q in
    if negb (Qle_bool o (1 # 2))
    then (Qfloor ticks + 1)%Z :: ticks_of (o - 1) r
    else Qfloor ticks :: ticks_of o r
  end.

(* pmacchildpart.py 481-515, write_profile_points; PP is PROFILE_POINTS *)
Definition write_profile_points (PP : nat) (st : prof) : prof :=
  mkProf (skipn PP (pf_time st)) (skipn PP (pf_mode st)) (skipn PP (pf_prog st))
         (map (fun kl => (fst kl, skipn PP (snd kl))) (pf_axes st))
         (pf_lookup st) (pf_since st) (pf_end st) (pf_tail st)
         (pf_sent st ++ [mkBlock (ticks_of 0 (firstn PP (pf_time st)))
                                 (firstn PP (pf_mode st)) (firstn PP (pf_prog st))
                                 (map (fun kl => (fst kl, firstn PP (snd kl))) (pf_axes st))]).

(* any way of using the three: pmacchildpart.py 481-539, 625-658 *)
Inductive pop :=
| Add (t : Q) (mode prog step : Z) (pts : list (string * Q))
| Fix (mode prog : Z) (pts : list (string * Q))
| Write.
(* pmacchildpart.py 481-539, 625-658. *)
Definition pop_step (PP : nat) (m : mapping) (st : prof) (o : pop) : result perr prof :=
  match o with
  | Add t mode prog step pts => add_profile_point m st t mode prog step pts
  | Fix mode prog pts => fix_last m st mode prog pts
  | Write => Ok (write_profile_points PP st)
  end.
(* pmacchildpart.py 481-539, 625-658. *)
Fixpoint pop_run (PP : nat) (m : mapping) (st : prof) (os : list pop) : result perr prof :=
  match os with
  | [] => Ok st
  | o :: r => match pop_step PP m st o with Err e => Err e | Ok st' => pop_run PP m st' r end
  end.

(* ------------------------------------------------------------------ *)
(* Generating the profile of a scan *)

(* a generator point: duration, and per axis name position, lower and upper bound:
   read in pmacchildpart.py 545-1021 *)
Record ppoint := mkPt {
  pt_dur : Q; pt_pos : string -> Q; pt_low : string -> Q; pt_up : string -> Q }.

(* pmac/infos.py 41-76, MotorInfo: the fields used here *)
Record motor := mkMotor {
  mi_acc : Q; mi_max : Q; mi_high : Q; mi_low : Q; mi_soft : bool }.

(* pmac/util.py 188-219, pmac/infos.py 77-129. *)
Definition qabs (x : Q) : Q := if Qle_bool 0 x then x else (- x)%Q.
(* pmac/util.py 188-219, pmac/infos.py 77-129. *)
Definition qmax (x y : Q) : Q := if Qle_bool x y then y else x.

Section Driver.
  (* axis_mapping: axis name, lower case cs axis, motor *)
  Variable axes : list (string * (string * motor)).
  (* points of the generator and steps_up_to *)
  Variable gen : list ppoint.
  Variable steps_up_to : nat.
  (* util.py 169-185 all_points_joined and 150-166 all_points_same_velocities for a pair
     of neighbours (np.isclose is part of this parameter) *)
  Variables joined same : ppoint -> ppoint -> bool.
  (* what 992-1010 compute for the turnaround: (interval, positions) list; from
     profile_between_points (external velocity_profile package) and
     calculate_profile_from_velocities *)
  Variable gap : ppoint -> ppoint -> list (Q * (string -> Q)).
  (* output_triggers, min_turnaround.interval *)
  Variable trig : trigger.
  Variable interval : Q.
  (* PROFILE_POINTS 2000, BATCH_POINTS 20000: pmacchildpart.py 60, 62 *)
  Variables PP BATCH : nat.

  Definition the_mapping : mapping := map (fun a => (fst a, fst (snd a))) axes.
  (* {name: f[name] for name in self.axis_mapping}: pmacchildpart.py 660-685 *)
  Definition at_axes (f : string -> Q) : list (string * Q) :=
    map (fun a => (fst a, f (fst a))) axes.

  (* pmacchildpart.py 625-658. *)
  Definition add st t mode p step pts :=
    add_profile_point the_mapping st t mode (user_program trig p) (Z.of_nat step) pts.

  (* 660-685, add_generator_point_pair: pmacchildpart.py 660-685 *)
  Definition add_generator_point_pair (st : prof) (p : ppoint) (n : nat) (j : bool)
    : result perr prof :=
    match add st (pt_dur p / 2)%Q AVERAGE_PREV_TO_NEXT MID_POINT n (at_axes (pt_pos p)) with
    | Err e => Err e
    | Ok st =>
      add st (pt_dur p / 2)%Q (if j then AVERAGE_PREV_TO_NEXT else REAL_PREV_TO_CURRENT)
          (if j then POINT_JOIN else END_OF_ROW) (S n) (at_axes (pt_up p))
    end.

  (* 615-623, the loop adding the turnaround: pmacchildpart.py 615-623 *)
  Fixpoint add_turnaround (st : prof) (g : list (Q * (string -> Q))) (n : nat)
    : result perr prof :=
    match g with
    | [] => Ok st
    | (t, f) :: r =>
      match add st t REAL_PREV_TO_CURRENT TURNAROUND n (at_axes f) with
      | Err e => Err e
      | Ok st => add_turnaround st r n
      end
    end.

  (* 992-1021, insert_gap: pmacchildpart.py 992-1021 *)
  Definition insert_gap (st : prof) (p q : ppoint) (n : nat) : result perr prof :=
    match add_turnaround st (gap p q) n with
    | Err e => Err e
    | Ok st => fix_last the_mapping st REAL_PREV_TO_CURRENT (user_program trig START_OF_ROW)
                        (at_axes (pt_low q))
    end.

  (* pmacchildpart.py 687-762. *)
  Definition set_since (st : prof) (q : Q) : prof :=
    mkProf (pf_time st) (pf_mode st) (pf_prog st) (pf_axes st) (pf_lookup st) q (pf_end st)
           (pf_tail st) (pf_sent st).
  (* pmacchildpart.py 793-957. *)
  Definition set_end (st : prof) (n : nat) : prof :=
    mkProf (pf_time st) (pf_mode st) (pf_prog st) (pf_axes st) (pf_lookup st) (pf_since st) n
           (pf_tail st) (pf_sent st).
  (* pmacchildpart.py 987-990. *)
  Definition set_tail (st : prof) : prof :=
    mkProf (pf_time st) (pf_mode st) (pf_prog st) (pf_axes st) (pf_lookup st) (pf_since st)
           (pf_end st) true (pf_sent st).

  (* 687-762, add_sparse_point; returns profile_point_added too.  point_num is the index
     into the batch: pmacchildpart.py 687-762 *)
  Definition add_sparse_point (st : prof) (p : ppoint) (n : nat) (j s : bool)
    : result perr (prof * bool) :=
    let since_pos := negb (Qle_bool (pf_since st) 0) in
    let do_skip := if since_pos && negb j then true else j && s in
    let r1 :=
      if do_skip then Ok (set_since st (pf_since st + pt_dur p)%Q)
      else match add st (pf_since st + pt_dur p / 2)%Q AVERAGE_PREV_TO_NEXT MID_POINT n
                     (at_axes (pt_pos p)) with
           | Err e => Err e
           | Ok st => Ok (set_since st (pt_dur p / 2)%Q)
           end in
    match r1 with
    | Err e => Err e
    | Ok st1 =>
      if negb do_skip || negb j then
        let mode := if j then AVERAGE_PREV_TO_NEXT
                    else if negb (Qle_bool (pf_since st1) 0) then AVERAGE_PREV_TO_CURRENT
                    else REAL_PREV_TO_CURRENT in
        match add st1 (pf_since st1) mode (if j then POINT_JOIN else END_OF_ROW) (S n)
                  (at_axes (pt_up p)) with
        | Err e => Err e
        | Ok st2 => Ok (set_since st2 0, true)
        end
      else Ok (st1, negb do_skip)
    end.

  (* 764-779, get_some_points: the slice of points; joined and velocities are computed from
     neighbours in the slice: pmacchildpart.py 764-779 *)
  Definition get_some_points (start : nat) : option (list ppoint) :=
    if Nat.eqb start steps_up_to then None
    else
      let up_to := if Nat.ltb BATCH (steps_up_to - start) then BATCH + start + 1
                   else steps_up_to in
      Some (firstn (up_to - start) (skipn start gen)).

  (* 781-786, check_profile_length_exceeds_profile_points: pmacchildpart.py 781-786 *)
  Definition exceeds (st : prof) : bool := Nat.ltb PP (length (pf_time st)).

  (* 816-829, the for loop of create_generator_profile_every_point; returns the state, the
     point index and whether it returned early: pmacchildpart.py 816-829 *)
  Fixpoint every_loop (points : list ppoint) (point_index : nat) (st : prof)
    : result perr (prof * nat * bool) :=
    match points with
    | p :: rest =>
      match rest with
      | q :: _ =>
        let j := joined p q in
        match add_generator_point_pair st p point_index j with
        | Err e => Err e
        | Ok st1 =>
          match (if j then Ok st1 else insert_gap st1 p q (S point_index)) with
          | Err e => Err e
          | Ok st2 =>
            if exceeds st2 then Ok (set_end st2 (S point_index), point_index, true)
            else every_loop rest (S point_index) st2
          end
        end
      | [] => Ok (st, point_index, false)
      end
    | [] => Ok (st, point_index, false)
    end.

  (* 793-854, create_generator_profile_every_point from line 799; fuel bounds the rounds:
     pmacchildpart.py 793-854 *)
  Fixpoint every_batches (fuel start_batch point_index : nat) (st : prof)
    : result perr (prof * bool) :=
    match fuel with
    | O => Err PIndex
    | S f =>
      match get_some_points start_batch with
      | None => Ok (st, true)
      | Some points =>
        match every_loop points point_index st with
        | Err e => Err e
        | Ok (st1, pi, true) => Ok (st1, false)
        | Ok (st1, pi, false) =>
          if Nat.eqb (start_batch + length points) steps_up_to then
            match last_of points with
            | None => Err PIndex
            | Some p =>
              match add_generator_point_pair st1 p pi false with
              | Err e => Err e
              | Ok st2 =>
                if exceeds st2 then Ok (set_end st2 (S pi), false)
                else if Nat.eqb (S pi) steps_up_to then Ok (st2, true)
                else every_batches f (S pi) (S pi) st2
              end
            end
          else if Nat.eqb pi steps_up_to then Ok (st1, true)
          else every_batches f pi pi st1
        end
      end
    end.

  (* 878-890, the for loop of create_generator_profile_sparse; i is the index in the batch:
     pmacchildpart.py 878-890 *)
  Fixpoint sparse_loop (points : list ppoint) (i point_index : nat) (st : prof)
    : result perr (prof * nat * bool) :=
    match points with
    | p :: rest =>
      match rest with
      | q :: _ =>
        let j := joined p q in
        match add_sparse_point st p i j (same p q) with
        | Err e => Err e
        | Ok (st1, added) =>
          match (if j then Ok st1 else insert_gap st1 p q (S point_index)) with
          | Err e => Err e
          | Ok st2 =>
            if added && exceeds st2 then Ok (set_end st2 (S point_index), point_index, true)
            else sparse_loop rest (S i) (S point_index) st2
          end
        end
      | [] => Ok (st, point_index, false)
      end
    | [] => Ok (st, point_index, false)
    end.

  (* 856-918, create_generator_profile_sparse from line 862: pmacchildpart.py 856-918 *)
  Fixpoint sparse_batches (fuel start_batch point_index : nat) (st : prof)
    : result perr (prof * bool) :=
    match fuel with
    | O => Err PIndex
    | S f =>
      match get_some_points start_batch with
      | None => Ok (st, true)
      | Some points =>
        match sparse_loop points 0 point_index st with
        | Err e => Err e
        | Ok (st1, pi, true) => Ok (st1, false)
        | Ok (st1, pi, false) =>
          if Nat.eqb (start_batch + length points) steps_up_to then
            match last_of points with
            | None => Err PIndex
            | Some p =>
              match add_sparse_point st1 p (length points - 1) false false with
              | Err e => Err e
              | Ok (st2, added) =>
                if added && exceeds st2 then Ok (set_end st2 (S pi), false)
                else if Nat.eqb (S pi) steps_up_to then Ok (st2, true)
                else sparse_batches f (S pi) (S pi) st2
              end
            end
          else if Nat.eqb pi steps_up_to then Ok (st1, true)
          else sparse_batches f pi pi st1
        end
      end
    end.

  (* util.py 188-219, point_velocities for one axis; the assertion on the maximum velocity
     is kept *)
  Definition point_velocity (a : string * (string * motor)) (p : ppoint) (entry : bool)
    : result perr Q :=
    let n := fst a in
    let vp := ((pt_up p n - pt_low p n) / pt_dur p)%Q in
    let d_half := if entry then (pt_pos p n - pt_low p n)%Q else (pt_up p n - pt_pos p n)%Q in
    let v := (4 * d_half / pt_dur p - vp)%Q in
    let mx := mi_max (snd (snd a)) in
    if Qle_bool (1 # 1000000) ((qabs v - mx) / mx) then Err PAssert else Ok v.

  (* infos.py 77-80, acceleration_time(0, v) *)
  Definition accel_time (mo : motor) (v : Q) : Q := (qabs v / mi_acc mo)%Q.
  (* infos.py 82-89, ramp_distance(v, 0) *)
  Definition ramp_to_zero (mo : motor) (v : Q) : Q := (v * accel_time mo v / 2)%Q.
  (* infos.py 124-129, check_position_within_soft_limits *)
  Definition within_limits (mo : motor) (x : Q) : bool :=
    if mi_soft mo then Qle_bool x (mi_high mo) && Qle_bool (mi_low mo) x else true.

  (* 923-935, the run up time; the velocities are computed for all axes first: pmacchildpart.py 923-935 *)
  Fixpoint run_up_time (l : list (string * (string * motor))) (p : ppoint) (t : Q)
    : result perr Q :=
    match l with
    | [] => Ok t
    | a :: r => match point_velocity a p true with
                | Err e => Err e
                | Ok v => run_up_time r p (qmax t (accel_time (snd (snd a)) v))
                end
    end.

  (* 959-981, the tail off time and positions (all velocities are computed before the loop
     in the code, so which of two errors comes first can differ): pmacchildpart.py 959-981 *)
  Fixpoint tail_off (l : list (string * (string * motor))) (p : ppoint) (t : Q)
    : result perr (Q * list (string * Q)) :=
    match l with
    | [] => Ok (t, [])
    | a :: r =>
      match point_velocity a p false with
      | Err e => Err e
      | Ok v =>
        let pos := (pt_up p (fst a) + ramp_to_zero (snd (snd a)) v)%Q in
        if within_limits (snd (snd a)) pos then
          match tail_off r p (qmax t (accel_time (snd (snd a)) v)) with
          | Err e => Err e
          | Ok (t', pts) => Ok (t', (fst a, pos) :: pts)
          end
        else Err PAssert
      end
    end.

  (* 959-990, add_tail_off: pmacchildpart.py 959-990 *)
  Definition add_tail_off (st : prof) : result perr prof :=
    match nth_error gen (steps_up_to - 1) with
    | None => Err PIndex
    | Some p =>
      match tail_off axes p interval with
      | Err e => Err e
      | Ok (t, pts) =>
        match add st t ZERO_VELOCITY TURNAROUND steps_up_to pts with
        | Err e => Err e
        | Ok st => Ok (set_tail (set_end st steps_up_to))
        end
      end
    end.

  (* 920-945: the run up: pmacchildpart.py 920-945 *)
  Definition run_up (st : prof) (start : nat) : result perr prof :=
    match nth_error gen start with
    | None => Err PIndex
    | Some p =>
      match run_up_time axes p interval with
      | Err e => Err e
      | Ok t => add st t REAL_PREV_TO_CURRENT START_OF_ROW start (at_axes (pt_low p))
      end
    end.

  (* pmacchildpart.py 446, 947-957. *)
  Definition is_every : bool := match trig with EVERY_POINT => true | _ => false end.

  (* 947-957: pmacchildpart.py 947-957 *)
  Definition calculate_more (st : prof) (start : nat) : result perr prof :=
    let st := set_since st 0 in
    match (if is_every then every_batches (S (steps_up_to - start)) start start st
           else sparse_batches (S (steps_up_to - start)) start start st) with
    | Err e => Err e
    | Ok (st, needs_tail_off) =>
      if needs_tail_off && negb (pf_tail st) then add_tail_off st else Ok st
    end.

  (* 920-957, calculate_generator_profile: pmacchildpart.py 920-957 *)
  Definition calculate_generator_profile (st : prof) (start : nat) (do_run_up : bool)
    : result perr prof :=
    match (if do_run_up then run_up st start else Ok st) with
    | Err e => Err e
    | Ok st => calculate_more st start
    end.

  (* 403-419, the end of on_configure: pmacchildpart.py 403-419 *)
  Definition on_configure (completed_steps : nat) : result perr prof :=
    match calculate_generator_profile (prof_init (map (fun a => fst (snd a)) axes))
            completed_steps true with
    | Err e => Err e
    | Ok st => Ok (write_profile_points PP st)
    end.

  (* 440-479, update_step, the loading part; scanned > 0: pmacchildpart.py 440-479 *)
  Definition update_step (st : prof) (scanned : nat) : result perr prof :=
    let more st := match calculate_generator_profile st (pf_end st) false with
                   | Err e => Err e
                   | Ok st => Ok (write_profile_points PP st)
                   end in
    let r1 := if Nat.ltb (pf_end st) steps_up_to
                 && Nat.ltb (length (pf_lookup st) - scanned) PP
              then more st else Ok st in
    match r1 with
    | Err e => Err e
    | Ok st1 =>
      if Nat.eqb (pf_end st1) steps_up_to && negb (Nat.eqb (length (pf_time st1)) 0)
      then match more st1 with
           | Err e => Err e
           | Ok st2 => if is_every && negb (Nat.eqb (length (pf_time st2)) 0)
                       then Err PAssert else Ok st2
           end
      else Ok st1
    end.

  (* 448-451: the step reported for a number of profile points done; EVERY_POINT only:
     pmacchildpart.py 445-448 *)
  Definition reported_step (st : prof) (scanned : nat) : option Z :=
    nth_error (pf_lookup st) (scanned - 1).
End Driver.

(* ------------------------------------------------------------------ *)
(* Axis mapping.  util.py *)

(* util.py 19, CS_AXIS_NAMES *)
Definition CS_AXIS_NAMES : list string :=
  ["A"; "B"; "C"; "U"; "V"; "W"; "X"; "Y"; "Z"]%string.

(* str.split(",", 1) unpacked in two; None is the ValueError without a comma: pmac/util.py 53-109 *)
Fixpoint split_comma (s : string) : option (string * string) :=
  match s with
  | EmptyString => None
  | String c r => if Ascii.eqb c ","%char then Some (EmptyString, r)
                  else match split_comma r with
                       | Some (a, b) => Some (String c a, b)
                       | None => None
                       end
  end.

(* AssertMapping: 75; Missing: 98; ManyPorts: 103; Overlap: 110; Unpack: 72: pmac/util.py 53-109 *)
Inductive merr := NotOneToOne | Missing | ManyPorts | Overlap | Unpack.

(* util.py 71-74: cs_port, cs_axis of a child *)
Definition cs_parts (cs : string) : result merr (string * string) :=
  match cs with
  | EmptyString => Ok (EmptyString, EmptyString)
  | _ => match split_comma cs with Some x => Ok x | None => Err Unpack end
  end.

(* util.py 61-96: the loop; the layout is the list of (name, cs value of the block with
   that mri); cs_ports as a list; only cs_axis and cs_port of the MotorInfo.  The float
   computations of 66-69 (ZeroDivisionError for accelerationTime 0) are not modelled *)
Fixpoint map_rows (axes : list string) (rows : list (string * string))
  (ports : list string) (m : dict (string * string))
  : result merr (list string * dict (string * string)) :=
  match rows with
  | [] => Ok (ports, m)
  | (name, cs) :: r =>
    if smem name axes then
      match cs_parts cs with
      | Err e => Err e
      | Ok (port, ax) =>
        if smem ax CS_AXIS_NAMES then
          map_rows axes r (if smem port ports then ports else ports ++ [port])
                   (dset name (port, ax) m)
        else Err NotOneToOne
      end
    else map_rows axes r ports m
  end.

(* Counter(..)[x] > 1 for some x, util.py 107-109 *)
Fixpoint has_dup (l : list string) : bool :=
  match l with [] => false | x :: r => smem x r || has_dup r end.

(* util.py 53-111, cs_axis_mapping: axis -> (cs_port, cs_axis) *)
Definition cs_axis_mapping (rows : list (string * string)) (axes : list string)
  : result merr (dict (string * string)) :=
  match map_rows axes rows [] [] with
  | Err e => Err e
  | Ok (ports, m) =>
    if negb (forallb (fun a => dmem a m) axes) then Err Missing
    else if Nat.ltb 1 (length ports) then Err ManyPorts
    else if has_dup (map (fun kv => snd (snd kv)) m) then Err Overlap
    else Ok m
  end.

(* pmacchildpart.py 60, 62 *)
Definition PROFILE_POINTS : nat := Z.to_nat 2000.
(* pmacchildpart.py 64. *)
Definition BATCH_POINTS : nat := Z.to_nat 20000.

(* the calls of update_step that the subscription of on_run (423-430) makes, one for each
   value of pointsScanned: pmacchildpart.py 423-479 *)
Fixpoint updates axes gen up_to joined same gap trig interval PP BATCH (st : prof)
  (scans : list nat) : result perr prof :=
  match scans with
  | [] => Ok st
  | s :: r => match update_step axes gen up_to joined same gap trig interval PP BATCH st s with
              | Err e => Err e
              | Ok st' => updates axes gen up_to joined same gap trig interval PP BATCH st' r
              end
  end.
