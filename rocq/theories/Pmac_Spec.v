(* Specification of PMAC profiles (C29, C30, C42, C43) and of the axis mapping (C31). *)
From Coq Require Import String Ascii Bool ZArith QArith Qabs Qround Lia List.
From Verif Require Import Base Pmac_Model.
Import ListNotations.
Local Open Scope list_scope.
Local Open Scope nat_scope.

(* ------------------------------------------------------------------ *)
(* A trajectory as one list of entries *)

(* one trajectory entry: time to get there, flags, step completed on arrival, and where each
   axis is on arrival *)
Record entry := mkEntry {
  e_time : Q; e_mode : Z; e_prog : Z; e_step : Z; e_pos : string -> Q }.

(* the i-th of n equal moves from x to y ends here *)
Definition between (x y : Q) (i n : nat) : Q :=
  (x + inject_Z (Z.of_nat i) * ((y - x) / inject_Z (Z.of_nat n)))%Q.

(* moves longer than 4 seconds are cut in floor(t/4)+1 equal pieces *)
Definition pieces (t : Q) : nat := S (Z.to_nat (Qfloor (t / 4))).

Definition cut (prev e : entry) : list entry :=
  let n := pieces (e_time e) in
  map (fun i => mkEntry (e_time e / inject_Z (Z.of_nat n)) 0 0 (e_step prev)
                        (fun a => between (e_pos prev a) (e_pos e a) i n))
      (seq 1 (n - 1))
  ++ [mkEntry (e_time e / inject_Z (Z.of_nat n)) (e_mode e) (e_prog e) (e_step e) (e_pos e)].

Definition last_entry (E : list entry) : option entry := last_of E.

(* adding one move to a trajectory: the first one can't be cut *)
Definition extend (E : list entry) (e : entry) : option (list entry) :=
  if Qle_bool (e_time e) 4 then Some (E ++ [e])
  else match last_entry E with
       | None => None
       | Some p => Some (E ++ cut p e)
       end.

(* changing flags and position of the last entry *)
Definition amend (E : list entry) (mode prog : Z) (f : string -> Q) : option (list entry) :=
  match rev E with
  | [] => None
  | e :: r => Some (rev r ++ [mkEntry (e_time e) mode prog (e_step e) f])
  end.

(* a request to change the trajectory *)
Inductive sop := SAdd (e : entry) | SFix (mode prog : Z) (f : string -> Q) | SWrite.
Definition sop_step (E : list entry) (o : sop) : option (list entry) :=
  match o with
  | SAdd e => extend E e
  | SFix mode prog f => amend E mode prog f
  | SWrite => Some E
  end.
Fixpoint sop_run (E : list entry) (os : list sop) : option (list entry) :=
  match os with
  | [] => Some E
  | o :: r => match sop_step E o with None => None | Some E' => sop_run E' r end
  end.

(* the same request as made by the code *)
Definition points_at (m : mapping) (f : string -> Q) : list (string * Q) :=
  map (fun na => (fst na, f (fst na))) m.
Definition request (m : mapping) (o : sop) : pop :=
  match o with
  | SAdd e => Add (e_time e) (e_mode e) (e_prog e) (e_step e) (points_at m (e_pos e))
  | SFix mode prog f => Fix mode prog (points_at m f)
  | SWrite => Write
  end.

(* the columns of a list of entries *)
Definition axis_columns (m : mapping) (E : list entry) : dict (list Q) :=
  map (fun na => (snd na, map (fun e => e_pos e (fst na)) E)) m.

Definition block_of (m : mapping) (b : block) (C : list entry) : Prop :=
  b_ticks b = ticks_of 0 (map e_time C) /\ b_mode b = map e_mode C /\
  b_prog b = map e_prog C /\ b_axes b = axis_columns m C.

(* the state holds trajectory E: what was sent, block by block, followed by what is kept *)
Definition holds (PP : nat) (m : mapping) (st : prof) (E : list entry) : Prop :=
  exists chunks cur,
    E = concat chunks ++ cur /\
    Forall2 (block_of m) (pf_sent st) chunks /\
    Forall (fun C => length C <= PP) chunks /\
    pf_time st = map e_time cur /\ pf_mode st = map e_mode cur /\
    pf_prog st = map e_prog cur /\ pf_axes st = axis_columns m cur /\
    pf_lookup st = map e_step E.

(* sum of a list of times *)
Definition qsum (l : list Q) : Q := fold_right Qplus 0%Q l.

(* times asked for by a list of requests *)
Definition asked (os : list sop) : list Q :=
  flat_map (fun o => match o with SAdd e => [e_time e] | _ => [] end) os.
Definition steps_asked (os : list sop) : list Z :=
  flat_map (fun o => match o with SAdd e => [e_step e] | _ => [] end) os.

Fixpoint nondecreasing (l : list Z) : Prop :=
  match l with
  | x :: r => match r with y :: _ => (x <= y)%Z | [] => True end /\ nondecreasing r
  | [] => True
  end.

(* every array of the profile and of each block has one entry per trajectory entry *)
Definition aligned (m : mapping) (st : prof) : Prop :=
  length (pf_mode st) = length (pf_time st) /\
  length (pf_prog st) = length (pf_time st) /\
  map fst (pf_axes st) = map snd m /\
  (forall a l, In (a, l) (pf_axes st) -> length l = length (pf_time st)).
Definition block_aligned (PP : nat) (m : mapping) (b : block) : Prop :=
  length (b_ticks b) <= PP /\
  length (b_mode b) = length (b_ticks b) /\
  length (b_prog b) = length (b_ticks b) /\
  map fst (b_axes b) = map snd m /\
  (forall a l, In (a, l) (b_axes b) -> length l = length (b_ticks b)).

(* ------------------------------------------------------------------ *)
(* The trajectory of a scan that triggers at every point (C42) *)
Section Ideal.
  Variable axes : list (string * (string * motor)).
  Variable gen : list ppoint.
  Variable up_to start : nat.
  Variable joined : ppoint -> ppoint -> bool.
  Variable gap : ppoint -> ppoint -> list (Q * (string -> Q)).

  (* centre then upper bound of the point; 4 is the mid program, 1 live, 2 dead *)
  Definition ideal_pair (p : ppoint) (i : nat) (j : bool) : list sop :=
    [SAdd (mkEntry (pt_dur p / 2) 0 4 (Z.of_nat i) (pt_pos p));
     SAdd (mkEntry (pt_dur p / 2) (if j then 0 else 1) (if j then 1 else 2)
                   (Z.of_nat (S i)) (pt_up p))].
  (* the turnaround to the lower bound of the next point, ending in a live frame *)
  Definition ideal_gap (p q : ppoint) (i : nat) : list sop :=
    map (fun tf => SAdd (mkEntry (fst tf) 1 8 (Z.of_nat (S i)) (snd tf))) (gap p q)
    ++ [SFix 1 1 (pt_low q)].
  Definition ideal_point (i : nat) : list sop :=
    match nth_error gen i with
    | None => []
    | Some p =>
      if Nat.ltb (S i) up_to then
        match nth_error gen (S i) with
        | None => []
        | Some q => ideal_pair p i (joined p q) ++
                    (if joined p q then [] else ideal_gap p q i)
        end
      else ideal_pair p i false
    end.
  (* run up, then the points start .. k-1 *)
  Definition ideal_upto (run_up : entry) (k : nat) : list sop :=
    SAdd run_up :: flat_map ideal_point (seq start (k - start)).
  Definition ideal (run_up tail : entry) : list sop :=
    ideal_upto run_up up_to ++ [SAdd tail].
End Ideal.

(* velocity on entering and leaving a point: the parabola through lower, centre and upper *)
Definition entry_velocity (n : string) (p : ppoint) : Q :=
  (4 * (pt_pos p n - pt_low p n) / pt_dur p - (pt_up p n - pt_low p n) / pt_dur p)%Q.
Definition exit_velocity (n : string) (p : ppoint) : Q :=
  (4 * (pt_up p n - pt_pos p n) / pt_dur p - (pt_up p n - pt_low p n) / pt_dur p)%Q.

(* enough time for every axis to change between 0 and v, and at least the interval; and it is
   one of those *)
Definition longest (times : list Q) (t : Q) : Prop :=
  Exists (fun x => (t == x)%Q) times /\ Forall (fun x => (x <= t)%Q) times.

(* the run up: every axis at the lower bound of the first point, reached live, with time to
   get up to speed *)
Definition run_up_of (axes : list (string * (string * motor))) (interval : Q)
  (p : ppoint) (start : nat) (e : entry) : Prop :=
  e_mode e = 1%Z /\ e_prog e = 1%Z /\ e_step e = Z.of_nat start /\ e_pos e = pt_low p /\
  longest (interval :: map (fun a => Qabs (entry_velocity (fst a) p) / mi_acc (snd (snd a)))%Q
                           axes) (e_time e).

(* the tail off: every axis brought to rest from its exit velocity v in time |v|/acc, so over
   v|v|/(2 acc), inside the soft limits *)
Definition in_soft_limits (mo : motor) (x : Q) : Prop :=
  mi_soft mo = true -> (mi_low mo <= x <= mi_high mo)%Q.
Definition tail_off_of (axes : list (string * (string * motor))) (interval : Q)
  (p : ppoint) (up_to : nat) (e : entry) : Prop :=
  e_mode e = 3%Z /\ e_prog e = 8%Z /\ e_step e = Z.of_nat up_to /\
  (forall n c mo, In (n, (c, mo)) axes ->
     let v := exit_velocity n p in
     (e_pos e n == pt_up p n + v * (Qabs v / mi_acc mo) / 2)%Q /\
     in_soft_limits mo (e_pos e n)) /\
  longest (interval :: map (fun a => Qabs (exit_velocity (fst a) p) / mi_acc (snd (snd a)))%Q
                           axes) (e_time e).

(* number of trajectory entries of a list of requests *)
Definition entries_of (os : list sop) : nat :=
  fold_right (fun o s => match o with
                         | SAdd e => if Qle_bool (e_time e) 4 then 1 else pieces (e_time e)
                         | _ => 0
                         end + s) 0 os.

(* ------------------------------------------------------------------ *)
(* Axis mapping (C31): every requested axis is in the layout in one and the same coordinate
   system "port", as "port,letter", each on a letter of its own *)
Fixpoint no_comma (s : string) : Prop :=
  match s with EmptyString => True | String c r => c <> ","%char /\ no_comma r end.
Definition one_cs (rows : list (string * string)) (axes : list string)
  (port : string) (letter : string -> string) : Prop :=
  no_comma port /\
  (forall a, In a axes ->
     In (a, String.append port (String.append "," (letter a))) rows /\
     In (letter a) ["A"; "B"; "C"; "U"; "V"; "W"; "X"; "Y"; "Z"]%string) /\
  (forall a b, In a axes -> In b axes -> letter a = letter b -> a = b).

(* velocity beyond the maximum of the motor by one part in a million or more *)
Definition too_fast (mo : motor) (v : Q) : Prop :=
  (1 # 1000000 <= (Qabs v - mi_max mo) / mi_max mo)%Q.

(* user programs that signal something (0 does nothing, 8 clears), in order *)
Definition signals (E : list entry) : list Z :=
  filter (fun z => negb (Z.eqb z 0) && negb (Z.eqb z 8)) (map e_prog E).

(* the signals a scan should give: live and mid for every point, dead at the end of a row *)
Definition wanted_signals (gen : list ppoint) (up_to start : nat)
  (joined : ppoint -> ppoint -> bool) : list Z :=
  flat_map (fun i =>
    match nth_error gen i, nth_error gen (S i) with
    | Some p, Some q => if Nat.ltb (S i) up_to && joined p q then [1; 4]%Z else [1; 4; 2]%Z
    | _, _ => [1; 4; 2]%Z
    end) (seq start (up_to - start)).
