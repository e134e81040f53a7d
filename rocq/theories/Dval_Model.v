(* The detectors table in the validation of a scan: scanning/parts/detectorchildpart.py 139-306,
   in the loop of scanning/controllers/runnablecontroller.py 354-416. *)
From Coq Require Import String Bool ZArith QArith Qround List Permutation.
From Verif Require Import Base Expo_Model.
Import ListNotations.
Local Open Scope string_scope.
Local Open Scope list_scope.

(* A row of the detectors table: DetectorTable, scanning/util.py 146-161; floats are rationals. *)
Record drow := mkRow { r_enable : bool; r_name : string; r_mri : string; r_expo : Q; r_frames : Z }.

(* A CompoundGenerator (external library): the axes and the number of points of each generator,
   the axes of each SquashingExcluder, the duration of a point: read in detectorchildpart.py 139-302. *)
Record cgen := mkGen { g_gens : list (list string * Z); g_squash : list (list string); g_dur : Q }.

(* What makes on_validate fail: the asserts and BadValueErrors of detectorchildpart.py 151-214,
   268, the ZeroDivisionError of 207 and the KeyError of 206. *)
Inductive derr := WrongMri | Faulty | NoExposure | NoMultiplier | ChildRefused (e : string) | DivZero | NoKey.

(* The child block: whether its validate takes exposure and frames_per_step
   (detectorchildpart.py 167-168), and its validate.  It is given the generator, axesToMove, the
   exposure and the frames if they are passed.  It gives a new generator if it tweaked it (a
   generator compares equal only to itself, 222-224), and the exposure if it takes one.  The
   other parameters it returns are taken to be those it was given. *)
Record child := mkChild {
  c_expo : bool;
  c_frames : bool;
  c_validate : cgen -> list string -> option Q -> option Z -> result string (option cgen * option Q)
}.

(* A DetectorChildPart: name, mri, self.faulty (127-137), the child, and whether another part
   has said that it multiplies triggers for this mri (179-184): detectorchildpart.py 53-81. *)
Record dpart := mkPart { p_name : string; p_mri : string; p_faulty : bool; p_multi : bool; p_child : child }.

(* The generator with its last dimension multiplied out: detectorchildpart.py 274-288.  The
   fastest generator is the last one; a generator without any raises IndexError in Python. *)
Definition multiplied (axis : string) (frames : Z) (g : cgen) : cgen :=
  mkGen (g_gens g ++ [([axis], frames)])
        (g_squash g ++ [fst (last (g_gens g) ([], 0%Z)) ++ [axis]])
        (g_dur g / inject_Z frames).

(* The arguments for the child, _configure_args: detectorchildpart.py 255-304: frames, the
   generator, axesToMove, the exposure if it is in kwargs.  None: not taking part. *)
Fixpoint configure_args (p : dpart) (g : cgen) (axes : list string) (t : list drow) :
    result derr (option (Z * cgen * list string * option Q)) :=
  match t with
  | [] => Ok None
  | r :: rest =>
      if String.eqb (r_name r) (p_name p) && r_enable r then
        if String.eqb (r_mri r) (p_mri p) then
          let axis := (r_name r ++ "_frames_per_step")%string in
          let many := (1 <? r_frames r)%Z in
          Ok (Some (r_frames r,
                    if many then multiplied axis (r_frames r) g else g,
                    if many then axes ++ [axis] else axes,
                    if qlt 0 (r_expo r) then Some (r_expo r) else None))
        else Err WrongMri
      else configure_args p g axes rest
  end.

(* do_validate: detectorchildpart.py 170-177. *)
Definition do_validate (c : child) (g : cgen) (axes : list string) (e : option Q) (f : option Z) :
    result derr (option cgen * option Q) :=
  match c_validate c g axes (if c_expo c then e else None) f with
  | Ok r => Ok r
  | Err m => Err (ChildRefused m)
  end.

(* What the hooks say is to be changed: ParameterTweakInfo, scanning/infos.py: scanning/infos.py 29-40. *)
Inductive tweak := TGen (g : cgen) | TDet (t : list drow).

(* The new table: detectorchildpart.py 236-251. *)
Definition new_table (p : dpart) (r : drow) (t : list drow) : list drow :=
  let t' := map (fun x => if String.eqb (r_name x) (p_name p) then r else x) t in
  if existsb (fun x => String.eqb (r_name x) (p_name p)) t then t' else t' ++ [r].

(* The frames of a step, where the table has none: detectorchildpart.py 197-208.  [dg]: the
   duration of the generator that was validated. *)
Definition settle_frames (p : dpart) (dg : Q) (g : cgen) (axes : list string) (e : option Q) (f : Z) :
    result derr Z :=
  if (f <? 1)%Z then
    match e with
    | None => Ok 1%Z
    | Some x =>
        match do_validate (p_child p) g axes None None with
        | Err m => Err m
        | Ok (_, None) => Err NoKey
        | Ok (_, Some re) => match guess_frames dg x re with Some n => Ok n | None => Err DivZero end
        end
    end
  else Ok f.

(* on_validate: detectorchildpart.py 139-253. *)
Definition on_validate (p : dpart) (g : cgen) (axes : list string) (t : list drow) : result derr (list tweak) :=
  let missing := negb (existsb (fun x => String.eqb (r_name x) (p_name p)) t) in
  match configure_args p g axes t with
  | Err m => Err m
  | Ok None =>
      Ok (if missing then [TDet (new_table p (mkRow false (p_name p) (p_mri p) 0 0) t)] else [])
  | Ok (Some (f, cg, caxes, e)) =>
      if p_faulty p then Err Faulty
      else if match e with Some _ => true | None => false end && negb (p_multi p) && negb (c_expo (p_child p))
      then Err NoExposure
      else match settle_frames p (g_dur g) cg caxes e f with
           | Err m => Err m
           | Ok n =>
               if (1 <? n)%Z && negb (p_multi p) then Err NoMultiplier
               else match do_validate (p_child p) cg caxes e (if c_frames (p_child p) then Some n else None) with
                    | Err m => Err m
                    | Ok (rg, re) =>
                        let asked := match e with Some x => x | None => 0 end in
                        let differs := match re with Some x => negb (Qeq_bool asked x) | None => false end in
                        let e' := match re with Some x => if differs then x else asked | None => asked end in
                        Ok ((match rg with Some x => [TGen x] | None => [] end)
                            ++ (if differs || (f <? 1)%Z || missing
                                then [TDet (new_table p (mkRow true (p_name p) (p_mri p) e' n) t)] else []))
                    end
           end
  end.

(* The parameters that the parts may change (runnablecontroller.py 365). *)
Record dparams := mkParams { d_gen : cgen; d_table : list drow }.

(* The generators in the tweaks of a round: runnablecontroller.py 386-391. *)
Definition gen_tweaks (ts : list tweak) : list cgen :=
  flat_map (fun t => match t with TGen g => [g] | TDet _ => [] end) ts.

(* resolve_generator_tweaks: scanning/util.py 213-227. *)
Definition resolve (g : cgen) (gs : list cgen) : cgen :=
  match gs with
  | [] => g
  | _ => mkGen (g_gens g) (g_squash g)
           (fold_left (fun m x => if qlt m (g_dur x) then g_dur x else m) (g :: gs) 0)
  end.

(* The tweaks of a round applied: runnablecontroller.py 385-408.  Those of the table one after
   the other, so that the last one stays. *)
Definition apply_tweaks (ts : list tweak) (d : dparams) : dparams :=
  match gen_tweaks ts with
  | g :: gs => mkParams (resolve g gs) (d_table d)
  | [] => fold_left (fun d t => match t with TDet x => mkParams (d_gen d) x | TGen _ => d end) ts d
  end.

(* How validate ends: runnablecontroller.py 384-416. *)
Inductive dout := Settled (d : dparams) | NotConsistent | Refused (e : derr).

(* The hooks of all parts: runnablecontroller.py 376-384; the tweaks come in the order in which
   the parts answered, which is any (core/hook.py 122-163). *)
Fixpoint hooks (ps : list dpart) (axes : list string) (d : dparams) : result derr (list tweak) :=
  match ps with
  | [] => Ok []
  | p :: rest => match on_validate p (d_gen d) axes (d_table d), hooks rest axes d with
                 | Ok a, Ok b => Ok (a ++ b)
                 | Err m, _ => Err m
                 | _, Err m => Err m
                 end
  end.

(* The loop, with the iterations left: runnablecontroller.py 362, 372-416. *)
Inductive validates (ps : list dpart) (axes : list string) : nat -> dparams -> dout -> Prop :=
| V_none d : validates ps axes 0 d NotConsistent
| V_fail n d m : hooks ps axes d = Err m -> validates ps axes (S n) d (Refused m)
| V_done n d : hooks ps axes d = Ok [] -> validates ps axes (S n) d (Settled d)
| V_again n d a ts o : hooks ps axes d = Ok a -> Permutation a ts -> ts <> [] ->
    validates ps axes n (apply_tweaks ts d) o -> validates ps axes (S n) d o.

(* A child whose validate is that of an ExposureDeadtimePart and a DetectorDriverPart with a
   minimum acquire period: scanning/parts/exposuredeadtimepart.py 76-122,
   ADCore/parts/detectordriverpart.py 266-301. *)
Definition detector (i : info) (mp : Q) : child :=
  mkChild true true (fun g _ e f =>
    let e0 := match e with Some x => x | None => 0 end in
    match det_validate i mp (match f with Some n => n | None => 1%Z end) (g_dur g) e0 with
    | None => Err "refused"
    | Some (d', e') => Ok (if Qeq_bool d' (g_dur g) then None else Some (mkGen (g_gens g) (g_squash g) d'), Some e')
    end).

(* A child that does not take an exposure: detectorchildpart.py 172-173, the slow detector of
   tests/test_modules/test_scanning/test_detectorchildpart.py. *)
Definition plain : child := mkChild false false (fun _ _ _ _ => Ok (None, None)).
