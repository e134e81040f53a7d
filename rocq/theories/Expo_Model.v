(* Exposure, dead time and frame duration of a detector. *)
From Coq Require Import String Bool ZArith QArith Qround List.
From Verif Require Import Base.
Import ListNotations.
Local Open Scope list_scope.
Local Open Scope Q_scope.

(* Floats are exact rationals here; 1e-12 and 1e6 are exact (all of this file). *)

(* Comparison of floats as Python does it, on rationals: a < b (Python semantics):
   scanning/infos.py 147-192. *)
Definition qlt (a b : Q) : bool := negb (Qle_bool b a).

(* ExposureDeadtimeInfo: scanning/infos.py 147-161. *)
Record info := mkInfo { readout_time : Q; frequency_accuracy : Q; min_exposure : Q }.

(* calculate_maximum_exposure: scanning/infos.py 183-192. *)
Definition calculate_maximum_exposure (i : info) (duration : Q) : Q :=
  let e := duration - readout_time i - frequency_accuracy i * duration / 1000000 in
  if qlt e (min_exposure i) then min_exposure i else e.

(* calculate_minimum_duration: scanning/infos.py 177-181; division by zero, for an accuracy of
   one million ppm, gives 0 here and raises in Python. *)
Definition calculate_minimum_duration (i : info) (exposure : Q) : Q :=
  (exposure + readout_time i) / (1 - frequency_accuracy i / 1000000).

(* calculate_exposure: scanning/infos.py 163-175. *)
Definition calculate_exposure (i : info) (duration exposure : Q) : Q :=
  if Qeq_bool exposure 0 && Qeq_bool duration 0 then min_exposure i
  else let m := calculate_maximum_exposure i duration in
       if Qle_bool exposure 0 || qlt m exposure then m
       else if qlt exposure (min_exposure i) then min_exposure i
       else exposure.

(* What a part's validate hook says: nothing to change, a duration or an exposure to use
   instead, or an assertion failed (exposuredeadtimepart.py 80-122,
   detectordriverpart.py 266-301). *)
Inductive verdict := Fine | TweakDuration (d : Q) | TweakExposure (e : Q) | Refuse.

(* ExposureDeadtimePart.on_validate: scanning/parts/exposuredeadtimepart.py 80-122.  Of the
   generator only the duration. *)
Definition expo_validate (i : info) (duration exposure : Q) (frames : Z) : verdict :=
  if Qeq_bool duration 0 then
    let e := if Qeq_bool exposure 0 then calculate_exposure i duration exposure else exposure in
    TweakDuration (calculate_minimum_duration i e * inject_Z frames * (1 + (1 # 1000000000000)))
  else if Qeq_bool exposure 0 then TweakExposure (calculate_exposure i duration exposure)
  else if Qle_bool (min_exposure i) exposure then
         if Qle_bool exposure (calculate_maximum_exposure i duration) then Fine else Refuse
       else Refuse.

(* DetectorDriverPart.on_validate: ADCore/parts/detectordriverpart.py 266-301; the check of the
   driver's version is left out. *)
Definition driver_validate (min_acquire_period : Q) (duration : Q) (frames : Z) : verdict :=
  if qlt 0 min_acquire_period then
    if Qeq_bool duration 0 then TweakDuration (min_acquire_period * inject_Z frames)
    else if Qle_bool min_acquire_period duration then Fine else Refuse
  else Fine.

(* The acquire period that setup_detector puts: detectordriverpart.py 138-147; exposure is in
   the arguments when the block takes it. *)
Definition acquire_period (i : info) (duration : Q) (exposure : option Q) : Q :=
  match exposure with Some e => e | None => calculate_exposure i duration 0 end + readout_time i.

(* The larger of two durations that two parts ask for: resolve_generator_tweaks,
   scanning/util.py 213-227. *)
Definition larger (a b : Q) : Q := if qlt a b then b else a.

(* One round of RunnableController.validate for a detector whose parts are an
   ExposureDeadtimePart and a DetectorDriverPart, on duration and exposure
   (scanning/controllers/runnablecontroller.py 377-415): inl = go round again.  The general
   loop is in Validate_Model. *)
Definition det_round (i : info) (mp : Q) (frames : Z) (de : Q * Q) : (Q * Q) + option (Q * Q) :=
  let '(d, e) := de in
  match expo_validate i d e frames, driver_validate mp d frames with
  | Refuse, _ | _, Refuse => inr None
  | TweakDuration a, TweakDuration b => inl (larger (larger 0 a) b, e)
  | TweakDuration a, _ => inl (a, e)
  | _, TweakDuration b => inl (b, e)
  | TweakExposure x, _ => inl (d, x)
  | Fine, _ => inr (Some (d, e))
  end.

(* Its rounds: runnablecontroller.py 365, 377-416; None = ValueError or assertion. *)
Fixpoint det_rounds (n : nat) (i : info) (mp : Q) (frames : Z) (de : Q * Q) : option (Q * Q) :=
  match n with
  | O => None
  | S k => match det_round i mp frames de with
           | inr r => r
           | inl de' => det_rounds k i mp frames de'
           end
  end.
(* validate of the detector: runnablecontroller.py 354-416. *)
Definition det_validate (i : info) (mp : Q) (frames : Z) (duration exposure : Q) : option (Q * Q) :=
  det_rounds 10 i mp frames (duration, exposure).

(* The duration of one frame that DetectorChildPart._configure_args passes to the detector:
   scanning/parts/detectorchildpart.py 272-287. *)
Definition frame_duration (duration : Q) (frames : Z) : Q :=
  if (1 <? frames)%Z then duration / inject_Z frames else duration.

(* DetectorChildPart.on_validate where it has to guess the frames of a step from the exposure:
   detectorchildpart.py 197-208: [det_exposure] is the exposure that the detector's validate
   gives for the whole duration.  Python's // on floats is the floor; a zero divisor raises
   (None). *)
Definition guess_frames (duration exposure det_exposure : Q) : option Z :=
  let dead_time := duration - det_exposure in
  if Qeq_bool (exposure + dead_time) 0 then None
  else Some (Qfloor (duration / (exposure + dead_time))).
