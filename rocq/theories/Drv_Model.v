(* What detector drivers are told about exposure, period and samples:
   ADCore/parts/detectordriverpart.py, ADAndor/parts/andordriverpart.py,
   adUtil/parts/reframepluginpart.py, ADTetrAMM/parts/tetrammdriverpart.py,
   xmap/parts/xmapdriverpart.py.  Floats are exact rationals here. *)
From Coq Require Import String Bool ZArith QArith Qround List.
From Verif Require Import Base Expo_Model Scan_Model Det_Model.
Import ListNotations.
Local Open Scope list_scope.
Local Open Scope Q_scope.

(* ======== the driver of any detector ======== *)
(* The exposure and acquirePeriod last put to the child (detectordriverpart.py 135, 147). *)
Record drv := mkDrv { v_exposure : Q; v_period : Q }.

(* setup_detector: detectordriverpart.py 127-147, of what it puts exposure and acquirePeriod.
   exposure is put if it is in kwargs; i is the ExposureDeadtimeInfo, if there is exactly one. *)
Definition base_setup (i : option info) (duration : Q) (exposure : option Q) (v : drv) : drv :=
  mkDrv (match exposure with Some e => e | None => v_exposure v end)
        (match i with Some i => acquire_period i duration exposure | None => v_period v end).

(* The hooks that set the detector up: on_configure and on_seek with the exposure
   (detectordriverpart.py 358-368, 413-422), on_post_run_armed without (471-480). *)
Inductive dhook := HConfigure (e : Q) | HSeek (e : Q) | HPostRunArmed.
(* detectordriverpart.py 336-372, 376-443, 457-488. *)
Definition base_hook (hw bp : bool) (i : option info) (duration : Q) (v : drv) (h : dhook) : drv :=
  match h with
  | HConfigure e | HSeek e => base_setup i duration (Some e) v
  | HPostRunArmed => if bp || negb hw then base_setup i duration None v else v
  end.
(* A sequence of them (detectordriverpart.py 229-248). *)
Definition base_hooks (hw bp : bool) (i : option info) (duration : Q) (v : drv) (l : list dhook) : drv :=
  fold_left (base_hook hw bp i duration) l v.

(* ======== Andor ======== *)
(* on_validate: andordriverpart.py 52-97.  readout: andorReadoutTime.  The AssertionError of 62
   and 91 is Refuse. *)
Definition andor_validate (mp readout duration exposure : Q) (frames : Z) : verdict :=
  if qlt duration 0 then Refuse
  else if qlt 0 exposure then
         let per_frame := exposure + readout in
         if Qeq_bool duration 0 then TweakDuration (per_frame * inject_Z frames)
         else if Qle_bool per_frame duration then Fine else Refuse
       else driver_validate mp duration frames.

(* get_additional_readout_factor: andordriverpart.py 171-173. *)
Definition additional_readout (duration : Q) : Q := duration * (4 # 1000) + (1 # 1000).
(* get_adjusted_exposure_time_and_acquire_period: andordriverpart.py 156-169. *)
Definition andor_adjusted (duration readout exposure : Q) : Q * Q :=
  let readout' := readout + additional_readout duration in
  let e := calculate_exposure (mkInfo readout' 50 0) duration exposure in
  (e, e + readout').
(* setup_detector: andordriverpart.py 99-154.  Whether it is in frame transfer mode;
   andorAccumulatePeriod; what acquirePeriod exceeds the exposure by, after both were set to the
   duration (127-137); kwargs.get("exposure", 0).  None: the AssertionError of 122.  Puts that are
   put over by later ones are left out, and there is no ExposureDeadtimeInfo among the part infos
   (62). *)
Definition andor_setup (transfer : bool) (accumulate readout duration exposure : Q) : option drv :=
  if transfer then
    if qlt accumulate duration then Some (mkDrv 0 accumulate) else None
  else let '(e, p) := andor_adjusted duration readout exposure in Some (mkDrv e p).
(* The hooks for an Andor: as base_hook; without an exposure 0 is taken (andordriverpart.py
   135-137). *)
Definition andor_hook (hw bp transfer : bool) (accumulate readout duration : Q) (v : drv) (h : dhook) : option drv :=
  match h with
  | HConfigure e | HSeek e => andor_setup transfer accumulate readout duration e
  | HPostRunArmed => if bp || negb hw then andor_setup transfer accumulate readout duration 0 else Some v
  end.

(* ======== Reframe ======== *)
(* The assertions of reframepluginpart.py 51-56, 110-117. *)
Inductive rferr := RNegative | RNoSample | RTooShort | RNotAlwaysOn.
(* int(x) of a float (Python semantics): towards zero: reframepluginpart.py 59-60. *)
Definition trunc (q : Q) : Z := if Qle_bool 0 q then Qfloor q else Qceiling q.
(* _number_of_adc_samples: reframepluginpart.py 59-60. *)
Definition adc_samples (freq duration : Q) : Z := trunc (duration * freq).
(* on_validate: reframepluginpart.py 40-57: the duration asked for, if any.  A frequency of zero
   raises in Python. *)
Definition reframe_validate (freq duration : Q) : result rferr (option Q) :=
  if Qeq_bool duration 0 then Ok (Some (2 / freq))
  else if qlt 0 duration then
         if (0 <? adc_samples freq duration)%Z then Ok None else Err RNoSample
       else Err RNegative.
(* The end of setup_detector: reframepluginpart.py 99-118: postCount. *)
Definition reframe_setup (freq : Q) (hw gated always_on : bool) (duration : Q) : result rferr Z :=
  let n := adc_samples freq duration in
  if hw then
    if gated then Ok 0%Z
    else if (0 <? n - 1)%Z then Ok (n - 1)%Z else Err RTooShort
  else if always_on then Ok n else Err RNotAlwaysOn.

(* ======== TetrAMM ======== *)
(* on_post_configure: tetrammdriverpart.py 36-48: the valuesPerRead that is put, if any. *)
Definition tetramm_values (target : Z) (exposure : Q) : option Z :=
  if (target =? 0)%Z then Some 5%Z
  else if (0 <? target)%Z then
         Some (Z.max (Qceiling (100000 * exposure / inject_Z target)) 5)
       else None.

(* ======== XMAP ======== *)
(* setup_detector: xmapdriverpart.py 21-50: numImages and pixelsPerRun, for a hook of
   Det_Model.  The XMAP part has no soft_trigger_modes: it is always hardware triggered
   (detectordriverpart.py 78, 401). *)
Definition xmap_ask (bp : bool) (size : Z) (old : Z * Z) (a : ask) : Z * Z :=
  match a with
  | AConfigure c n | ASeek c n => (num_images true bp size c n, n)
  | APostRunArmed c n => if bp then (n, n) else old
  | APostRunReady => old
  end.
