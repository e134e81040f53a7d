(* When a detector is armed, and what it does with the triggers it gets: ADCore/parts/detectordriverpart.py 105-180,
   303-307, 337-489. *)
From Coq Require Import String Bool ZArith List.
From Verif Require Import Base Scan_Model Det_Model.
Import ListNotations.
Local Open Scope Z_scope.
Local Open Scope list_scope.

(* What happens to the detector: it is started (and whether it was acquiring then), a trigger gives a frame with its
   id, a trigger finds it idle, it is stopped: detectordriverpart.py 149-180. *)
Inductive event := Started (acquiring : bool) | Frame (id : Z) | Missed | Stopped.
(* is_hardware_triggered, whether there are breakpoints, the size of the generator; the numbers of the part
   (Det_Model); arrayCounterReadback, acquiring and how many images are left of numImages (areaDetector); what
   happened so far, last first: detectordriverpart.py 76-103, 149-180. *)
Record unit_ := mkUnit { m_hw : bool; m_bp : bool; m_size : Z; m_det : det; m_counter : Z; m_acq : bool; m_left : Z;
                         m_log : list event }.
(* detectordriverpart.py 63-103; nothing is known of the scan. *)
Definition new_unit : unit_ := mkUnit true false 0 new_det 0 false 0 [].

(* setup_detector and what the driver makes of arrayCounter; numImages is used at the next start
   (areaDetector): detectordriverpart.py 105-147. *)
Definition set_up (initial : bool) (c n images : Z) (m : unit_) : unit_ :=
  let d := setup_detector initial c n images (m_det m) in
  mkUnit (m_hw m) (m_bp m) (m_size m) d (dt_base d) (m_acq m) (m_left m) (m_log m).
(* arm_detector; a start of a detector that acquires does nothing (areaDetector), and it is idle if there are no
   images to take: detectordriverpart.py 149-152. *)
Definition arm_detector (m : unit_) : unit_ :=
  mkUnit (m_hw m) (m_bp m) (m_size m) (m_det m) (m_counter m) (if m_acq m then true else 0 <? dt_images (m_det m))
         (if m_acq m then m_left m else dt_images (m_det m)) (Started (m_acq m) :: m_log m).
(* abort_detector: detectordriverpart.py 173-180. *)
Definition abort_detector (m : unit_) : unit_ :=
  mkUnit (m_hw m) (m_bp m) (m_size m) (m_det m) (m_counter m) false 0 (Stopped :: m_log m).
(* A trigger, or a frame that the detector takes by itself (areaDetector): read back at
   detectordriverpart.py 160-171. *)
Definition trigger (m : unit_) : unit_ :=
  if m_acq m
  then mkUnit (m_hw m) (m_bp m) (m_size m) (m_det m) (m_counter m + 1) (1 <? m_left m) (m_left m - 1)
              (Frame (m_counter m + 1) :: m_log m)
  else mkUnit (m_hw m) (m_bp m) (m_size m) (m_det m) (m_counter m) (m_acq m) (m_left m) (Missed :: m_log m).
(* num_images: detectordriverpart.py 353-356, 408-411. *)
Definition images (m : unit_) (c n : Z) : Z := num_images (m_hw m) (m_bp m) (m_size m) c n.
(* is_hardware_triggered: detectordriverpart.py 401-403. *)
Definition hardware (soft_modes : list string) (mode : string) (before : bool) : bool :=
  match soft_modes with [] => before | _ => negb (smem mode soft_modes) end.

(* What the part is asked, and the triggers: detectordriverpart.py 229-248. *)
Inductive uop := UConfigure (mode : string) (bp : bool) (size c n : Z) | USeek (c n : Z) | UPostRunArmed (c n : Z)
  | UPostRunReady | URun | UStop | UTrigger.
(* on_configure 376-443, on_seek 337-372, on_post_run_armed 458-489, on_run 446-455, on_abort of pause and abort
   491-493 and on_reset 303-307 of detectordriverpart.py; the file of attributes is in Xml_Model. *)
Definition ustep (soft_modes : list string) (m : unit_) (o : uop) : unit_ :=
  match o with
  | UConfigure mode bp size c n =>
      let m1 := mkUnit (hardware soft_modes mode (m_hw m)) bp size (m_det m) (m_counter m) (m_acq m) (m_left m) (m_log m) in
      let m2 := set_up true c n (images m1 c n) m1 in
      if m_hw m2 then arm_detector m2 else m2
  | USeek c n =>
      let m2 := set_up false c n (images m c n) m in
      if m_hw m2 then arm_detector m2 else m2
  | UPostRunArmed c n =>
      if m_bp m || negb (m_hw m)
      then let m2 := set_up false c n n m in if m_hw m2 then arm_detector m2 else m2
      else mkUnit (m_hw m) (m_bp m) (m_size m)
                  (mkDet (dt_done (m_det m) + n) (dt_off (m_det m)) (dt_base (m_det m)) (dt_images (m_det m)))
                  (m_counter m) (m_acq m) (m_left m) (m_log m)
  | UPostRunReady => m
  | URun => if m_hw m then m else arm_detector m
  | UStop => abort_detector m
  | UTrigger => trigger m
  end.
(* Whether wait_for_detector returns: detectordriverpart.py 160-171. *)
Definition run_over (m : unit_) : bool := m_counter m =? dt_done (m_det m).
