(* Frame ids of a detector: the driver and the position labeller. *)
From Coq Require Import String Bool ZArith List.
From Verif Require Import Base Scan_Model.
Import ListNotations.
Local Open Scope Z_scope.
Local Open Scope list_scope.

(* ======== ADCore/parts/detectordriverpart.py ======== *)

(* done_when_reaches and uniqueid_offset (98-101), and the arrayCounter and numImages last put
   to the driver (127-135).  The first frame after a put of arrayCounter = a has id a + 1
   (areaDetector). *)
Record det := mkDet { dt_done : Z; dt_off : Z; dt_base : Z; dt_images : Z }.
(* __init__: detectordriverpart.py 98-101. *)
Definition new_det : det := mkDet 0 0 0 0.

(* setup_detector: detectordriverpart.py 105-135; the other attributes it puts and the acquire
   period (in Expo_Model) are left out. *)
Definition setup_detector (initial : bool) (completed steps images : Z) (d : det) : det :=
  let array_counter := if initial then 0 else dt_done d in
  let done := if initial then steps else dt_done d + steps in
  mkDet done (completed - array_counter) array_counter images.

Section driver.
  (* is_hardware_triggered, whether breakpoints are given, generator.size
     (detectordriverpart.py 353, 408). *)
  Variables (hw bp : bool) (size : Z).

  (* num_images of on_configure and on_seek: detectordriverpart.py 353-356, 408-411. *)
  Definition num_images (completed steps : Z) : Z :=
    if hw && negb bp then size - completed else steps.

  (* on_configure 377-443, on_post_run_armed 458-488, on_seek 337-372 of
     detectordriverpart.py; there is no hook for PostRunReady.  Arming and stopping the
     detector are left out. *)
  Definition det_ask (d : det) (a : ask) : det :=
    match a with
    | AConfigure c n => setup_detector true c n (num_images c n) d
    | ASeek c n => setup_detector false c n (num_images c n) d
    | APostRunArmed c n =>
        if bp || negb hw then setup_detector false c n n d
        else mkDet (dt_done d + n) (dt_off d) (dt_base d) (dt_images d)
    | APostRunReady => d
    end.

  (* A sequence of hooks (detectordriverpart.py 229-248). *)
  Definition det_asks (d : det) (l : list ask) : det := fold_left det_ask l d.
End driver.

(* update_completed_steps: detectordriverpart.py 182-184. *)
Definition det_completed (d : det) (counter : Z) : Z := counter + dt_off d.

(* ======== ADCore/parts/positionlabellerpart.py ======== *)

(* POSITIONS_PER_XML and N_LOAD_AHEAD: positionlabellerpart.py 15, 18. *)
Definition positions_per_xml : Z := 5000.
(* positionlabellerpart.py 18. *)
Definition n_load_ahead : Z := 4.

(* done_when_reaches, end_index (29, 37), and of the plugin: idStart and the positions that it
   was given since the last delete, in order, as indices of steps (77-85, 158).  The plugin
   gives the k-th of them to the array with uniqueID idStart + k (areaDetector):
   positionlabellerpart.py 29-37. *)
Record lab := mkLab { l_done : Z; l_end : Z; l_id_start : Z; l_positions : list Z }.
(* Class variables: positionlabellerpart.py 26-39; end_index is None before the first
   configure, here 0 (both are false). *)
Definition new_lab : lab := mkLab 0 0 0 [].

(* range(a, b): Python semantics: positionlabellerpart.py 178. *)
Definition zrange (a b : Z) : list Z := map (fun k => a + Z.of_nat k) (seq 0 (Z.to_nat (b - a))).

(* _make_xml: positionlabellerpart.py 161-188: the steps it writes and end_index; the XML
   text, its largest length and the check that the generator is not empty are left out. *)
Definition make_xml (size start_index : Z) : list Z * Z :=
  let end0 := start_index + positions_per_xml in
  let end_index := if size <? end0 then size else end0 in
  (zrange start_index end_index, end_index).

(* setup_plugin: positionlabellerpart.py 57-87. *)
Definition setup_plugin (size : Z) (initial : bool) (completed steps : Z) (l : lab) : lab :=
  let id_start := if initial then 1 else l_done l + 1 in
  let done := if initial then steps else l_done l + steps in
  let '(ps, e) := make_xml size completed in mkLab done e id_start ps.

(* load_more_positions: positionlabellerpart.py 149-159, when it is not loading already. *)
Definition load_more (size number_left : Z) (l : lab) : lab :=
  if negb (l_end l =? 0) && negb (size =? 0) && (l_end l <? size) && (number_left <? positions_per_xml * n_load_ahead)
  then let '(ps, e) := make_xml size (l_end l) in mkLab (l_done l) e (l_id_start l) (l_positions l ++ ps)
  else l.

(* What happens to the labeller: a hook (on_configure 90-109, on_post_run_armed 128-133, on_seek
   136-147) or an update of qty (115) (positionlabellerpart.py). *)
Inductive lop := LAsk (a : ask) | LQty (number_left : Z).
(* One of them (positionlabellerpart.py 89-159). *)
Definition lab_step (size : Z) (l : lab) (o : lop) : lab :=
  match o with
  | LAsk (AConfigure c n) => setup_plugin size true c n l
  | LAsk (ASeek c n) => setup_plugin size false c n l
  | LAsk (APostRunArmed _ n) => mkLab (l_done l + n) (l_end l) (l_id_start l) (l_positions l)
  | LAsk APostRunReady => l
  | LQty k => load_more size k l
  end.
(* A sequence of them (positionlabellerpart.py 41-50). *)
Definition lab_run (size : Z) (l : lab) (os : list lop) : lab := fold_left (lab_step size) os l.
