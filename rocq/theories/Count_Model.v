(* How the file writers count frames: when a run is done and what progress is reported.
   /repo/malcolm/modules/ADCore/parts/hdfwriterpart.py 512-529, 618-711,
   /repo/malcolm/modules/ADOdin/parts/odinwriterpart.py 355-370, 429-480,
   /repo/malcolm/modules/xspress3/parts/xspresswriterpart.py 359-375, 442-493. *)
From Coq Require Import Bool ZArith List.
Import ListNotations.
Local Open Scope Z_scope.

(* The three parts; [Xsp pairs] with num_pairs (xspresswriterpart.py 318-333). *)
Inductive writer := Hdf | Odin | Xsp (pairs : Z).

(* The fields of the part and what it sees of its child: done_when_captured or done_when_reaches;
   num_captured_offset, or minus unique_id_offset; the readback of the frames captured; whether the
   part is in on_run with its subscription; whether on_run has returned; the reports, latest
   first: hdfwriterpart.py 427-434, odinwriterpart.py 316-328, xspresswriterpart.py 318-332. *)
Record st := mkSt { s_done : Z; s_offset : Z; s_captured : Z; s_running : bool; s_finished : bool; s_reports : list Z }.

(* __init__: hdfwriterpart.py 427-434, odinwriterpart.py 309-314. *)
Definition init : st := mkSt 0 0 0 false false [].

(* update_completed_steps: hdfwriterpart.py 705-711, odinwriterpart.py 477-480,
   xspresswriterpart.py 490-493.  Only HDFWriterPart leaves negative values out. *)
Definition update (w : writer) (s : st) : st :=
  let completed := s_captured s - s_offset s in
  match w with
  | Hdf => if 0 <=? completed
           then mkSt (s_done s) (s_offset s) (s_captured s) (s_running s) (s_finished s) (completed :: s_reports s)
           else s
  | _ => mkSt (s_done s) (s_offset s) (s_captured s) (s_running s) (s_finished s) (completed :: s_reports s)
  end.
(* The match of the awaited value, which ends on_run: hdfwriterpart.py 648-668,
   odinwriterpart.py 453-457, xspresswriterpart.py 466-470.  The subscription stays, but the context
   of the run stops its updates. *)
Definition matches (s : st) : st :=
  if s_captured s =? s_done s
  then mkSt (s_done s) (s_offset s) (s_captured s) false true (s_reports s)
  else s.

(* What happens: configure and the hooks; and the readback going up by [k]:
   hdfwriterpart.py 512-529, 618-711. *)
Inductive op :=
| Configure (completed steps : Z)
| PostRunArmed (completed steps : Z)
| Seek (completed steps : Z)
| Run
| Frames (k : Z).

(* on_configure, on_post_run_armed, on_seek, on_run and the readback.
   Configure: hdfwriterpart.py 523-525, odinwriterpart.py 367-369, xspresswriterpart.py 372-374; start
   puts the readback to zero (assumed of the file writer plugins).
   PostRunArmed: hdfwriterpart.py 489-491 (on_seek), odinwriterpart.py 460-465, xspresswriterpart.py
   473-478.  Seek: hdfwriterpart.py 618-635, odinwriterpart.py 429-445, xspresswriterpart.py 442-458.
   Run: hdfwriterpart.py 638-667, odinwriterpart.py 448-457, xspresswriterpart.py 461-470, after the
   first array; subscribing calls back with the present value.  Frames: a new readback. *)
Definition step (w : writer) (s : st) (o : op) : st :=
  match o with
  | Configure completed steps =>
      mkSt (completed + match w with Xsp pairs => pairs * steps | _ => steps end) 0 0 false false (s_reports s)
  | PostRunArmed completed steps =>
      match w with
      | Hdf => mkSt (s_captured s + steps) (s_captured s - completed) (s_captured s) false false (s_reports s)
      | Odin => mkSt (s_done s + steps) (s_offset s) (s_captured s) false false (s_reports s)
      | Xsp pairs => mkSt (s_done s + pairs * steps) (s_offset s) (s_captured s) false false (s_reports s)
      end
  | Seek completed steps =>
      match w with
      | Hdf => mkSt (s_captured s + steps) (s_captured s - completed) (s_captured s) false false (s_reports s)
      | _ => mkSt (s_done s + steps) (s_done s - completed) (s_captured s) false false (s_reports s)
      end
  | Run => matches (update w (mkSt (s_done s) (s_offset s) (s_captured s) true false (s_reports s)))
  | Frames k =>
      let s' := mkSt (s_done s) (s_offset s) (s_captured s + k) (s_running s) (s_finished s) (s_reports s) in
      if s_running s then matches (update w s') else s'
  end.
(* A history: hdfwriterpart.py 512-529, 618-711. *)
Definition steps_of (w : writer) (ops : list op) : st := fold_left (step w) ops init.

(* _get_file_writing_stalled_error_message: hdfwriterpart.py 683-693: captured / expected. *)
Definition stalled_numbers (s : st) : Z * Z := (s_captured s - s_offset s, s_done s - s_offset s).
