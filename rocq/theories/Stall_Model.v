(* How the HDF writer waits for the frames of a run: the first array, the flush once a second, the end, and
   when it gives up: ADCore/parts/hdfwriterpart.py 522-532, 588-591, 617-714, ADCore/util.py 12.
   Times are whole milliseconds (time.time() is a float of seconds). *)
From Coq Require Import Bool ZArith List.
Import ListNotations.
Local Open Scope Z_scope.

(* FRAME_TIMEOUT, 60 seconds: util.py 12. *)
Definition FRAME_TIMEOUT : Z := 60000.

(* start_future when a second has passed: not done, done, or raised: hdfwriterpart.py 669-676. *)
Inductive capture := Capturing | Ended | Errored.

(* What comes to on_run, each with the time it is handled: arrayCounterReadback above zero, numCapturedReadback
   (the value it has when it is subscribed to is the first), and the end of a wait of one second:
   hdfwriterpart.py 638-667. *)
Inductive event := First | Update (t v : Z) | Second (t : Z) (c : capture).

(* Where on_run is: it waits for the first array, it waits for the frames, it has returned, it raised
   TimeoutError, it raised what start raised: hdfwriterpart.py 638-667. *)
Inductive outcome := Waiting | Writing | Finished | Stalled | Broken.

(* The fields of the part: frame_timeout, done_when_captured, num_captured_offset, last_capture_update, whether
   first_array_future is done; how often flushNow was called and what was reported, latest first:
   hdfwriterpart.py 427-441. *)
Record part := mkPart { p_timeout : Z; p_done : Z; p_offset : Z; p_last : option Z; p_first : bool;
                        p_flushes : nat; p_reports : list Z }.
(* __init__: hdfwriterpart.py 427-441. *)
Definition fresh : part := mkPart 0 0 0 None false 0 [].

(* frame_timeout: hdfwriterpart.py 526-532. *)
Definition frame_timeout (duration : Z) : Z :=
  if 0 <? duration then FRAME_TIMEOUT + duration else FRAME_TIMEOUT + FRAME_TIMEOUT.
(* on_configure, as far as it matters here: hdfwriterpart.py 523-532, 588-591. *)
Definition on_configure (duration completed steps : Z) (p : part) : part :=
  mkPart (frame_timeout duration) (completed + steps) 0 (p_last p) false (p_flushes p) (p_reports p).
(* on_seek; [captured] is numCapturedReadback: hdfwriterpart.py 618-635. *)
Definition on_seek (captured completed steps : Z) (p : part) : part :=
  mkPart (p_timeout p) (captured + steps) (captured - completed) (p_last p) (p_first p) (p_flushes p) (p_reports p).

(* update_completed_steps: hdfwriterpart.py 705-714. *)
Definition update_completed_steps (t v : Z) (p : part) : part :=
  let completed := v - p_offset p in
  mkPart (p_timeout p) (p_done p) (p_offset p) (Some t) (p_first p) (p_flushes p)
         (if 0 <=? completed then completed :: p_reports p else p_reports p).
(* child.flushNow(): hdfwriterpart.py 676.  Simplified: no update comes while it is called. *)
Definition flush_now (p : part) : part :=
  mkPart (p_timeout p) (p_done p) (p_offset p) (p_last p) (p_first p) (S (p_flushes p)) (p_reports p).
(* _flush_if_still_writing; None: it raises: hdfwriterpart.py 669-676. *)
Definition flush_if_still_writing (c : capture) (p : part) : option part :=
  match c with Capturing => Some (flush_now p) | Ended => Some p | Errored => None end.
(* _has_file_writing_stalled: hdfwriterpart.py 678-681. *)
Definition has_file_writing_stalled (t : Z) (p : part) : bool :=
  match p_last p with
  | Some u => negb (u =? 0) && (u + p_timeout p <? t)
  | None => false
  end.

(* The loop of on_run: hdfwriterpart.py 640-667. *)
Definition step (x : outcome * part) (e : event) : outcome * part :=
  let (o, p) := x in
  match o, e with
  | Waiting, First =>
      (Writing, mkPart (p_timeout p) (p_done p) (p_offset p) None true (p_flushes p) (p_reports p))
  | Writing, Update t v =>
      let p' := update_completed_steps t v p in (if v =? p_done p then Finished else Writing, p')
  | Writing, Second t c =>
      match flush_if_still_writing c p with
      | None => (Broken, p)
      | Some p' => (if has_file_writing_stalled t p' then Stalled else Writing, p')
      end
  | _, _ => x
  end.
(* on_run: it does not wait for the first array when that has come before: hdfwriterpart.py 638-667. *)
Definition on_run (es : list event) (p : part) : outcome * part :=
  fold_left step es
    (if p_first p
     then (Writing, mkPart (p_timeout p) (p_done p) (p_offset p) None true (p_flushes p) (p_reports p))
     else (Waiting, p)).
(* on_post_run_ready; None: it raises: hdfwriterpart.py 695-698. *)
Definition on_post_run_ready (c : capture) (p : part) : option part := flush_if_still_writing c p.
