(* The poll loop of a PandA, and when it runs.
   /repo/malcolm/modules/pandablocks/controllers/pandamanagercontroller.py. *)
From Coq Require Import Bool QArith List.
Import ListNotations.
Local Open Scope Q_scope.

(* ---- the poll loop ---- *)
(* One round of _poll_loop: pandamanagercontroller.py 125-147, from the time [now] at its start to its poll:
   the time of the poll, the period found and the new next_poll.  The sleep is taken as exact; the stop queue
   and the reporting of the period are left out. *)
Definition poll_round (period next_poll now : Q) : Q * Q * Q :=
  let min_sleep := period * (1 # 2) in
  let sleep_for := next_poll - now in
  if negb (Qle_bool min_sleep sleep_for) then
    let last_poll_period := period + min_sleep - sleep_for in
    (now + min_sleep, last_poll_period, next_poll + last_poll_period)
  else (now + sleep_for, period, next_poll + period).
(* The loop from [now], the time that the handling of the changes takes in each round being given:
   pandamanagercontroller.py 121-147.  For each poll its time, and the period found. *)
Fixpoint poll_loop (period next_poll now : Q) (handling : list Q) : list (Q * Q) :=
  match handling with
  | [] => []
  | h :: r => let '(t, p, np) := poll_round period next_poll now in (t, p) :: poll_loop period np (t + h) r
  end.
(* _poll_loop: pandamanagercontroller.py 118-121. *)
Definition poll (period start : Q) (handling : list Q) : list (Q * Q) :=
  poll_loop period (start + period) start handling.

(* ---- when it runs ---- *)
(* The states of statefulcontroller.py and util.py 137-141 between calls; Start is before init. *)
Inductive state := Start | Ready | Fault | Disabled.
(* The client is started, _child_controllers is not empty, the blocks are in the process, _poll_spawned is
   not None, the loop is running: pandamanagercontroller.py 68-88, 96-115. *)
Record life := mkL { l_state : state; l_client : bool; l_blocks : bool; l_published : bool; l_spawned : bool;
                     l_alive : bool }.
(* __init__: pandamanagercontroller.py 54-88. *)
Definition life0 : life := mkL Start false false false false false.
(* How _make_child_controllers ends: all is made, it fails while asking the device about its blocks
   (pandamanagercontroller.py 161-165), it fails when some of the blocks have been made (166-213; taken as
   failing before 189 where the blocks are put in the process), or after (189-213). *)
Inductive making := Made | FailsAtOnce | FailsAtBlock | FailsLate.
(* start_poll_loop: pandamanagercontroller.py 96-107, with whether it raised; [connects] is whether
   client.start succeeds (pandablocksclient.py 63-71, started is only set at its end). *)
Definition start_poll_loop (connects : bool) (m : making) (l : life) : life * bool :=
  if negb (l_client l) && negb connects then (l, true)
  else if l_blocks l then
    (mkL (l_state l) true true (l_published l) true (if l_spawned l then l_alive l else true), false)
  else match m with
       | Made => (mkL (l_state l) true true true true (if l_spawned l then l_alive l else true), false)
       | FailsAtOnce => (mkL (l_state l) true false (l_published l) (l_spawned l) (l_alive l), true)
       | FailsAtBlock => (mkL (l_state l) true true (l_published l) (l_spawned l) (l_alive l), true)
       | FailsLate => (mkL (l_state l) true true true (l_spawned l) (l_alive l), true)
       end.
(* stop_poll_loop: pandamanagercontroller.py 152-158. *)
Definition stop_poll_loop (l : life) : life :=
  mkL (l_state l) false (l_blocks l) (l_published l) false false.
(* The state set: statefulcontroller.py 123-150. *)
Definition in_state (s : state) (l : life) : life :=
  mkL s (l_client l) (l_blocks l) (l_published l) (l_spawned l) (l_alive l).
(* What happens: init, reset, disable, an exception in the poll loop: pandamanagercontroller.py 90-158. *)
Inductive lev := Init (connects : bool) (m : making) | Reset (connects : bool) (m : making) | Disable | PollFails.
(* A step: do_init, do_reset, do_disable in try_stateful_function (statefulcontroller.py 81-108), and the
   handler of the poll loop (pandamanagercontroller.py 148-150).  The hooks of the parts are taken as
   succeeding.  Where the transition is not allowed (util.py 148-160) nothing happens. *)
Definition lstep (e : lev) (l : life) : life :=
  let go connects m := match start_poll_loop connects m l with
                       | (l', true) => in_state Fault l'
                       | (l', false) => in_state Ready l'
                       end in
  match e, l_state l with
  | Init c m, Start => go c m
  | Reset c m, (Fault | Disabled) => go c m
  | Disable, (Ready | Fault) => in_state Disabled (stop_poll_loop l)
  | PollFails, _ => if l_alive l then
                      in_state (match l_state l with Disabled => Disabled | _ => Fault end)
                        (mkL (l_state l) (l_client l) (l_blocks l) (l_published l) (l_spawned l) false)
                    else l
  | _, _ => l
  end.
(* Steps one after the other: pandamanagercontroller.py 90-158. *)
Definition lrun (es : list lev) : life := fold_left (fun l e => lstep e l) es life0.
