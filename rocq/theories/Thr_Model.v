(** Model of the threads of a RunnableController: configure, run and reset in
    one thread, pause, abort, resume and disable in others, the hooks they run,
    the contexts and queues they share, and an AttributePreRunPart (a shutter)
    among the parts.

    One step of the model is one stretch of code that no other thread can see
    the middle of: a locked section, a put to or a get from a queue, the start
    of a hook (start_hooks takes the lock), the end of a hook, or the put of
    the shutter. *)
From Coq Require Import String Bool Arith List.
From Verif Require Import States_Model.
Import ListNotations.
Local Open Scope list_scope.

(** /repo/malcolm/modules/builtin/util.py:137-141,
    /repo/malcolm/modules/scanning/util.py:172-180.  Saving and Loading are left
    out: no method modelled here uses them. *)
Inductive bstate :=
  Resetting | Disabled | Disabling | Fault | Ready | Configuring | Armed
| Running | PostRun | Finished | Paused | Seeking | Aborting | Aborted.

(** The names of the states, same lines: scanning/util.py 168-210. *)
Definition name_of (x : bstate) : string :=
  match x with
  | Resetting => RESETTING | Disabled => DISABLED | Disabling => DISABLING
  | Fault => FAULT | Ready => READY | Configuring => CONFIGURING | Armed => ARMED
  | Running => RUNNING | PostRun => POSTRUN | Finished => FINISHED
  | Paused => PAUSED | Seeking => SEEKING | Aborting => ABORTING | Aborted => ABORTED
  end.

(** /repo/malcolm/modules/scanning/util.py:182-210,
    /repo/malcolm/modules/builtin/util.py:148-160: the allowed transitions,
    written out ([Thr_Props.C93_graph] checks them against RunnableStates). *)
Definition allowed (x y : bstate) : bool :=
  match x, y with
  | Resetting, Ready => true
  | Ready, Configuring | Configuring, Armed => true
  | Armed, (Running | Seeking | Resetting) => true
  | Running, (PostRun | Seeking) => true
  | PostRun, (Finished | Armed | Seeking) => true
  | Finished, (Seeking | Resetting | Configuring) => true
  | Seeking, (Armed | Paused | Finished) => true
  | Paused, (Seeking | Running) => true
  | (Ready | Configuring | Armed | Running | PostRun | Paused | Seeking | Finished), Aborting => true
  | Aborting, Aborted | Aborted, Resetting => true
  | (Fault | Disabled), Resetting => true
  | Fault, Disabling => true
  | Disabling, (Fault | Disabled) => true
  | (Resetting | Ready | Configuring | Armed | Running | PostRun | Finished
    | Paused | Seeking | Aborting | Aborted), (Fault | Disabling) => true
  | _, _ => false
  end.

(** /repo/malcolm/modules/scanning/controllers/runnablecontroller.py:470-510:
    the four hooks that do_configure runs on the shared contexts. *)
Inductive chook := PreConfigure | ReportForConfigure | Configure | PostConfigure.

(** runnablecontroller.py:561-589: the hooks of do_run. *)
Inductive rhook := PreRun | RunIt | ReportForRun | PostRunArmed | PostRunReady.

(** Where the thread of configure, run or reset is.  [stopped]: a stop came for
    the contexts of the hook after it started; [did]: the shutter has put its
    value (true from the start for a hook the shutter does not have);
    [last]: next_state of run() is Finished, otherwise it is Armed:
   runnablecontroller.py 430-589, statefulcontroller.py 103-110. *)
Inductive mpc :=
| MIdle
(* configure(), runnablecontroller.py:429-516 *)
| CValid                                   (* validate *)
| CBegin (orig : bstate)                   (* before transition(CONFIGURING) *)
| CReset                                   (* ResetHook, only from Finished *)
| CFresh                                   (* before the contexts are replaced *)
| CGap (h : chook)                         (* before the hook is started *)
| CHook (h : chook) (stopped : bool)
| CQueue                                   (* before resume_queue = Queue() *)
| CEnd                                     (* before abortable_transition(ARMED) *)
| CAborted                                 (* before abort_queue.put(None) *)
(* run(), runnablecontroller.py:518-589 *)
| RStart                                   (* before next_state is chosen *)
| RBegin (last : bool)                     (* before transition(RUNNING) *)
| RGap (h : rhook) (last : bool)
| RHook (h : rhook) (last stopped did : bool)
| RPost (last : bool)                      (* before abortable_transition(POSTRUN) *)
| REnd (last : bool)                       (* before abortable_transition(next_state) *)
| RAborted (last : bool)                   (* before abort_queue.put(None) *)
| RWait (last : bool)                      (* in resume_queue.get() *)
(* reset(), /repo/malcolm/modules/builtin/controllers/statefulcontroller.py:103-110 *)
| XBegin | XHook | XEnd.

(** runnablecontroller.py:602-616 abort and 654-694 pause, with the state in
    which pause is to end. *)
Inductive kind := KPause (fin : bstate) | KAbort.

(** The states given to try_aborting_function: runnablecontroller.py:610, 694. *)
Definition start_of (k : kind) : bstate := match k with KPause _ => Seeking | KAbort => Aborting end.
(* runnablecontroller.py 603-652, 657-694. *)
Definition end_of (k : kind) : bstate := match k with KPause e => e | KAbort => Aborted end.

(** Where a thread of pause, abort, resume or disable is: runnablecontroller.py 603-756. *)
Inductive ipc :=
| IIdle
| PRead                                    (* pause, before the state is read *)
| IBegin (k : kind)                        (* before the locked section of 625-630 *)
| IGet (k : kind)                          (* before self.abort_queue is read *)
| IWait (k : kind) (q : nat)               (* in abort_queue.get(timeout) *)
| IIgnore (k : kind)                       (* before the locked section of 637-643 *)
| IHook (k : kind) (did : bool)            (* PauseHook or AbortHook, own contexts *)
| IGap (seek : bool) (k : kind)            (* do_pause, before ReportStatus or Seek *)
| ISeek (seek : bool) (k : kind) (stopped : bool)
| IEnd (k : kind)                          (* before abortable_transition(end_state) *)
| IAborted                                 (* before abort_queue.put(None) *)
| IFalse                                   (* abort, before resume_queue.put(False) *)
| SBegin | SPut                            (* resume *)
| DBegin | DStop | DFalse | DHook | DEnd.  (* disable *)

(** The controller.
    - [st]: the state attribute;
    - [ctx]: None before the first configure (part_contexts is empty,
      runnablecontroller.py:143), otherwise the number of stops that the
      controller's own context is still to listen to (core/context.py:98-105,
      385-393; see C11 for the queue itself);
    - [aq], [nq], [items]: the number of the current abort_queue, the number of
      the next, and the queues the None items lie in;
    - [rq]: the items of resume_queue;
    - [more]: configured_steps < total_steps;
    - [puts]: ghost, what the shutter was told to do, newest first (true:
      pre_run_value, false: reset_value);
    - the three threads; [ib] is a second client that interrupts. *)
Record sys := mkSys {
  st : bstate; ctx : option nat;
  aq : option nat; nq : nat; items : list nat;
  rq : option (list bool); more : bool; puts : list bool;
  main : mpc; ia : ipc; ib : ipc }.

(** A block that has just been initialised: runnablecontroller.py:142-162, in
    Ready. *)
Definition fresh : sys := mkSys Ready None None 0 [] None false [] MIdle IIdle IIdle.

(** Setters of the record: runnablecontroller.py 127-229. *)
Definition set_st x s := mkSys x (ctx s) (aq s) (nq s) (items s) (rq s) (more s) (puts s) (main s) (ia s) (ib s).
(* runnablecontroller.py 127-229. *)
Definition set_ctx x s := mkSys (st s) x (aq s) (nq s) (items s) (rq s) (more s) (puts s) (main s) (ia s) (ib s).
(* runnablecontroller.py 127-229. *)
Definition set_items x s := mkSys (st s) (ctx s) (aq s) (nq s) x (rq s) (more s) (puts s) (main s) (ia s) (ib s).
(* runnablecontroller.py 127-229. *)
Definition set_rq x s := mkSys (st s) (ctx s) (aq s) (nq s) (items s) x (more s) (puts s) (main s) (ia s) (ib s).
(* runnablecontroller.py 127-229. *)
Definition set_more x s := mkSys (st s) (ctx s) (aq s) (nq s) (items s) (rq s) x (puts s) (main s) (ia s) (ib s).
(* runnablecontroller.py 127-229. *)
Definition add_put x s := mkSys (st s) (ctx s) (aq s) (nq s) (items s) (rq s) (more s) (x :: puts s) (main s) (ia s) (ib s).
(* runnablecontroller.py 127-229. *)
Definition set_main x s := mkSys (st s) (ctx s) (aq s) (nq s) (items s) (rq s) (more s) (puts s) x (ia s) (ib s).
(* runnablecontroller.py 127-229. *)
Definition new_aq s := mkSys (st s) (ctx s) (Some (nq s)) (S (nq s)) (items s) (rq s) (more s) (puts s) (main s) (ia s) (ib s).

(** The second slot is true, the first false: runnablecontroller.py 603-756. *)
Definition intr (i : bool) (s : sys) : ipc := if i then ib s else ia s.
(* runnablecontroller.py 603-756. *)
Definition set_intr (i : bool) (x : ipc) (s : sys) : sys :=
  if i then mkSys (st s) (ctx s) (aq s) (nq s) (items s) (rq s) (more s) (puts s) (main s) (ia s) x
  else mkSys (st s) (ctx s) (aq s) (nq s) (items s) (rq s) (more s) (puts s) (main s) x (ib s).

(** runnablecontroller.py:612-613, 742, 749-750, 754-755: something put on
    resume_queue, if there is one.  Simplified: resume (741) would assert that
    there is one; it is only possible after a run, when there is. *)
Definition put_rq (b : bool) (s : sys) : sys :=
  match rq s with Some l => set_rq (Some (l ++ [b])) s | None => s end.

(** /repo/malcolm/modules/builtin/controllers/statefulcontroller.py:112-114 and
    runnablecontroller.py:753-756 go_to_error_state: the resume_queue is told not
    to resume; the state goes to Fault if it may. *)
Definition error (s : sys) : sys :=
  let s := put_rq false s in
  if allowed (st s) Fault then set_st Fault s else s.

(** runnablecontroller.py:418-425 abortable_transition: a pending stop of the
    controller's own context is taken and is an AbortedError ([aborted]);
    otherwise the transition is made ([done]) or refused, which is an error
    of the caller ([failed]). *)
Definition abortable (y : bstate) (done aborted failed : sys -> sys) (s : sys) : sys :=
  match ctx s with
  | Some (S n) => aborted (set_ctx (Some n) s)
  | _ => if allowed (st s) y then done (set_st y s) else failed (error s)
  end.

(** /repo/malcolm/core/context.py:103-105 stop, for a hook that is running on
    the shared contexts.  A context that nobody waits on keeps the stop until
    the next hook starts, and then ignores it
    (/repo/malcolm/modules/builtin/hooks.py:30-34 prepare). *)
Definition stop_main (m : mpc) : mpc :=
  match m with
  | CHook h _ => CHook h true
  | RHook h l _ d => RHook h l true d
  | _ => m
  end.
(* runnablecontroller.py 618-652, core/context.py 103-105. *)
Definition stop_intr (p : ipc) : ipc :=
  match p with ISeek b k _ => ISeek b k true | _ => p end.

(** runnablecontroller.py:629-630, 747-748: stop all the shared contexts. *)
Definition stop_all (s : sys) : sys :=
  mkSys (st s) (match ctx s with Some n => Some (S n) | None => None end)
        (aq s) (nq s) (items s) (rq s) (more s) (puts s)
        (stop_main (main s)) (stop_intr (ia s)) (stop_intr (ib s)).

(** runnablecontroller.py:454-455, 542-543, 647-648: self.abort_queue.put(None). *)
Definition put_aq (ok bad : sys -> sys) (s : sys) : sys :=
  match aq s with
  | Some q => ok (set_items (q :: items s) s)
  | None => bad s
  end.

(** How a step of a thread turns out: it goes on ([b]: whether there are steps
    left to configure, used where configured_steps is set), the shutter puts its
    value, the hook is aborted, the hook fails, or a wait times out: runnablecontroller.py 430-756. *)
Inductive choice := Next (b : bool) | Put | Aborts | Fails | Times.

(** The shutter has this hook: /repo/malcolm/modules/scanning/parts/attributeprerunpart.py:45-51. *)
Definition has_shutter (h : rhook) : bool :=
  match h with PreRun | PostRunReady => true | _ => false end.
(** What it puts: attributeprerunpart.py:53-61. *)
Definition shutter_value (h : rhook) : bool := match h with PreRun => true | _ => false end.

(** One step of configure, run or reset: runnablecontroller.py:429-589,
    statefulcontroller.py:103-110, 152-168.
    Simplified: a hook is aborted only if its contexts were stopped; when a hook
    ends no part of it is still running (C12). *)
Definition mstep (c : choice) (s : sys) : option sys :=
  let idle := set_main MIdle in
  match main s, c with
  | CValid, Next _ => Some (set_main (CBegin (st s)) s)
  | CValid, Fails => Some (idle s)
  | CBegin orig, Next _ =>
      Some (if allowed (st s) Configuring
            then set_main (match orig with Finished => CReset | _ => CFresh end) (set_st Configuring s)
            else idle (error s))
  | CReset, Next _ => Some (set_main CFresh s)
  | CReset, Fails => Some (idle (error s))
  | CFresh, Next _ => Some (set_main (CGap PreConfigure) (set_ctx (Some 0) s))
  | CGap h, Next _ => Some (set_main (CHook h false) s)
  | CHook h _, Next _ =>
      Some (set_main match h with
                     | PreConfigure => CGap ReportForConfigure
                     | ReportForConfigure => CGap Configure
                     | Configure => CGap PostConfigure
                     | PostConfigure => CQueue
                     end s)
  | CHook h true, Aborts => Some (set_main CAborted s)
  | CHook h _, Fails => Some (idle (error s))
  | CQueue, Next b => Some (set_main CEnd (set_more b (set_rq (Some []) s)))
  | CEnd, Next _ => Some (abortable Armed idle (set_main CAborted) idle s)
  | CAborted, Next _ => Some (put_aq idle idle s)
  | RStart, Next _ => Some (set_main (RBegin (negb (more s))) s)
  | RBegin l, Next _ =>
      Some (if allowed (st s) Running then set_main (RGap PreRun l) (set_st Running s)
            else idle (error s))
  | RGap h l, Next _ => Some (set_main (RHook h l false (negb (has_shutter h))) s)
  | RHook h l x false, Put => Some (set_main (RHook h l x true) (add_put (shutter_value h) s))
  | RHook h l _ true, Next b =>
      Some match h with
           | PreRun => set_main (RGap RunIt l) s
           | RunIt => set_main (RPost l) s
           | ReportForRun => set_main (RGap PostRunArmed l) s
           | PostRunArmed => set_main (REnd l) (set_more b s)
           | PostRunReady => set_main (REnd l) s
           end
  | RHook h l true _, Aborts => Some (set_main (RAborted l) s)
  | RHook h l _ _, Fails => Some (idle (error s))
  | RPost l, Next _ =>
      Some (abortable PostRun
              (fun s => set_main (RGap (if more s then ReportForRun else PostRunReady) l) s)
              (set_main (RAborted l)) idle s)
  | REnd l, Next _ =>
      Some (abortable (if l then Finished else Armed) idle (set_main (RAborted l)) idle s)
  | RAborted l, Next _ =>
      Some (put_aq (fun s => match rq s with
                             | Some _ => set_main (RWait l) s
                             | None => idle (error s)
                             end)
                   (fun s => idle (error s)) s)
  | RWait l, Next _ =>
      match rq s with
      | Some (true :: r) => Some (set_main (RGap PreRun l) (set_rq (Some r) s))
      | Some (false :: r) => Some (idle (set_rq (Some r) s))
      | _ => None
      end
  | XBegin, Next _ =>
      Some (if allowed (st s) Resetting then set_main XHook (set_st Resetting s)
            else idle (error s))
  | XHook, Next _ => Some (set_main XEnd (set_more false s))
  | XHook, Fails => Some (idle (error s))
  | XEnd, Next _ =>
      Some (if allowed (st s) Ready then idle (set_st Ready s) else idle (error s))
  | _, _ => None
  end.

(** runnablecontroller.py:631: the states in which nothing is running. *)
Definition resting (x : bstate) : bool :=
  match x with Ready | Armed | Paused | Finished => true | _ => false end.

(** Takes one item of queue [q] away (core/concurrency.py Queue.get): core/concurrency.py 81-93. *)
Fixpoint take (q : nat) (l : list nat) : option (list nat) :=
  match l with
  | [] => None
  | x :: r => if Nat.eqb x q then Some r
              else match take q r with Some r' => Some (x :: r') | None => None end
  end.

(** One step of pause (runnablecontroller.py:654-721), abort (602-652), resume
    (733-743) or disable (745-751, statefulcontroller.py:94-101). *)
Definition istep (i : bool) (c : choice) (s : sys) : option sys :=
  let go := set_intr i in
  let idle := set_intr i IIdle in
  match intr i s, c with
  | PRead, Next given =>
      Some match st s with
           | Finished => if given then go (IBegin (KPause Armed)) s else idle s
           | Armed => go (IBegin (KPause Armed)) s
           | _ => go (IBegin (KPause Paused)) s
           end
  | IBegin k, Next _ =>
      let orig := st s in
      let s := new_aq s in
      Some (if allowed (st s) (start_of k)
            then go (if resting orig then IIgnore k else IGet k) (stop_all (set_st (start_of k) s))
            else idle (error s))
  | IGet k, Next _ =>
      match aq s with Some q => Some (go (IWait k q) s) | None => None end
  | IWait k q, Next _ =>
      match take q (items s) with
      | Some r => Some (go (IIgnore k) (set_items r s))
      | None => None
      end
  | IWait k q, Times => Some (go (IIgnore k) s)
  | IIgnore k, Next _ =>
      Some (go (IHook k false) (match ctx s with Some _ => set_ctx (Some 0) s | None => s end))
  | IHook k false, Put => Some (go (IHook k true) (add_put false s))
  | IHook k true, Next _ =>
      Some match k with KPause _ => go (IGap false k) s | KAbort => go (IEnd k) s end
  | IHook k _, Fails => Some (idle (error s))
  | IGap b k, Next _ => Some (go (ISeek b k false) s)
  | ISeek false k _, Next _ => Some (go (IGap true k) s)
  | ISeek true k _, Next b => Some (go (IEnd k) (set_more b s))
  | ISeek _ k true, Aborts => Some (go IAborted s)
  | ISeek _ k _, Fails => Some (idle (error s))
  | IEnd k, Next _ =>
      Some (abortable (end_of k) (match k with KAbort => go IFalse | _ => idle end)
                      (go IAborted) idle s)
  | IAborted, Next _ => Some (put_aq idle idle s)
  | IFalse, Next _ => Some (idle (put_rq false s))
  | SBegin, Next _ =>
      Some (if allowed (st s) Running then go SPut (set_st Running s) else idle s)
  | SPut, Next _ => Some (idle (put_rq true s))
  | DBegin, Next _ =>
      Some (if allowed (st s) Disabling then go DStop (set_st Disabling s) else idle (error s))
  | DStop, Next _ => Some (go DFalse (stop_all s))
  | DFalse, Next _ => Some (go DHook (put_rq false s))
  | DHook, Next _ => Some (go DEnd s)
  | DHook, Fails => Some (idle (error s))
  | DEnd, Next _ =>
      Some (if allowed (st s) Disabled then idle (set_st Disabled s) else idle (error s))
  | _, _ => None
  end.

(** Calls that arrive, and steps of the threads: runnablecontroller.py 430-756. *)
Inductive event :=
| CallConfigure | CallRun | CallReset
| CallPause (i : bool) | CallAbort (i : bool) | CallResume (i : bool) | CallDisable (i : bool)
| Main (c : choice) | Intr (i : bool) (c : choice).

(** A call is refused unless the method is writeable in the state it finds:
    runnablecontroller.py:189-223, statefulcontroller.py:49-52, 116-121, 180-189. *)
Definition writeable (e : event) (x : bstate) : bool :=
  match e, x with
  | CallConfigure, (Ready | Finished) => true
  | CallRun, Armed => true
  | CallReset, (Fault | Disabled | Aborted | Armed | Finished) => true
  | CallPause _, (Armed | Paused | Running | Finished) => true
  | CallAbort _, (Ready | Configuring | Armed | Running | PostRun | Paused | Seeking | Finished) => true
  | CallResume _, Paused => true
  | CallDisable _, (Disabling | Disabled) => false
  | CallDisable _, _ => true
  | _, _ => false
  end.

(** A thread of run, configure or reset is free for a call: runnablecontroller.py 430-756. *)
Definition main_idle (s : sys) : bool := match main s with MIdle => true | _ => false end.
(* runnablecontroller.py 430-756. *)
Definition intr_idle (i : bool) (s : sys) : bool := match intr i s with IIdle => true | _ => false end.

(** One event.  Simplified: configure, run and reset are never in progress
    twice; at most two of pause, abort, resume and disable are: runnablecontroller.py 430-756. *)
Definition step (e : event) (s : sys) : option sys :=
  match e with
  | Main c => mstep c s
  | Intr i c => istep i c s
  | CallConfigure | CallRun | CallReset =>
      if writeable e (st s) && main_idle s
      then Some (set_main match e with
                          | CallConfigure => CValid
                          | CallRun => RStart
                          | _ => XBegin
                          end s)
      else None
  | CallPause i => if writeable e (st s) && intr_idle i s then Some (set_intr i PRead s) else None
  | CallAbort i => if writeable e (st s) && intr_idle i s then Some (set_intr i (IBegin KAbort) s) else None
  | CallResume i => if writeable e (st s) && intr_idle i s then Some (set_intr i SBegin s) else None
  | CallDisable i => if writeable e (st s) && intr_idle i s then Some (set_intr i DBegin s) else None
  end.

(** A history whose events are all possible and all allowed by [p]: runnablecontroller.py 430-756. *)
Fixpoint exec (p : event -> sys -> bool) (s : sys) (es : list event) : option sys :=
  match es with
  | [] => Some s
  | e :: r => if p e s then match step e s with Some s' => exec p s' r | None => None end
              else None
  end.
