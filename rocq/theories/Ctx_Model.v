(* Model of the context and its futures: /repo/malcolm/core/context.py, future.py. *)
From Coq Require Import Bool Arith Lia List.
Import ListNotations.

(* a dict keyed by small numbers (Python language): ids, or futures by identity: context.py 35-38 *)
Definition ndict (A : Type) := list (nat * A).
(* d.get(k) (Python language): context.py 35-38, 336, 342 *)
Fixpoint nget {A} (k : nat) (d : ndict A) : option A :=
  match d with [] => None | (k', v) :: r => if Nat.eqb k k' then Some v else nget k r end.
(* d[k] = v (Python language): context.py 85-86 *)
Fixpoint nset {A} (k : nat) (v : A) (d : ndict A) : ndict A :=
  match d with
  | [] => [(k, v)]
  | (k', v') :: r => if Nat.eqb k k' then (k', v) :: r else (k', v') :: nset k v r
  end.
(* d.pop(k, None) (Python language): context.py 205, 368-425 *)
Fixpoint npop {A} (k : nat) (d : ndict A) : ndict A :=
  match d with
  | [] => []
  | (k', v') :: r => if Nat.eqb k k' then r else (k', v') :: npop k r
  end.
(* k in d (Python language): context.py 221, 368-425 *)
Definition nmem {A} (k : nat) (d : ndict A) : bool :=
  match nget k d with Some _ => true | None => false end.
(* k in l (Python language): context.py 303-308 *)
Definition nin (k : nat) (l : list nat) : bool := existsb (Nat.eqb k) l.
(* l.remove(k), unchanged where that raises ValueError (Python language): context.py 368-425 *)
Fixpoint rem1 (k : nat) (l : list nat) : list nat :=
  match l with [] => [] | x :: r => if Nat.eqb k x then r else x :: rem1 k r end.

(* the exceptions that can leave a wait: context.py 384, 390, 424, 406, 416; the one of a
   callback (397); Remote is the message of an Error response *)
Inductive exn := Aborted | TimedOut | KeyErr | AssertErr | Remote (n : nat) | Callback (n : nat).

(* what is on the queue: context.py 29, the responses put by set_callback(self._q.put), STOP
   (26) and the objects made by ignore_stops_before_now (100); values are numbers *)
Inductive msg :=
| MReturn (id v : nat) | MError (id e : nat) | MUpdate (id v : nat)
| MStop | MSentinel (token : nat).

(* future.py 5-88: RUNNING, or FINISHED with a result or an exception *)
Inductive fstate := Running | Result (v : nat) | Failed (e : nat).

(* request.py: the kinds sent by a context; the path is left out: core/request.py 87-143 *)
Inductive kind := Put | Post | Subscribe.

(* who is running: a wait (context.py 272-318) that was asked for `asked` and still waits for
   `todo`, a sleep (320-331), or the callback of a subscription (397) called from the frame
   below.  The code that uses the context, and that of the callbacks, is not modelled: it may
   do anything, so it is the list of operations *)
Inductive frame := FWait (asked todo : list nat) | FSleep | FCall.

(* context.py 28-40; c_state is the state of every future made (future.py), c_made their
   number (a future is its number), c_tokens the number of sentinel objects made *)
Record ctx := mkC {
  c_q : list msg;
  c_next : nat;
  c_futures : ndict nat;
  c_subs : ndict unit;
  c_requests : ndict (kind * nat);
  c_pending : ndict unit;
  c_sentinel : option nat;
  c_state : ndict fstate;
  c_made : nat;
  c_tokens : nat;
  c_stack : list frame
}.
(* context.py 28-40 *)
Definition c_init : ctx := mkC [] 1 [] [] [] [] None [] 0 0 [].

(* what can be seen: a request dispatched to its controller (90), or one whose controller is
   not there (87, ValueError); an Unsubscribe sent (214) or not (212); an operation that raised; a message
   taken off the queue (382); a callback called (397); a future resolved (410, 418); a wait that
   returned or raised; a sleep that returned: context.py 83-91, 193-214 *)
Inductive event :=
| Dispatched (k : kind) (id f : nat)
| NoController (k : kind) (id f : nat)
| UnsubSent (id : nat) | UnsubGone (id : nat)
| Refused (e : exn)
| Took (m : msg)
| Called (id v : nat)
| Resolved (f : nat) (s : fstate)
| WaitDone (asked : list nat)
| WaitRaised (asked : list nat) (e : exn)
| SleepDone
| SleepRaised (e : exn).

(* setters, for the updates of the attributes of self: context.py 29 *)
Definition upd_q (c : ctx) q := mkC q (c_next c) (c_futures c) (c_subs c) (c_requests c)
  (c_pending c) (c_sentinel c) (c_state c) (c_made c) (c_tokens c) (c_stack c).
(* setter (context.py, control stack): context.py 272-331, the calls that are in progress *)
Definition upd_stack (c : ctx) s := mkC (c_q c) (c_next c) (c_futures c) (c_subs c)
  (c_requests c) (c_pending c) (c_sentinel c) (c_state c) (c_made c) (c_tokens c) s.
(* setter (context.py 386) *)
Definition upd_sentinel (c : ctx) s := mkC (c_q c) (c_next c) (c_futures c) (c_subs c)
  (c_requests c) (c_pending c) s (c_state c) (c_made c) (c_tokens c) (c_stack c).

(* context.py 68-71, 83-91, 107-191: put_async, post_async, subscribe; there: get_controller
   finds it *)
Definition request (c : ctx) (k : kind) (there : bool) : ctx * list event :=
  let id := c_next c in
  let f := c_made c in
  let c' := mkC (c_q c) (S id) (nset id f (c_futures c))
                (match k with Subscribe => nset id tt (c_subs c) | _ => c_subs c end)
                (nset f (k, id) (c_requests c)) (c_pending c) (c_sentinel c)
                (nset f Running (c_state c)) (S f) (c_tokens c) (c_stack c) in
  (c', [if there then Dispatched k id f else NoController k id f]).

(* context.py 193-214, unsubscribe *)
Definition unsubscribe (c : ctx) (f : nat) (there : bool) : ctx * list event :=
  if nmem f (c_pending c) then (c, [Refused AssertErr])
  else match nget f (c_requests c) with
       | None => (c, [Refused KeyErr])
       | Some (_, id) =>
         let c' subs := mkC (c_q c) (c_next c) (c_futures c) subs (c_requests c)
                            (nset f tt (c_pending c)) (c_sentinel c) (c_state c) (c_made c)
                            (c_tokens c) (c_stack c) in
         if nmem id (c_subs c)
         then (c' (npop id (c_subs c)), [if there then UnsubSent id else UnsubGone id])
         else (c' (c_subs c), [Refused KeyErr])  (* 205 *)
       end.

(* context.py 98-101, ignore_stops_before_now *)
Definition ignore_stops (c : ctx) : ctx :=
  let t := c_tokens c in
  mkC (c_q c ++ [MSentinel t]) (c_next c) (c_futures c) (c_subs c) (c_requests c) (c_pending c)
      (Some t) (c_state c) (c_made c) (S t) (c_stack c).

(* context.py 402-404: the list is changed while it is iterated over, by index (Python
   language) *)
Fixpoint sweep (fuel i : nat) (keep : nat -> bool) (l : list nat) : list nat :=
  match fuel with
  | O => l
  | S n => match nth_error l i with
           | None => l
           | Some x => if keep x then sweep n (S i) keep l else sweep n (S i) keep (rem1 x l)
           end
  end.

(* end of the loop 311 of a wait: it returns when nothing is left; a sleep goes on (328):
   context.py 311-318, 328-331 *)
Definition resume (c : ctx) (fr : frame) (below : list frame) : ctx * list event :=
  match fr with
  | FWait asked [] => (upd_stack c below, [WaitDone asked])
  | _ => (upd_stack c (fr :: below), [])
  end.
(* an exception leaves the wait or sleep: context.py 304-306, 330-331, 368-425 *)
Definition leave (c : ctx) (fr : frame) (below : list frame) (e : exn) : ctx * list event :=
  (upd_stack c below, match fr with
                      | FWait asked _ => [WaitRaised asked e]
                      | _ => [SleepRaised e]
                      end).
(* the list `futures` of _service_futures (329: [] in a sleep): context.py 311, 318, 329 *)
Definition todo_of (fr : frame) : list nat := match fr with FWait _ t => t | _ => [] end.
(* the frame with that list changed: context.py 301-318 *)
Definition set_todo (fr : frame) (t : list nat) : frame :=
  match fr with FWait a _ => FWait a t | _ => fr end.
(* context.py 402-404 on the list of a frame *)
Definition filtered (c : ctx) (fr : frame) : frame :=
  set_todo fr (sweep (length (todo_of fr)) 0 (fun f => nmem f (c_requests c)) (todo_of fr)).

(* context.py 406-410, 416-418: the future is taken out and filled *)
Definition resolve (c : ctx) (id : nat) (s : fstate) : option (ctx * nat) :=
  match nget id (c_futures c) with
  | None => None
  | Some f =>
    Some (mkC (c_q c) (c_next c) (npop id (c_futures c)) (c_subs c) (npop f (c_requests c))
              (match s with Failed _ => c_pending c | _ => npop f (c_pending c) end)
              (c_sentinel c) (nset f s (c_state c)) (c_made c) (c_tokens c) (c_stack c), f)
  end.
(* context.py 368-424, _service_futures with a message m taken; c already has it taken off, fr
   is the frame that services (`del self._requests[future]` always finds it, proved) *)
Definition service (c : ctx) (fr : frame) (below : list frame) (m : msg) : ctx * list event :=
  match m with
  | MSentinel t =>
    match c_sentinel c with
    | Some t' => if Nat.eqb t t' then resume (upd_sentinel c None) fr below
                 else resume c fr below
    | None => resume c fr below
    end
  | MStop => match c_sentinel c with
             | None => leave c fr below Aborted
             | Some _ => resume c fr below
             end
  | MUpdate id v =>
    if nmem id (c_subs c)
    then (upd_stack c (FCall :: fr :: below), [Called id v])
    else resume c (filtered c fr) below
  | MReturn id v =>
    match resolve c id (Result v) with
    | None => leave c fr below KeyErr
    | Some (c', f) =>
      let (c'', o) := resume c' (set_todo fr (rem1 f (todo_of fr))) below in
      (c'', Resolved f (Result v) :: o)
    end
  | MError id e =>
    match resolve c id (Failed e) with
    | None => leave c fr below KeyErr
    | Some (c', f) =>
      if nin f (todo_of fr)
      then let (c'', o) := leave c' fr below (Remote e) in (c'', Resolved f (Failed e) :: o)
      else let (c'', o) := resume c' fr below in (c'', Resolved f (Failed e) :: o)
    end
  end.

(* context.py 301-308: the futures that are not done; the exception of one that failed *)
Fixpoint not_done (st : ndict fstate) (fs : list nat) : nat + list nat :=
  match fs with
  | [] => inr []
  | f :: r => match nget f st with
              | Some (Failed e) => inl e
              | Some (Result _) => not_done st r
              | _ => match not_done st r with inl e => inl e | inr l => inr (f :: l) end
              end
  end.

(* what the code using the context, its callbacks, the controllers and time can do: context.py 98-331 *)
Inductive op :=
| Request (k : kind) (there : bool)
| Unsub (f : nat) (there : bool)
| Stop
| Ignore
| Arrive (m : msg)
| Wait (fs : list nat)
| Sleep
| Service
| Timeout
| CallReturn
| CallRaise (n : nat).

(* one step.  A response arrives (Arrive; STOP and sentinels only by Stop, Ignore); Service:
   the wait on top of the stack takes the next message; Timeout: it finds none in time
   (383-384, and 330 for a sleep); CallReturn, CallRaise: the callback on top ends.
   Requests and waits can be made by the code on top, so not while a wait is on top (nothing
   then runs in this thread).  What can not happen leaves the state alone: context.py 98-425 *)
Definition step (c : ctx) (o : op) : ctx * list event :=
  let user := match c_stack c with FWait _ _ :: _ | FSleep :: _ => false | _ => true end in
  match o with
  | Request k there => if user then request c k there else (c, [])
  | Unsub f there => if user then unsubscribe c f there else (c, [])
  | Stop => (upd_q c (c_q c ++ [MStop]), [])
  | Ignore => (ignore_stops c, [])
  | Arrive m => match m with
                | MStop | MSentinel _ => (c, [])
                | _ => (upd_q c (c_q c ++ [m]), [])
                end
  | Wait fs =>
    if user && forallb (fun f => nmem f (c_state c)) fs then
      match not_done (c_state c) fs with
      | inl e => (c, [WaitRaised fs (Remote e)])
      | inr [] => (c, [WaitDone fs])
      | inr l => (upd_stack c (FWait fs l :: c_stack c), [])
      end
    else (c, [])
  | Sleep => if user then (upd_stack c (FSleep :: c_stack c), []) else (c, [])
  | Service =>
    match c_stack c, c_q c with
    | FWait a t :: below, m :: q =>
      let (c', o) := service (upd_q c q) (FWait a t) below m in (c', Took m :: o)
    | FSleep :: below, m :: q =>
      let (c', o) := service (upd_q c q) FSleep below m in (c', Took m :: o)
    | _, _ => (c, [])
    end
  | Timeout =>
    match c_stack c, c_q c with
    | FWait a _ :: below, [] => (upd_stack c below, [WaitRaised a TimedOut])
    | FSleep :: below, [] => (upd_stack c below, [SleepDone])
    | _, _ => (c, [])
    end
  | CallReturn =>
    match c_stack c with
    | FCall :: fr :: below => resume c (filtered c fr) below
    | _ => (c, [])
    end
  | CallRaise n =>
    match c_stack c with
    | FCall :: fr :: below => leave c fr below (Callback n)
    | _ => (c, [])
    end
  end.

(* a history: the state reached and everything seen: context.py 98-425 *)
Fixpoint run (c : ctx) (ops : list op) : ctx * list event :=
  match ops with
  | [] => (c, [])
  | o :: r => let (c', e) := step c o in let (c'', es) := run c' r in (c'', e ++ es)
  end.

(* context.py 427-469, When.  w_future: self.future is still set; the value is compared with
   good and bad (436-439), or a function decides (431-432), which may raise *)
Record when := mkW { w_armed : bool; w_last : option nat }.
(* context.py 436-439: condition_satisfied for a value; None: raises BadValueError *)
Definition equals (good : nat) (bad : list nat) (v : nat) : option bool :=
  if nin v bad then None else Some (Nat.eqb v good).
(* context.py 451-469, __call__: unsubscribes or not, raises or not *)
Definition when_call (cond : nat -> option bool) (w : when) (v : nat) : when * (bool * bool) :=
  if w_armed w then
    match cond v with
    | None => (mkW false (Some v), (true, true))
    | Some true => (mkW false (Some v), (true, false))
    | Some false => (mkW true (Some v), (false, false))
    end
  else (w, (false, false)).
(* the values of a subscription one after the other (context.py 396-397) *)
Fixpoint when_run (cond : nat -> option bool) (w : when) (vs : list nat) : list (bool * bool) :=
  match vs with
  | [] => []
  | v :: r => let (w', o) := when_call cond w v in o :: when_run cond w' r
  end.
