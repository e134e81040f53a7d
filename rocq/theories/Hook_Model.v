(* Model of hooks: /repo/malcolm/core/hook.py, core/concurrency.py (Spawned),
   core/controller.py run_hooks, builtin/hooks.py (ControllerHook). *)
From Coq Require Import Bool Arith List.
From Verif Require Import Ctx_Model.
Import ListNotations.

(* hook.py 58: what a part has registered, hook class -> (function, names of the arguments it
   demands); classes, functions and argument names are numbers *)
Definition hooked := ndict (nat * list nat).
(* hook.py 60-81, register_hooked with args_gen giving args *)
Definition register (hks : list nat) (func : nat) (args : list nat) (d : hooked) : hooked :=
  fold_left (fun d h => nset h (func, args) d) hks d.

(* hook.py 102-109: a hook, made for one part (its name and what it has registered), with the
   names of the arguments supplied; hooks are told apart by h_id (identity in Python) *)
Record hook := mkH { h_id : nat; h_class : nat; h_name : nat; h_hooked : hooked; h_supplied : list nat }.

(* hook.py 83-93 on_hook, and 126-143 __call__: None: nothing registered; Some None: the assert
   on the arguments (138) fails; Some (Some f): f is spawned.  The hooks are new, so the assert
   130 holds; prepare is in Ctx_Model (ignore_stops) *)
Definition on_hook (h : hook) : option (option nat) :=
  match nget (h_class h) (h_hooked h) with
  | None => None
  | Some (f, demanded) =>
    if forallb (fun a => nin a (h_supplied h)) demanded then Some (Some f) else Some None
  end.
(* hook.py 172-182, start_hooks: the hooks spawned, and whether an assert was raised *)
Fixpoint start_hooks (hs : list hook) : list hook * bool :=
  match hs with
  | [] => ([], false)
  | h :: r =>
    match on_hook h with
    | None => start_hooks r
    | Some None => ([], true)
    | Some (Some _) => let (sp, e) := start_hooks r in (h :: sp, e)
    end
  end.

(* hook.py 145-159: what _run puts on the queue: the return, an AbortedError, another error *)
Inductive ret := Value (v : nat) | Abort | Fault (n : nat).
(* hook.py 232: isinstance(ret, Exception) *)
Definition is_exn (r : ret) : bool := match r with Value _ => false | _ => true end.

(* a thread that runs a hook: in the function; has put its result (159); has returned
   (concurrency.py 38-53) *)
Inductive thread := Working | Put | Exited.
(* hook.py 185-242: where the caller is.  Getting: at the get (206); Joining: has (hook, ret),
   at the wait 210; Winding: error e found, at the wait 239 of the first of the list; Done *)
Inductive outcome := Returned (d : ndict (option ret)) | Raised (e : ret) | TimedOut.
(* the place of the caller, see above (hook.py 204-242) *)
Inductive place := Getting | Joining (h : nat) (r : ret) | Winding (todo : list nat) (e : ret) | Done (o : outcome).

(* the locals of wait_hooks, and the threads: core/hook.py 185-240 *)
Record waiter := mkV {
  v_threads : ndict thread;
  v_queue : list (nat * ret);
  v_left : list nat;            (* hook_spawned_set *)
  v_dict : ndict (option ret);  (* return_dict, by name *)
  v_place : place
}.
(* hook.py 195-203: just called *)
Definition v_init (spawned : list hook) : waiter :=
  mkV (map (fun h => (h_id h, Working)) spawned) [] (map h_id spawned)
      (fold_left (fun d h => nset (h_name h) None d) spawned [])
      (match spawned with [] => Done (Returned []) | _ => Getting end).

(* what can be seen: a hook's function ended with r; h.stop() was called (236): core/hook.py 145-159, 236 *)
Inductive event := Finished (h : nat) (r : ret) | Stopped (h : nat).
(* threads end (End, Exit) when they like; the caller goes on (Go), or its wait for a thread
   times out (Late): core/hook.py 145-240, core/concurrency.py 36-58 *)
Inductive op := End (h : nat) (r : ret) | Exit (h : nat) | Go | Late.

(* the thread of h has returned: spawned.wait returns at once (concurrency.py 55-58) *)
Definition exited (w : waiter) (h : nat) : bool :=
  match nget h (v_threads w) with Some Exited => true | _ => false end.
(* the name of a hook's part (hook.child.name): core/hook.py 103-104, 185-240 *)
Definition name_of (spawned : list hook) (id : nat) : nat :=
  match find (fun h => Nat.eqb (h_id h) id) spawned with Some h => h_name h | None => 0 end.
(* setter for the place of the caller (hook.py): core/hook.py 185-240 *)
Definition at_place (w : waiter) (p : place) : waiter :=
  mkV (v_threads w) (v_queue w) (v_left w) (v_dict w) p.

(* hook.py 232-240: ret looked at, after the wait 210; check is exception_check *)
Definition got (spawned : list hook) (check : bool) (w : waiter) (h : nat) (r : ret) : waiter * list event :=
  if is_exn r && check then
    (at_place w (Winding (map h_id spawned) r),
     match r with Abort => [] | _ => map (fun h => Stopped (h_id h)) spawned end)
  else
    let d := nset (name_of spawned h) (Some r) (v_dict w) in
    (mkV (v_threads w) (v_queue w) (v_left w) d
         (match v_left w with [] => Done (Returned d) | _ => Getting end), []).

(* one step of a thread or the caller; what can not happen leaves the state alone:
   core/hook.py 145-240, core/concurrency.py 36-58 *)
Definition vstep (spawned : list hook) (check : bool) (w : waiter) (o : op) : waiter * list event :=
  match o with
  | End h r =>
    match nget h (v_threads w) with
    | Some Working => (mkV (nset h Put (v_threads w)) (v_queue w ++ [(h, r)]) (v_left w) (v_dict w) (v_place w),
                       [Finished h r])
    | _ => (w, [])
    end
  | Exit h =>
    match nget h (v_threads w) with
    | Some Put => (mkV (nset h Exited (v_threads w)) (v_queue w) (v_left w) (v_dict w) (v_place w), [])
    | _ => (w, [])
    end
  | Go =>
    match v_place w with
    | Getting =>
      match v_queue w with
      | [] => (w, [])
      | (h, r) :: q => (mkV (v_threads w) q (rem1 h (v_left w)) (v_dict w) (Joining h r), [])
      end
    | Joining h r => if exited w h then got spawned check w h r else (w, [])
    | Winding [] e => (at_place w (Done (Raised e)), [])
    | Winding (h :: l) e => if exited w h then (at_place w (Winding l e), []) else (w, [])
    | Done _ => (w, [])
    end
  | Late =>
    match v_place w with
    | Joining h _ | Winding (h :: _) _ => if exited w h then (w, []) else (at_place w (Done TimedOut), [])
    | _ => (w, [])
    end
  end.
(* a history: core/hook.py 145-240 *)
Fixpoint vrun (spawned : list hook) (check : bool) (w : waiter) (ops : list op) : waiter * list event :=
  match ops with
  | [] => (w, [])
  | o :: r => let (w', e) := vstep spawned check w o in
              let (w'', es) := vrun spawned check w' r in (w'', e ++ es)
  end.
