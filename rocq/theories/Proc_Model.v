(* A process: which controllers are told of which, and what stop waits for.
   /repo/malcolm/core/process.py, /repo/malcolm/core/concurrency.py. *)
From Coq Require Import String Bool Arith List.
From Verif Require Import Base.
Import ListNotations.
Local Open Scope list_scope.
Local Open Scope nat_scope.

(* ---- the tree of controllers ---- *)
(* self._controllers: process.py 69, each with the mris of its parts that have one (part.mri, childpart.py
   117); parts without one put None in is_child, which no controller has as mri. *)
Definition controllers := dict (list string).

(* add_controller of _publish_controllers: process.py 108-118.  [tree] are the keys of the tree in order; the
   dict of the children of a controller is one object, so that it is known from the mri (see kids).  [fuel]
   bounds the depth; None where it runs out (it does not, see Proc_Props). *)
Fixpoint add_tree (fuel : nat) (cs : controllers) (mri : string) (parts : list string)
                  (acc : list string * list string) : option (list string * list string) :=
  match fuel with
  | O => None
  | S n =>
    fold_left (fun acc p =>
      match acc with
      | None => None
      | Some (tree, is_child) =>
        let is_child := p :: is_child in
        if smem p tree then Some (tree, is_child)
        else match dget p cs with
             | Some parts' => add_tree n cs p parts' (tree, is_child)
             | None => Some (tree, is_child)
             end
      end) parts (Some (fst acc ++ [mri], snd acc))
  end.
(* The loop: process.py 120-122. *)
Definition make_tree (cs : controllers) : option (list string * list string) :=
  fold_left (fun acc c =>
    match acc with
    | None => None
    | Some (tree, is_child) =>
      if smem (fst c) is_child then Some (tree, is_child)
      else add_tree (S (length cs)) cs (fst c) (snd c) (tree, is_child)
    end) cs (Some ([], [])).
(* The keys of children: process.py 109-117. *)
Definition kids (cs : controllers) (mri : string) : list string :=
  match dget mri cs with
  | None => []
  | Some parts => fold_left (fun l p => if smem p l then l else l ++ [p]) (filter (fun p => dmem p cs) parts) []
  end.
(* walk: process.py 126-136; [limit] is how deep calls may be nested, None is the RecursionError. *)
Fixpoint walk (limit : nat) (cs : controllers) (unpublished not_here level published : list string)
  : option (list string) :=
  match limit with
  | O => None
  | S n =>
    let here := filter (fun k => negb (smem k not_here)) level in
    fold_left (fun acc k =>
      match acc with
      | None => None
      | Some p => match kids cs k with
                  | [] => Some p
                  | ks => walk n cs unpublished [] ks p
                  end
      end) here
      (Some (fold_left (fun p k => if smem k p || smem k unpublished then p else p ++ [k]) here published))
  end.
(* _publish_controllers: process.py 104-140: the list that is given to the hook. *)
Definition publish (limit : nat) (cs : controllers) (unpublished : list string) : option (list string) :=
  match make_tree cs with
  | None => None
  | Some (tree, is_child) => walk limit cs unpublished is_child tree []
  end.

(* ---- starting, adding, stopping ---- *)
(* process.py 20-24. *)
Inductive pstate := Stopped | Starting | Started | Stopping.
(* process.py 66-73: p_hooked are the controllers that the start hook is running on in start, p_ran those that
   have had it, p_told the last list given to the controllers by the publish hook since the last stop. *)
Record proc := mkP { p_state : pstate; p_cs : controllers; p_unpub : list string; p_hooked : list string;
                     p_ran : list string; p_told : list string }.
(* __init__: process.py 66-73. *)
Definition proc0 : proc := mkP Stopped [] [] [] [] [].
(* The loop of add_controllers: process.py 224-229; true where the assert raised. *)
Fixpoint register (cs : controllers) (l : list (string * list string)) : controllers * bool :=
  match l with
  | [] => (cs, false)
  | (m, parts) :: r => if dmem m cs then (cs, true) else register (dset m parts cs) r
  end.
(* What is called.  start is two steps, as controllers may be added while it waits for the hooks (pandas add
   their blocks so).  [silent] tells which controllers answer the start hook with UnpublishedInfo of their
   mri (proxycontroller.py 48). *)
Inductive pev := StartBegin | StartEnd (silent : string -> bool)
               | Add (l : list (string * list string)) (silent : string -> bool) | StopAll.
(* _publish_controllers with its effect; the exception leaves all as it is: process.py 104-140. *)
Definition do_publish (limit : nat) (p : proc) : proc * bool :=
  match publish limit (p_cs p) (p_unpub p) with
  | None => (p, true)
  | Some l => (mkP (p_state p) (p_cs p) (p_unpub p) (p_hooked p) (p_ran p) l, false)
  end.
(* start (75-87), add_controllers (213-233), stop (160-187, where all that is waited for ends in time);
   with whether it raised.  _start_controllers: 89-102; in start its list is a view of the controllers, so
   that those added while it waited count: process.py 75-233. *)
Definition pstep (limit : nat) (e : pev) (p : proc) : proc * bool :=
  match e with
  | StartBegin => match p_state p with
                  | Stopped => (mkP Starting (p_cs p) (p_unpub p) (dkeys (p_cs p)) (p_ran p) (p_told p), false)
                  | _ => (p, true)
                  end
  | StartEnd silent =>
    match p_state p with
    | Starting =>
      let new := filter silent (p_hooked p) in
      let p1 := mkP Starting (p_cs p) (p_unpub p ++ new) [] (p_ran p ++ p_hooked p) (p_told p) in
      let '(p2, raised) := if Nat.ltb (length new) (length (p_cs p)) then do_publish limit p1 else (p1, false) in
      if raised then (p2, true)
      else (mkP Started (p_cs p2) (p_unpub p2) (p_hooked p2) (p_ran p2) (p_told p2), false)
    | _ => (p, true)
    end
  | Add l silent =>
    let '(cs, raised) := register (p_cs p) l in
    let p1 := mkP (p_state p) cs (p_unpub p) (p_hooked p) (p_ran p) (p_told p) in
    if raised then (p1, true)
    else match p_state p with
         | Stopped => (p1, false)
         | st =>
           let new := filter silent (map fst l) in
           let p2 := mkP st cs (p_unpub p ++ new) (p_hooked p) (p_ran p ++ map fst l) (p_told p) in
           match st with
           | Started => if Nat.ltb (length new) (length l) then do_publish limit p2 else (p2, false)
           | _ => (p2, false)
           end
         end
  | StopAll => match p_state p with
               | Started => (mkP Stopped [] [] [] [] [], false)
               | _ => (p, true)
               end
  end.
(* Steps one after the other; None where one raised: process.py 75-233. *)
Fixpoint psteps (limit : nat) (es : list pev) (p : proc) : option proc :=
  match es with
  | [] => Some p
  | e :: r => match pstep limit e p with (p', false) => psteps limit r p' | (_, true) => None end
  end.

(* ---- spawned functions ---- *)
(* Where stop is: not running, in its hooks, or in its for loop (process.py 171): the list object that it goes
   through, the index, and whether this object is still self._spawned. *)
Inductive phase := Idle | InHooks | InLoop (l : list nat) (i : nat) (same : bool).
(* What is known of the spawned functions: t_done is whether each has ended, by its number; t_list is
   self._spawned, t_count is _spawn_count (process.py 72-73). *)
Record tasks := mkT { t_state : pstate; t_done : list bool; t_list : list nat; t_count : nat; t_phase : phase }.
(* SPAWN_CLEAR_COUNT: process.py 17-18. *)
Definition SPAWN_CLEAR_COUNT : nat := 1000.
(* What can happen: TStart is the start, TSpawn a call of spawn from anywhere, TEnd n the end of function n,
   TStop the call of stop, TLoop the end of its hooks, TNext that wait returns, TTimeout that it times out,
   TStopEnd that the loop is at its end: process.py 75-212. *)
Inductive tev := TStart | TSpawn | TEnd (n : nat) | TStop | TLoop | TNext | TTimeout | TStopEnd.
(* l[n] = True (Python semantics): process.py 189-212. *)
Fixpoint set_done (n : nat) (l : list bool) : list bool :=
  match l, n with
  | [], _ => []
  | _ :: r, O => true :: r
  | b :: r, S n => b :: set_done n r
  end.
(* s.ready(): concurrency.py 59-61. *)
Definition ready (l : list bool) (n : nat) : bool := nth n l false.
(* spawn: process.py 189-211 with _clear_spawn_list; None is the AssertionError. *)
Definition spawn (t : tasks) : option tasks :=
  match t_state t with
  | Stopped => None
  | _ =>
    let n := length (t_done t) in
    let done := t_done t ++ [false] in
    let l := t_list t ++ [n] in
    let ph := match t_phase t with InLoop l0 i true => InLoop (l0 ++ [n]) i true | x => x end in
    if Nat.ltb SPAWN_CLEAR_COUNT (t_count t + 1)
    then Some (mkT (t_state t) done (filter (fun k => negb (ready done k)) l) 0
                   (match ph with InLoop l0 i _ => InLoop l0 i false | x => x end))
    else Some (mkT (t_state t) done l (t_count t + 1) ph)
  end.
(* A step; None where it can not happen (or is refused by an assert): start 75-87, stop process.py 160-187. *)
Definition tstep (e : tev) (t : tasks) : option tasks :=
  match e, t_phase t with
  | TStart, _ => match t_state t with
                 | Stopped => Some (mkT Started (t_done t) (t_list t) (t_count t) (t_phase t))
                 | _ => None
                 end
  | TSpawn, _ => spawn t
  | TEnd n, _ => Some (mkT (t_state t) (set_done n (t_done t)) (t_list t) (t_count t) (t_phase t))
  | TStop, _ => match t_state t with
                | Started => Some (mkT Stopping (t_done t) (t_list t) (t_count t) InHooks)
                | _ => None
                end
  | TLoop, InHooks => Some (mkT (t_state t) (t_done t) (t_list t) (t_count t) (InLoop (t_list t) 0 true))
  | TNext, InLoop l i same =>
    match nth_error l i with
    | Some n => if ready (t_done t) n
                then Some (mkT (t_state t) (t_done t) (t_list t) (t_count t) (InLoop l (S i) same))
                else None
    | None => None
    end
  | TTimeout, InLoop l i _ =>
    match nth_error l i with
    | Some n => if ready (t_done t) n then None
                else Some (mkT (t_state t) (t_done t) (t_list t) (t_count t) Idle)
    | None => None
    end
  | TStopEnd, InLoop l i _ =>
    if Nat.leb (length l) i then Some (mkT Stopped (t_done t) [] (t_count t) Idle) else None
  | _, _ => None
  end.
(* Steps one after the other: process.py 75-212. *)
Fixpoint tsteps (es : list tev) (t : tasks) : option tasks :=
  match es with
  | [] => Some t
  | e :: r => match tstep e t with Some t' => tsteps r t' | None => None end
  end.
(* __init__: process.py 66-73. *)
Definition tasks0 : tasks := mkT Stopped [] [] 0 Idle.

(* ---- waiting for one spawned function ---- *)
(* Spawned: concurrency.py 23-69: whether _result is set, the items in the result queue, the threads that
   are waiting in Queue.get, and those for which wait has returned. *)
Record sp := mkS { w_result : bool; w_put : bool; w_items : nat; w_waiting : list nat; w_back : list nat }.
(* The function ends and _result is set (concurrency.py 36-47), None is put in the queue (53), thread i calls wait (55-58), a
   thread that waits times out. *)
Inductive wev := WResult | WPut | WWait (i : nat) | WTimeout (i : nat).
(* A step: concurrency.py 36-58.  Signal wakes the one that has waited longest (cothread EventQueue). *)
Definition wstep (e : wev) (s : sp) : option sp :=
  match e with
  | WResult => if w_result s then None else Some (mkS true (w_put s) (w_items s) (w_waiting s) (w_back s))
  | WPut => if w_result s && negb (w_put s)
            then match w_waiting s with
                 | [] => Some (mkS true true (S (w_items s)) [] (w_back s))
                 | i :: r => Some (mkS true true (w_items s) r (w_back s ++ [i]))
                 end
            else None
  | WWait i => if existsb (Nat.eqb i) (w_waiting s) then None
               else if w_result s then Some (mkS true (w_put s) (w_items s) (w_waiting s) (w_back s ++ [i]))
               else match w_items s with
                    | O => Some (mkS (w_result s) (w_put s) O (w_waiting s ++ [i]) (w_back s))
                    | S n => Some (mkS (w_result s) (w_put s) n (w_waiting s) (w_back s ++ [i]))
                    end
  | WTimeout i => if existsb (Nat.eqb i) (w_waiting s)
                  then Some (mkS (w_result s) (w_put s) (w_items s)
                                 (filter (fun k => negb (Nat.eqb k i)) (w_waiting s)) (w_back s))
                  else None
  end.
(* Steps one after the other: concurrency.py 36-58. *)
Fixpoint wsteps (es : list wev) (s : sp) : option sp :=
  match es with
  | [] => Some s
  | e :: r => match wstep e s with Some s' => wsteps r s' | None => None end
  end.
(* __init__: concurrency.py 28-34. *)
Definition sp0 : sp := mkS false false 0 [] [].
