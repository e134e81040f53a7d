(* What users of a context rely on. *)
From Coq Require Import Bool Arith Lia List.
From Verif Require Import Ctx_Model.
Import ListNotations.

(* the requests made, each with its id and its future, in order *)
Definition made_of (ev : list event) : list (nat * nat) :=
  flat_map (fun e => match e with Dispatched _ id f | NoController _ id f => [(id, f)] | _ => [] end) ev.
(* the futures resolved, in order *)
Definition resolved_of (ev : list event) : list (nat * fstate) :=
  flat_map (fun e => match e with Resolved f s => [(f, s)] | _ => [] end) ev.
(* the messages taken off the queue, in order *)
Definition taken_of (ev : list event) : list msg :=
  flat_map (fun e => match e with Took m => [m] | _ => [] end) ev.

(* everything that was placed on the context: responses, stops, requests to ignore stops *)
Inductive placed := PResponse (m : msg) | PStop | PIgnore.
Definition placed_of (ops : list op) : list placed :=
  flat_map (fun o => match o with
                     | Stop => [PStop]
                     | Ignore => [PIgnore]
                     | Arrive (MStop | MSentinel _) => []
                     | Arrive m => [PResponse m]
                     | _ => [] end) ops.
(* that message is that placed thing *)
Definition is_placed (m : msg) (p : placed) : Prop :=
  match m, p with
  | MStop, PStop => True
  | MSentinel _, PIgnore => True
  | MStop, _ | MSentinel _, _ => False
  | m, PResponse m' => m = m'
  | _, _ => False
  end.

(* the answer that fills a future, from a message *)
Definition answer (m : msg) : option (nat * fstate) :=
  match m with
  | MReturn id v => Some (id, Result v)
  | MError id e => Some (id, Failed e)
  | _ => None
  end.

(* waits and sleeps are only started by the main code, never by a callback *)
Definition flat (ops : list op) : Prop :=
  forall pre o post, ops = pre ++ o :: post -> (o = Sleep \/ exists fs, o = Wait fs) ->
    c_stack (fst (run c_init pre)) = [].

(* the subscriptions made, by id; those ended; the calls of their callbacks *)
Definition subscribed_of (ev : list event) : list nat :=
  flat_map (fun e => match e with Dispatched Subscribe id _ | NoController Subscribe id _ => [id] | _ => [] end) ev.
(* ... ended *)
Definition unsubscribed_of (ev : list event) : list nat :=
  flat_map (fun e => match e with UnsubSent id | UnsubGone id => [id] | _ => [] end) ev.
(* ... called *)
Definition called_of (ev : list event) : list (nat * nat) :=
  flat_map (fun e => match e with Called id v => [(id, v)] | _ => [] end) ev.
