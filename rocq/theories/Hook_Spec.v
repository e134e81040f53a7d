(* What users of hooks rely on. *)
From Coq Require Import Bool Arith List.
From Verif Require Import Ctx_Model Hook_Model.
Import ListNotations.

(* the results of the hooks in the order they ended *)
Definition finished_of (ev : list event) : list (nat * ret) :=
  flat_map (fun e => match e with Finished h r => [(h, r)] | _ => [] end) ev.
(* the hooks told to stop, in order *)
Definition stopped_of (ev : list event) : list nat :=
  flat_map (fun e => match e with Stopped h => [h] | _ => [] end) ev.
(* e is the first error of a list of results *)
Definition first_error (l : list (nat * ret)) (e : ret) : Prop :=
  exists before h after, l = before ++ (h, e) :: after /\
    (forall x, In x before -> exists v, snd x = Value v) /\ (forall v, e <> Value v).
(* a hook's part has a function for it *)
Definition wanted (h : hook) : bool := match nget (h_class h) (h_hooked h) with Some _ => true | None => false end.
(* ... that demands an argument which is not supplied *)
Definition demands_more (h : hook) : Prop :=
  exists f args a, nget (h_class h) (h_hooked h) = Some (f, args) /\ In a args /\ ~ In a (h_supplied h).
