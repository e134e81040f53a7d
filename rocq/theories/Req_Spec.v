(* What users of requests rely on. *)
From Coq Require Import String Bool Lia List.
From Verif Require Import Base Meta_Model Req_Model.
Import ListNotations.
Local Open Scope list_scope.

(* the requests that are to be answered with one Return or Error *)
Definition asked (os : list op) : list key :=
  flat_map (fun o => match o with
                     | Handle (Get k _ | Put k _ _ _ | Post k _ _ | Unsubscribe k) => [k]
                     | _ => [] end) os.
(* those answers *)
Definition answered (ev : list event) : list key :=
  flat_map (fun e => match e with Answer k (Return _ | Error _) => [k] | _ => [] end) ev.
(* the subscriptions asked for, and the first responses to them *)
Definition subscribed (os : list op) : list (key * bool) :=
  flat_map (fun o => match o with Handle (Subscribe k _ d) => [(k, d)] | _ => [] end) os.
(* ... the responses *)
Definition updated (ev : list event) : list (key * bool) :=
  flat_map (fun e => match e with Answer k Update => [(k, false)] | Answer k Delta => [(k, true)] | _ => [] end) ev.
(* functions that have been started and have not ended: their requests *)
Definition job_key (j : job) : key := match j with JPut k _ _ | JPost k _ _ _ => k end.

(* a field can be put to, with this value: it is a writeable attribute, something is there to
   set it, and the value fits *)
Definition may_put (s : st) (n : string) (v : pv) : Prop :=
  exists validate x y, dget n (r_block s) = Some (FAttr true validate x) /\ In n (r_funcs s) /\ validate v = Ok y.
(* ... posted to *)
Definition may_post (s : st) (n : string) (ps : list (string * pv)) : Prop :=
  exists o takes r u a c y, dget n (r_block s) = Some (FMeth o true takes r u a c) /\ In n (r_funcs s) /\
    validate_map takes ps false = Ok y.
