(* Model of which points of a scan are taken for one straight line when its trajectory is thinned out:
   /repo/malcolm/modules/pmac/util.py.  The profile that is made with this is in Pmac_Model, where both
   functions are parameters.  Python floats are exact rationals. *)
From Coq Require Import String Bool QArith List.
From Verif Require Import Base Pmac_Model Motion_Model.
Local Open Scope Q_scope.

(* (upper - lower) / duration of one axis: pmac/util.py 156-158 *)
Definition velocity (a : string) (p : ppoint) : Q := (pt_up p a - pt_low p a) / pt_dur p.
(* all_points_same_velocities at one index, for the axes of the generator, and and_all_axes:
   pmac/util.py 140-147, 150-166; without axes all are the same *)
Definition same_pair (names : list string) (p q : ppoint) : bool :=
  forallb (fun a => isclose (velocity a p) (velocity a q)) names.
(* all_points_joined at one index: pmac/util.py 140-147, 169-185; delay is delay_after, which a ppoint
   does not have; == of floats is equality; without axes all are joined, whatever the delay *)
Definition joined_pair (delay : ppoint -> Q) (names : list string) (p q : ppoint) : bool :=
  forallb (fun a => Qeq_bool (pt_up p a) (pt_low q a) && Qeq_bool (delay p) 0) names.
