(** What a turnaround should be, said without the model's helpers. *)
From Coq Require Import String Bool ZArith QArith Qabs List Sorted.
From Verif Require Import Base Pmac_Model Motion_Model.
Import ListNotations.
Local Open Scope list_scope.
Local Open Scope Q_scope.

(** A velocity profile is given by nodes of time and velocity; between two nodes the acceleration is
    constant.  The motion [x] follows the profile: *)
Inductive follows (x : Q -> Q) : list (Q * Q) -> Prop :=
| follows_one : forall n, follows x [n]
| follows_more : forall t0 v0 t1 v1 l,
    (forall t, t0 <= t -> t <= t1 -> x t == x t0 + v0 * (t - t0) + (v1 - v0) / (t1 - t0) / 2 * ((t - t0) * (t - t0))) ->
    follows x ((t1, v1) :: l) -> follows x ((t0, v0) :: (t1, v1) :: l).
(** A motion is a function of the time. *)
Definition motion (x : Q -> Q) : Prop := forall s t, s == t -> x s == x t.

(** The nodes of a profile: from time 0, one after the other, to the time [T]. *)
Definition profile_to (T : Q) (l : list (Q * Q)) : Prop :=
  StronglySorted Qlt (map fst l) /\ exists t0 v0 mid t1 v1, l = (t0, v0) :: mid ++ [(t1, v1)] /\ t0 == 0 /\ t1 == T.

(** The times reached after each interval. *)
Fixpoint reached (t : Q) (intervals : list Q) : list Q :=
  match intervals with [] => [] | i :: r => (t + i) :: reached (t + i) r end.

(** Equal as rationals. *)
Definition among (t : Q) (l : list Q) : Prop := exists s, In s l /\ s == t.

(** What is taken for granted of the external package velocity_profile: the total time is that asked
    for, or what the move needs; the nodes go from the one velocity to the other in that time, over the
    distance.  [need]: the least time of a move; [longer]: the time after quantize(). *)
Definition from_to (v1 v2 : Q) (l : list (Q * Q)) : Prop := exists t0 u0 mid t1 u1, l = (t0, u0) :: mid ++ [(t1, u1)] /\ u0 == v1 /\ u1 == v2.
Definition covers (d : Q) (T : Q) (l : list (Q * Q)) : Prop := forall x, motion x -> follows x l -> x T - x 0 == d.
Record library (mvp : axis -> Q -> Q -> Q -> Q -> Q -> vprof) (need : axis -> Q -> Q -> Q -> Q) (longer : Q -> Q -> Q) : Prop := mkLib {
  lib_total : forall a v1 v2 d mt mi, let t := vp_total (mvp a v1 v2 d mt mi) in
    mt <= t /\ need a v1 v2 d <= t /\ (t == mt \/ t == need a v1 v2 d);
  lib_arrays : forall a v1 v2 d mt mi, let t := vp_total (mvp a v1 v2 d mt mi) in let l := vp_arrays (mvp a v1 v2 d mt mi) in
    profile_to t l /\ from_to v1 v2 l /\ covers d t l;
  lib_quantized : forall a v1 v2 d mt mi, let t := longer (vp_total (mvp a v1 v2 d mt mi)) mi in let l := vp_quantized (mvp a v1 v2 d mt mi) in
    profile_to t l /\ from_to v1 v2 l /\ covers d t l;
  lib_longer : forall t t' mi, t == t' -> longer t mi == longer t' mi;
  lib_longer_ge : forall t mi, t <= longer t mi }.
