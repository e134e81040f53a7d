(** Model of the parameter validation loop of a runnable block:
    /repo/malcolm/modules/scanning/controllers/runnablecontroller.py:354-416 and
    /repo/malcolm/modules/scanning/util.py:213-227.  Parameter values are
    abstract ([V]); a generator value has a duration, read by [dur] and replaced
    by [with_dur] (external library). *)
From Coq Require Import String Bool ZArith List.
From Verif Require Import Base.
Import ListNotations.
Local Open Scope Z_scope.

Section Validate.
Context {V E : Type}.
(** CompoundGenerator.duration and its setter (util.py:222-226); durations are
    modelled as integers (ticks) instead of floats. *)
Variable dur : V -> Z.
Variable with_dur : V -> Z -> V.
(** takes.elements[name].validate(value), runnablecontroller.py:394-396 and
    402-404, which may raise. *)
Variable meta : string -> V -> result E V.
(** run_hooks(ValidateHook ...) followed by filter_values
    (runnablecontroller.py:378-384): the tweaks (parameter, value) that the parts
    ask for when given these parameters, or the error one of them raises. *)
Variable parts : dict V -> result E (list (string * V)).

(** /repo/malcolm/modules/scanning/util.py:220-224: the largest duration, at
    least 0. *)
Definition largest_duration (tweaks : list (string * V)) : Z :=
  fold_left (fun m t => if m <? dur (snd t) then dur (snd t) else m) tweaks 0.

(** /repo/malcolm/modules/scanning/util.py:213-227 resolve_generator_tweaks, for
    a non-empty list given as first and rest. *)
Definition resolve_generator_tweaks (first : string * V) (rest : list (string * V)) : string * V :=
  match rest with
  | [] => first
  | _ :: _ => ("generator"%string, with_dur (snd first) (largest_duration (first :: rest)))
  end.

(** runnablecontroller.py:394-397 and 402-405: validate one tweak and set it. *)
Definition apply_tweak (t : string * V) (params : dict V) : result E (dict V) :=
  match meta (fst t) (snd t) with
  | Ok v => Ok (dset (fst t) v params)
  | Err e => Err e
  end.
(** runnablecontroller.py:401-408: all tweaks in order. *)
Fixpoint apply_tweaks (ts : list (string * V)) (params : dict V) : result E (dict V) :=
  match ts with
  | [] => Ok params
  | t :: r => match apply_tweak t params with
              | Ok p => apply_tweaks r p
              | Err e => Err e
              end
  end.

(** runnablecontroller.py:386-408: one round's tweaks, generator ones alone if
    there are any. *)
Definition apply_round (tweaks : list (string * V)) (params : dict V) : result E (dict V) :=
  match filter (fun t => String.eqb (fst t) "generator") tweaks with
  | g :: gs => apply_tweak (resolve_generator_tweaks g gs) params
  | [] => apply_tweaks tweaks params
  end.

(** How validation ends: runnablecontroller.py 384-416. *)
Inductive verdict :=
| Consistent (params : dict V)
| Raised (e : E)
| Inconsistent.

(** runnablecontroller.py:374-416: the loop; also returns the parameter sets
    the parts were asked about, in order. *)
Fixpoint validate_loop (iterations : nat) (params : dict V) : verdict * list (dict V) :=
  match iterations with
  | O => (Inconsistent, [])
  | S k =>
      match parts params with
      | Err e => (Raised e, [params])
      | Ok [] => (Consistent params, [params])
      | Ok tweaks =>
          match apply_round tweaks params with
          | Err e => (Raised e, [params])
          | Ok p => let (v, l) := validate_loop k p in (v, params :: l)
          end
      end
  end.

(** runnablecontroller.py:366-369: fill in defaults for what was not given. *)
Definition fill_defaults (defaults given : dict V) : dict V :=
  fold_left (fun p kv => if dmem (fst kv) p then p else dset (fst kv) (snd kv) p) defaults given.

(** runnablecontroller.py:354-416 validate. *)
Definition validate (defaults given : dict V) : verdict * list (dict V) :=
  validate_loop 10 (fill_defaults defaults given).
End Validate.
Arguments verdict : clear implicits.
