(* The parts that look at the whole of a scan when it is validated: scanning/parts/unrollingpart.py
   30-53, scanning/parts/simultaneousaxespart.py 33-42, scanning/parts/doubletriggerpart.py 36-63, in the
   loop of scanning/controllers/runnablecontroller.py 354-416. *)
From Coq Require Import String Bool ZArith QArith List Permutation.
From Verif Require Import Base Expo_Model Dval_Model.
Import ListNotations.
Local Open Scope string_scope.
Local Open Scope list_scope.

(* set(a) == set(b) and not set(a) - set(b) (Python semantics). *)
Definition subset (a b : list string) : bool := forallb (fun x => smem x b) a.
(* unrollingpart.py 30-53. *)
Definition same_set (a b : list string) : bool := subset a b && subset b a.

(* UnrollingPart.on_validate: unrollingpart.py 30-53: the generator it asks for.  Of the excluders of a
   generator only the squashing ones are kept (see cgen); the others are copied with the rest. *)
Definition unroll (visible : bool) (axes : list string) (g : cgen) : option cgen :=
  if negb visible then None
  else if Nat.leb (length axes) 1 then None
  else if existsb (fun ex => same_set ex axes) (g_squash g) then None
  else Some (mkGen (g_gens g) (g_squash g ++ [axes]) (g_dur g)).

(* SimultaneousAxesPart.on_validate: simultaneousaxespart.py 33-42: whether the assert holds. *)
Definition simultaneous (allowed : list string) (axes : list string) : bool := subset axes allowed.

(* DoubleTriggerPart.on_validate: doubletriggerpart.py 46-63: detectors is None or a table (a table is true
   also when it has no rows: its length is not that of its columns, table.py 5-49).  Whether it does not raise. *)
Definition double_trigger (mri : string) (detectors : option (list drow)) : bool :=
  match detectors with
  | None => false
  | Some rows => forallb (fun r => negb (String.eqb (r_mri r) mri && r_enable r && negb (Z.eqb (r_frames r) 2))) rows
  end.

(* The other parts of the scan: what each of them answers for a generator: an exception, or the duration
   it wants (exposuredeadtimepart.py 84-102, pmacchildpart.py 136-192, detectordriverpart.py 266-301,
   reframepluginpart.py 38-53, pandapulsetriggerpart.py 69-84; all of them copy the generator with
   another duration). *)
Definition asker := cgen -> result string (option Q).
(* The parts of a scan: runnablecontroller.py 354-416. *)
Record parts := mkParts {
  u_visible : bool; (* an UnrollingPart *)
  u_allowed : option (list string); (* a SimultaneousAxesPart *)
  u_double : option string; (* a DoubleTriggerPart, with child.detector *)
  u_others : list asker
}.
(* The answers of the other parts: runnablecontroller.py 380-384. *)
Fixpoint answers (os : list asker) (g : cgen) : result string (list cgen) :=
  match os with
  | [] => Ok []
  | o :: r => match o g, answers r g with
              | Ok None, Ok l => Ok l
              | Ok (Some d), Ok l => Ok (mkGen (g_gens g) (g_squash g) d :: l)
              | Err e, _ => Err e
              | _, Err e => Err e
              end
  end.
(* The hooks of all parts: runnablecontroller.py 380-387: the generators they ask for. *)
Definition round (p : parts) (axes : list string) (detectors : option (list drow)) (g : cgen) : result string (list cgen) :=
  if match u_allowed p with Some al => simultaneous al axes | None => true end
  then if match u_double p with Some mri => double_trigger mri detectors | None => true end
       then match answers (u_others p) g with
            | Ok l => Ok (match unroll (u_visible p) axes g with Some x => x :: l | None => l end)
            | Err e => Err e
            end
       else Err "frames per step"
  else Err "axes".
(* How validate ends: runnablecontroller.py 384-416. *)
Inductive uout := Settled (g : cgen) | NotConsistent | Refused (e : string).
(* The loop, with the iterations left: runnablecontroller.py 362, 372-416; the tweaks come in the order in
   which the parts answered, which is any (core/hook.py 122-163). *)
Inductive validates (p : parts) (axes : list string) (detectors : option (list drow)) : nat -> cgen -> uout -> Prop :=
| U_none g : validates p axes detectors 0 g NotConsistent
| U_fail n g e : round p axes detectors g = Err e -> validates p axes detectors (S n) g (Refused e)
| U_done n g : round p axes detectors g = Ok [] -> validates p axes detectors (S n) g (Settled g)
| U_again n g l x xs o : round p axes detectors g = Ok l -> Permutation l (x :: xs) ->
    validates p axes detectors n (resolve x xs) o -> validates p axes detectors (S n) g o.
