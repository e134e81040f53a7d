(* Attributes that are EPICS PVs: ca/util.py 107-177, 228-273, 276-369, ca/parts/cachoicepart.py 40-47 and
   the method of ca/parts/caactionpart.py 77-136.  cothread.catools is external. *)
From Coq Require Import String Bool ZArith QArith List.
From Verif Require Import Base.
Import ListNotations.
Local Open Scope string_scope.
Local Open Scope list_scope.

(* What catools gives: a value with its severity and raw_stamp (not there for FORMAT_CTRL), or a ca_nothing,
   whose ok is False. *)
Inductive cav (A : Type) := Got (v : A) (severity : nat) (stamp : option Z) | Nothing.
Arguments Got {A}. Arguments Nothing {A}.
(* core/alarm.py 42-82: the three alarms made in ca/util.py 112-124. *)
Inductive alarm := Alarm_ok | In_alarm (severity : nat) | Disconnected.
(* The attribute: value, alarm and time stamp; None is the time of the update (core/timestamp.py 31-34). *)
Record attr (B : Type) := mkAttr { a_value : B; a_alarm : alarm; a_ts : option Z }.
Arguments mkAttr {B}. Arguments a_value {B}. Arguments a_alarm {B}. Arguments a_ts {B}.

(* _update_value: ca/util.py 107-129, without a user callback.  [validate] is attr.meta.validate; None is
   an exception.  The value of an attribute was validated before, so set_value takes it again. *)
Definition update_value {A B} (validate : A -> option B) (v : cav A) (a : attr B) : option (attr B) :=
  match v with
  | Nothing => Some (mkAttr (a_value a) Disconnected None)
  | Got x s ts => match validate x with
                  | Some y => Some (mkAttr y (if Nat.eqb s 0 then Alarm_ok else In_alarm s) ts)
                  | None => None
                  end
  end.

(* The end of _monitor_callback: ca/util.py 156-157, 167-177: the new _update_after and how long it sleeps. *)
Definition pace (min_delta : Q) (update_after now : Q) : Q * Q :=
  let delta := now - update_after in
  if negb (Qle_bool delta min_delta) then (now + min_delta, 0)
  else if negb (Qle_bool 0 delta) then (update_after, - delta)
  else (update_after + min_delta, 0).
(* The times of the calls of _monitor_callback of one subscription can be these: cothread calls it again
   after it has returned (external): ca/util.py 155-177. *)
Fixpoint serial (min_delta update_after : Q) (free : Q) (times : list Q) : Prop :=
  match times with
  | [] => True
  | now :: r => free <= now /\ let p := pace min_delta update_after now in serial min_delta (fst p) (now + snd p) r
  end.

(* What happens to a CAAttribute: reconnect (ca/util.py 228-255) with the values that caget gave for [rbv] and [pv],
   a call of the monitor callback, a caput (257-273) with the value that caget gave after it. *)
Inductive caev (A : Type) := Connect (rbv : cav A) (pv : option (cav A)) | Update (v : cav A) | Put (rbv : cav A).
Arguments Connect {A}. Arguments Update {A}. Arguments Put {A}.
(* v.ok of a value of catools (external): ca/util.py 368. *)
Definition is_ok {A} (v : cav A) : bool := match v with Got _ _ _ => true | Nothing => false end.
(* assert_connected: ca/util.py 364-369, and the exceptions of a caget with throw. *)
Definition connected {A} (throw : bool) (vs : list (cav A)) : bool := negb throw || forallb is_ok vs.
(* One event: ca/util.py 155-166, 228-273; an exception leaves the attribute as it was.  A caget with throw raises for a Nothing. *)
Definition ca_step {A B} (validate : A -> option B) (throw : bool) (a : attr B) (e : caev A) : attr B :=
  let set v := match update_value validate v a with Some a' => a' | None => a end in
  match e with
  | Connect rbv pv => if connected throw (rbv :: match pv with Some p => [p] | None => [] end) then set rbv else a
  | Update v => set v
  | Put rbv => if connected throw [rbv] then set rbv else a
  end.

(* ---- choices ---- *)
(* CAChoicePart.caput: cachoicepart.py 43-47: l.index(x) (Python semantics), None is a ValueError. *)
Fixpoint index_of (x : string) (l : list string) : option nat :=
  match l with [] => None | y :: r => if String.eqb x y then Some 0%nat else match index_of x r with Some n => Some (S n) | None => None end end.
(* ChoiceMeta.validate of an index: core/models.py 500-545: choices_lookup[value], which has the choice at each index. *)
Definition choice_validate (choices : list string) (i : nat) : option string := nth_error choices i.

(* ---- a table of waveforms ---- *)
(* CATable: ca/util.py 276-279: the columns, ok and severity. *)
Record catable (A : Type) := mkTable { t_cols : dict A; t_ok : bool; t_severity : nat }.
Arguments mkTable {A}. Arguments t_cols {A}. Arguments t_ok {A}. Arguments t_severity {A}.
(* WaveformTableAttribute.__init__: ca/util.py 326-329. *)
Definition new_table {A} (empty : A) (names : list string) : catable A := mkTable (map (fun n => (n, empty)) names) true 0.
(* A value of one PV, ca/util.py 158-163 and 347-352.  Of a ca_nothing there is no severity: AttributeError
   (None), after the column and ok are set; what is in the column then is of no type that can be shown,
   it is left as it was here. *)
Definition table_set {A} (n : string) (v : cav A) (t : catable A) : option (catable A) :=
  match v with
  | Got x s _ => Some (mkTable (dset n x (t_cols t)) (t_ok t || true) (Nat.max (t_severity t) s))
  | Nothing => None
  end.
(* _update_value for a CATable: ca/util.py 107-129; the columns are taken as they are, and the time stamp, that of the value, is left out. *)
Definition show_table {A} (t : catable A) (a : attr (dict A)) : attr (dict A) :=
  if t_ok t then mkAttr (t_cols t) (if Nat.eqb (t_severity t) 0 then Alarm_ok else In_alarm (t_severity t)) None
  else mkAttr (a_value a) Disconnected None.
(* _monitor_callback with an index: ca/util.py 158-164. *)
Definition table_step {A} (s : catable A * attr (dict A)) (e : string * cav A) : catable A * attr (dict A) :=
  match table_set (fst e) (snd e) (fst s) with
  | Some t => (t, show_table t (snd s))
  | None => s
  end.

(* ---- a method ---- *)
(* q.get(deadline - time.time()): caactionpart.py 107, core/concurrency.py 81-93: at time [now], with the
   status values to come, each with the time it comes at.  None is a TimeoutError; else the status, and when. *)
Definition q_get (deadline now : Q) (coming : list (Q * string)) : option (string * Q * list (Q * string)) :=
  match coming with
  | (t, s) :: r => if Qle_bool now deadline && Qle_bool t deadline then Some (s, (if Qle_bool t now then now else t), r) else None
  | [] => None
  end.
(* wait_for_good_status: caactionpart.py 98-114; [delay] is the time that a turn of the loop takes. *)
Fixpoint wait_for_good_status (good : string) (deadline delay now : Q) (coming : list (Q * string)) (status : option string) (fuel : nat) : option string :=
  match fuel with
  | O => status
  | S fuel =>
      match q_get deadline now coming with
      | None => status
      | Some (s, t, r) => if String.eqb s good then Some s else wait_for_good_status good deadline delay (t + delay) r (Some s) fuel
      end
  end.
(* caput: caactionpart.py 116-136, from the end of the caput on: whether it returns.  [status_pv] tells whether
   there is one.  There are as many turns as values to come, and one more. *)
Definition action (status_pv : bool) (good : string) (timeout delay now : Q) (coming : list (Q * string)) : bool :=
  if status_pv
  then match wait_for_good_status good (now + timeout) delay now coming None (S (length coming)) with
       | Some s => String.eqb s good
       | None => false
       end
  else true.
