(** What C93 says of the threads of a RunnableController. *)
From Coq Require Import String Bool Arith Lia List.
From Verif Require Import Base States_Model Thr_Model.
Import ListNotations.
Local Open Scope list_scope.

(** ** Specification *)

(** The hooks that are running. *)
Inductive hook := HConfigure (h : chook) | HRun (h : rhook) | HReset | HPauseOrAbort | HSeek | HDisable.

Definition running (s : sys) : list hook :=
  match main s with
  | CReset | XHook => [HReset]
  | CHook h _ => [HConfigure h]
  | RHook h _ _ _ => [HRun h]
  | _ => []
  end ++
  flat_map (fun p => match p with
                     | IHook _ _ => [HPauseOrAbort]
                     | ISeek _ _ _ => [HSeek]
                     | DHook => [HDisable]
                     | _ => []
                     end) [ia s; ib s].

(** The shutter was last told to go to its reset value. *)
Definition closed (s : sys) : Prop := exists l, puts s = false :: l.

(** A considerate use of the block: one client that interrupts, that waits for
    each of its calls to return; configure, run and reset called when nothing
    else is in progress; no wait for the abort queue times out; a pause during a
    run does not seek back to an earlier run. *)
Definition polite (e : event) (s : sys) : bool :=
  match e with
  | CallConfigure | CallRun | CallReset => intr_idle false s
  | CallPause true | CallAbort true | CallResume true | CallDisable true => false
  | Intr false Times => false
  | Intr false (Next b) =>
      match ia s with
      | ISeek true _ _ => main_idle s || implb b (more s)
      | _ => true
      end
  | _ => true
  end.

(** Any use. *)
Definition any (e : event) (s : sys) : bool := true.

