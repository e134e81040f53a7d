(** Specification vocabulary for C13-C17. *)
From Coq Require Import String Bool ZArith List.
From Verif Require Import Base Scan_Model.
Import ListNotations.
Local Open Scope Z_scope.

(** Product of the sizes of the dimensions satisfying [f]. *)
Definition size_of (f : dim -> bool) (dims : list dim) : Z :=
  fold_right Z.mul 1 (map d_size (filter f dims)).

(** A dimension is moved if it scans one of the axes to move. *)
Definition moved (axes : list string) (d : dim) : bool :=
  existsb (fun a => existsb (String.eqb a) axes) (d_axes d).

(** Scans considered: positive sizes, no axis scanned twice, every dimension
    scans some axis. *)
Definition well_formed (dims : list dim) : Prop :=
  Forall (fun d => 0 < d_size d /\ d_axes d <> []) dims /\ NoDup (concat (map d_axes dims)).

(** Running totals of a list of run sizes, starting after [a]. *)
Fixpoint totals (a : Z) (sizes : list Z) : list Z :=
  match sizes with
  | [] => []
  | n :: r => (a + n) :: totals (a + n) r
  end.

(** The first stopping point after step [n]. *)
Definition next_stop (stops : list Z) (n : Z) : option Z := find (fun p => n <? p) stops.

(** [covers a b l]: the ranges (start, number of steps) in [l] follow each other
    without gap or overlap from [a] to [b], none of them empty. *)
Fixpoint covers (a b : Z) (l : list (Z * Z)) : Prop :=
  match l with
  | [] => a = b
  | (c, n) :: r => c = a /\ 0 < n /\ covers (a + n) b r
  end.

(** The sizes of all the runs of a scan: the list with breakpoints, or one size
    repeated until the scan is done. *)
Definition run_sizes (s : scan) : list Z :=
  if p_use (s_plan s) then p_steps (s_plan s)
  else match p_steps (s_plan s) with
       | [k] => repeat k (Z.to_nat (s_total s / k))
       | l => l
       end.
Definition stops (s : scan) : list Z := totals 0 (run_sizes s).

(** A seek while a run is active stays inside that run: no stopping point other
    than the end of the current run comes next after [n] (asking for the end of
    the run itself, or past the end of the scan in the last run, is also fine). *)
Definition inside_run (s : scan) (n : Z) : Prop :=
  n < 0 \/ n = s_configured s \/ next_stop (stops s) n = Some (s_configured s) \/
  (s_total s <= n /\ s_configured s = s_total s).

(** Well-behaved steps: while running, parts report steps that exist in the
    current run, and otherwise no more than is already shown; seeks during a run
    stay inside it. *)
Definition polite (s : scan) (o : scan_op) : Prop :=
  match o with
  | Report _ n => match s_state s with
                  | Running => n <= s_configured s
                  | _ => n <= s_completed s
                  end
  | Pause n => match s_state s with
               | Running | Paused => inside_run s n
               | Armed | Finished => True
               end
  | _ => True
  end.
Fixpoint polite_history (s : scan) (h : list scan_op) : Prop :=
  match h with
  | [] => True
  | o :: r => polite s o /\ polite_history (scan_step s o) r
  end.

(** The step ranges the parts were told to get ready for, oldest first. *)
Definition range_of (a : ask) : list (Z * Z) :=
  match a with
  | AConfigure c n | APostRunArmed c n | ASeek c n => [(c, n)]
  | APostRunReady => []
  end.
Definition asked (s : scan) : list (Z * Z) := flat_map range_of (rev (s_asks s)).

(** Calling run() [n] times, each run going to its end. *)
Fixpoint runs (n : nat) : list scan_op :=
  match n with O => [] | S k => StartRun :: EndRun :: runs k end.

(** Reports in order, and the latest one of each part. *)
Fixpoint latest_report (p : string) (rs : list (string * Z)) : option Z :=
  match rs with
  | [] => None
  | (q, n) :: r => match latest_report p r with
                   | Some m => Some m
                   | None => if String.eqb p q then Some n else None
                   end
  end.
Definition report_all (rs : list (string * Z)) (s : scan) : scan :=
  scan_run s (map (fun r => Report (fst r) (snd r)) rs).
