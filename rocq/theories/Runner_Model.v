(* The scan runner: scanning/parts/scanrunnerpart.py. *)
From Coq Require Import String Bool ZArith List.
From Verif Require Import Base.
Import ListNotations.
Local Open Scope Z_scope.
Local Open Scope list_scope.

(* RunnerStates: scanrunnerpart.py 40-47, as the label shown. *)
Inductive rstate := RIdle | RLoading | RConfigured | RRunning | RFinished | RFault | RAborted.

(* ScanOutcome: scanrunnerpart.py 50-57. *)
Inductive outcome := OSuccess | OTimeout | ONotWriteable | OAborted | OMisconfigured | OFail | OOther.

(* What a call on the scan block can raise, as far as run_scan tells them apart
   (scanrunnerpart.py 373-401). *)
Inductive exn := XTimeout | XNotWriteable | XAborted | XAssert | XOther.

(* What the methods of this part raise: OSError from reading or making files, YAML or KeyError
   or ValueError from the contents, or what reset() or sleep() of the scan block raised:
   scanrunnerpart.py 120-305. *)
Inductive rerr := EFile | EContent | EEmpty | EBlock (x : exn).

(* An entry of the parsed file: a scan with its name and the repeats if given, a scan that
   cannot be parsed (no name, bad generator), or another key (scanrunnerpart.py 182-188,
   219-226). *)
Inductive entry := EScan (name : string) (repeats : option Z) | EBadScan | EKey.

(* The part: scan_sets (name to repeats, generators left out), the attributes of lines 83-98,
   and the lines of the report file of the last run, oldest first: scanrunnerpart.py 83-98. *)
Record runner := mkRunner {
  r_sets : dict Z; r_state : rstate; r_configured : Z; r_completed : Z;
  r_successes : Z; r_failures : Z; r_report : list (string * Z * outcome) }.
(* __init__: scanrunnerpart.py 72-102. *)
Definition new_runner : runner := mkRunner [] RIdle 0 0 0 0 [].

(* set_runner_state: scanrunnerpart.py 457-458. *)
Definition set_state (s : rstate) (r : runner) : runner :=
  mkRunner (r_sets r) s (r_configured r) (r_completed r) (r_successes r) (r_failures r) (r_report r).
(* self.scan_sets = ...: scanrunnerpart.py 188, 216. *)
Definition set_sets (d : dict Z) (r : runner) : runner :=
  mkRunner d (r_state r) (r_configured r) (r_completed r) (r_successes r) (r_failures r) (r_report r).

(* The loop over the entries: scanrunnerpart.py 219-226, parse_scan 182-188; repeats is 1 when
   it is not given (62). *)
Fixpoint load_entries (es : list entry) (r : runner) : runner * option rerr :=
  match es with
  | [] => (r, None)
  | EScan n k :: rest =>
      load_entries rest (set_sets (dset n (match k with Some k => k | None => 1 end) (r_sets r)) r)
  | EBadScan :: _ => (r, Some EContent)
  | EKey :: _ => (set_state RFault r, Some EContent)
  end.

(* update_scans_configured: scanrunnerpart.py 234-238. *)
Definition count_configured (d : dict Z) : Z := fold_left (fun a kv => a + snd kv) d 0.

(* loadFile: scanrunnerpart.py 204-232.  [contents] is None when the file can not be read,
   Some None when it is not YAML. *)
Definition load_file (contents : option (option (list entry))) (r : runner) : runner * option rerr :=
  let r := set_state RLoading r in
  match contents with
  | None => (set_state RFault r, Some EFile)
  | Some None => (set_state RFault r, Some EContent)
  | Some (Some es) =>
      match load_entries es (set_sets [] r) with
      | (r', Some e) => (r', Some e)
      | (r', None) =>
          (mkRunner (r_sets r') RConfigured (count_configured (r_sets r')) (r_completed r')
                    (r_successes r') (r_failures r') (r_report r'), None)
      end
  end.

(* What happens during one scan: whether its directory can be made, what waiting and reset
   raise, what configure raises, what run raises, whether abort() of this part is called during
   it, and whether the report can be written (scanrunnerpart.py 347-417, 255-264). *)
Record attempt := mkAttempt {
  a_mkdir : bool; a_reset : option exn; a_configure : option exn; a_run : option exn;
  a_abort : bool; a_report : bool }.

(* The outcome of a scan: scanrunnerpart.py 367-401. *)
Definition outcome_of (a : attempt) : outcome :=
  match a_configure a with
  | Some _ => OMisconfigured
  | None => match a_run a with
            | Some XTimeout => OTimeout
            | Some XNotWriteable => ONotWriteable
            | Some XAborted => OAborted
            | Some XAssert => OFail
            | Some XOther => OOther
            | None => OSuccess
            end
  end.
(* outcome is ScanOutcome.SUCCESS: scanrunnerpart.py 414. *)
Definition is_success (o : outcome) : bool := match o with OSuccess => true | _ => false end.

(* abort: scanrunnerpart.py 260-269.  context.stop() ends one wait of the context with an
   AbortedError (core/context.py 103-105, 386-392): here part of what a_run raises. *)
Definition abort (r : runner) : runner := set_state RAborted r.

(* run_scan: scanrunnerpart.py 347-417; create_directory 240-246 and add_report_line 442-451
   set FAULT.  increment_...: 419-428. *)
Definition run_scan (name : string) (number : Z) (a : attempt) (r : runner) : runner * option rerr :=
  if negb (a_mkdir a) then (set_state RFault r, Some EFile)
  else match a_reset a with
  | Some x => (r, Some (EBlock x))
  | None =>
      let r := if a_abort a then abort r else r in
      let o := outcome_of a in
      if negb (a_report a) then (set_state RFault r, Some EFile)
      else
        let ok := is_success o in
        (mkRunner (r_sets r) (r_state r) (r_configured r) (r_completed r + 1)
                  (r_successes r + if ok then 1 else 0) (r_failures r + if ok then 0 else 1)
                  (r_report r ++ [(name, number, o)]), None)
  end.

Section run.
  (* What happens to the n-th scan of the run, counted from 0 by scansCompleted (every scan that
     is left behind was counted), and whether the directory of a set can be made. *)
  Variables (world : Z -> attempt) (mkdir_set : string -> bool).

  (* The loop over scan_number in run_scan_set: scanrunnerpart.py 325-334; [k] scans left, the
     next has number [i]. *)
  Fixpoint run_repeats (name : string) (k : nat) (i : Z) (r : runner) : runner * option rerr :=
    match k with
    | O => (r, None)
    | S k' => match run_scan name i (world (r_completed r)) r with
              | (r', None) => run_repeats name k' (i + 1) r'
              | e => e
              end
    end.

  (* The loop over scan_sets in run, and run_scan_set: scanrunnerpart.py 297-301, 312-334. *)
  Fixpoint run_sets (d : dict Z) (r : runner) : runner * option rerr :=
    match d with
    | [] => (r, None)
    | (name, repeats) :: rest =>
        if negb (mkdir_set name) then (set_state RFault r, Some EFile)
        else match run_repeats name (Z.to_nat repeats) 1 r with
             | (r', None) => run_sets rest r'
             | e => e
             end
    end.

  (* run: scanrunnerpart.py 271-305; [mkdir_sub] is whether the directory of the run can be
     made, in a root directory that is not empty. *)
  Definition run (mkdir_sub : bool) (r : runner) : runner * option rerr :=
    match r_sets r with
    | [] => (r, Some EEmpty)
    | _ =>
        if negb mkdir_sub then (set_state RFault r, Some EFile)
        else
          let r0 := mkRunner (r_sets r) RRunning (r_configured r) 0 0 0 [] in
          match run_sets (r_sets r0) r0 with
          | (r', None) => (set_state RFinished r', None)
          | e => e
          end
    end.
End run.
