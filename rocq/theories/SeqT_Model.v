(* Model of the part that drives a pair of sequencers of a PandA,
   /repo/malcolm/modules/ADPandABlocks/parts/pandaseqtriggerpart.py, over the hooks that
   /repo/malcolm/modules/scanning/controllers/runnablecontroller.py runs. *)
From Coq Require Import String Bool Arith List.
From Verif Require Import Base.
From Verif Require Seq_Model.
Import ListNotations.
Local Open Scope string_scope.
Local Open Scope list_scope.

(* ---- _get_blocks: pandaseqtriggerpart.py 263-288 ---- *)
(* SEQ_TABLES: pandaseqtriggerpart.py 16. *)
Definition tableA : string := "seqTableA".
(* pandaseqtriggerpart.py 16. *)
Definition tableB : string := "seqTableB".
(* The assertions of pandaseqtriggerpart.py 270-272, 274-276, 283-285. *)
Inductive berr := NotTable | WrongExports | NoMri.

(* source[: -len(".table")], None if it does not end with it: pandaseqtriggerpart.py 270-273. *)
Fixpoint strip_table (s : string) : option string :=
  if String.eqb s ".table" then Some ""
  else match s with
       | EmptyString => None
       | String c r => match strip_table r with Some x => Some (String c x) | None => None end
       end.
(* seq_part_names: pandaseqtriggerpart.py 267-273. *)
Fixpoint part_names (exports : list (string * string)) (d : dict string) : result berr (dict string) :=
  match exports with
  | [] => Ok d
  | (source, export) :: r =>
    if String.eqb export tableA || String.eqb export tableB
    then match strip_table source with
         | Some p => part_names r (dset p export d)
         | None => Err NotTable
         end
    else part_names r d
  end.
(* tuple(sorted(values)) == SEQ_TABLES: pandaseqtriggerpart.py 274-276. *)
Definition both_tables (l : list string) : bool :=
  match l with
  | [a; b] => (String.eqb a tableA && String.eqb b tableB) || (String.eqb a tableB && String.eqb b tableA)
  | _ => false
  end.
(* seq_mris: pandaseqtriggerpart.py 277-282. *)
Fixpoint seq_mris (layout : list (string * string)) (names d : dict string) : dict string :=
  match layout with
  | [] => d
  | (name, mri) :: r =>
    seq_mris r names (match dget name names with Some export => dset export mri d | None => d end)
  end.
(* _get_blocks: pandaseqtriggerpart.py 263-288: the mris of the two sequencers.  The rows of exports
   are source and export, those of layout name and mri. *)
Definition get_blocks (exports layout : list (string * string)) : result berr (string * string) :=
  match part_names exports [] with
  | Err e => Err e
  | Ok names =>
    if both_tables (map snd names) then
      let m := seq_mris layout names [] in
      match dget tableA m, dget tableB m with
      | Some a, Some b => Ok (a, b)
      | _, _ => Err NoMri
      end
    else Err WrongExports
  end.

(* ---- The part ---- *)
Section part.
  (* What a sequencer is loaded with. *)
  Context {T : Type}.

  (* What on_configure finds (pandaseqtriggerpart.py 439-492): the PandA that is named, its exports and layout, whether
     there are axes (None: an assertion, 457-472, or cs_axis_mapping fails) and the tables for a range of steps
     (480-487). *)
  Record config := mkConfig {
    c_panda : string; c_exports : list (string * string); c_layout : list (string * string);
    c_axes : option bool; c_tables : nat -> nat -> list T }.

  (* The SRGATE that gates the sequencers of each PandA, what each SEQ block holds, and what this part holds:
     pandaseqtriggerpart.py 308-331, 442.  [puts] is not in the code: the SEQ that was written in on_configure, the
     PandA it is in and whether its gate was set then.  [enables]: the PandAs that seqSetEnable was called on. *)
  Record st := mkSt {
    gate : string -> bool; loaded : string -> option T;
    panda_mri : option string; panda : option string; range : nat * nat; axes : bool;
    buffer : option (string * string * Seq_Model.dbuf T);
    puts : list (string * string * bool); enables : list string }.

  (* seqSetEnable and seqReset of a PandA: pandaseqtriggerpart.py 304-305, 412-419, 501, 508. *)
  Definition set_gate (m : string) (b : bool) (s : st) : st :=
    mkSt (fun x => if String.eqb x m then b else gate s x) (loaded s) (panda_mri s) (panda s) (range s) (axes s)
         (buffer s) (puts s) (enables s).

  (* The steps of a hook, each of which can raise: core/hook.py 145-160. *)
  Definition op := st -> option st.
  (* A hook that is stopped after n of its steps: core/context.py 103-123 (stop, put) makes the next use of its context
     raise. *)
  Fixpoint perform (n : nat) (ops : list op) (s : st) {struct ops} : st * bool :=
    match ops with
    | [] => (s, true)
    | f :: r => match n with
                | O => (s, false)
                | S n => match f s with Some s' => perform n r s' | None => (s, false) end
                end
    end.

  (* One put of a table to a SEQ: doublebuffer.py 198-201.  Simplified: the rest of the double buffer is made at
     once (below), not between the puts. *)
  Definition put_table (m : string) (seq : string) (t : T) (s : st) : st :=
    mkSt (gate s) (fun x => if String.eqb x seq then Some t else loaded s x) (panda_mri s) (panda s) (range s) (axes s)
         (buffer s) (puts s ++ [(m, seq, gate s m)]) (enables s).
  (* pandaseqtriggerpart.py 433-438. *)
  Definition c_range (from todo : nat) (s : st) : option st :=
    Some (mkSt (gate s) (loaded s) (panda_mri s) (panda s) (from, from + todo) (axes s) (buffer s) (puts s) (enables s)).
  (* pandaseqtriggerpart.py 440-442. *)
  Definition c_mri (c : config) (s : st) : option st :=
    Some (mkSt (gate s) (loaded s) (Some (c_panda c)) (panda s) (range s) (axes s) (buffer s) (puts s) (enables s)).
  (* pandaseqtriggerpart.py 450-451. *)
  Definition c_find (c : config) (s : st) : option st :=
    match get_blocks (c_exports c) (c_layout c) with
    | Ok _ => Some (mkSt (gate s) (loaded s) (panda_mri s) (Some (c_panda c)) (range s) (axes s) (buffer s) (puts s) (enables s))
    | Err _ => None
    end.
  (* pandaseqtriggerpart.py 453-456. *)
  Definition c_clear (s : st) : option st :=
    Some (mkSt (gate s) (loaded s) (panda_mri s) (panda s) (range s) false (buffer s) (puts s) (enables s)).
  (* pandaseqtriggerpart.py 458-472. *)
  Definition c_map (c : config) (s : st) : option st :=
    match c_axes c with
    | Some b => Some (mkSt (gate s) (loaded s) (panda_mri s) (panda s) (range s) b (buffer s) (puts s) (enables s))
    | None => None
    end.
  (* pandaseqtriggerpart.py 480-492: the new double buffer, as it is after its configure. *)
  Definition c_buffer (c : config) (s : st) : option st :=
    match get_blocks (c_exports c) (c_layout c) with
    | Ok (a, b) =>
        Some (mkSt (gate s) (loaded s) (panda_mri s) (panda s) (range s) (axes s)
                   (Some (a, b, Seq_Model.db_configure Seq_Model.db_init (c_tables c (fst (range s)) (snd (range s)))))
                   (puts s) (enables s))
    | Err _ => None
    end.
  (* doublebuffer.py 224-254 (configure), 198-201: the put of the first or second table that the buffer has
     written. *)
  Definition c_put (c : config) (i : nat) (s : st) : option st :=
    match buffer s with
    | Some (a, b, d) =>
        match nth_error (Seq_Model.db_written d) i with
        | Some (side, t) => Some (put_table (c_panda c) (if side : bool then a else b) t s)
        | None => Some s
        end
    | None => None
    end.
  (* on_configure: pandaseqtriggerpart.py 424-492; [n] steps of it are done. *)
  Definition on_configure (c : config) (from todo n : nat) (s : st) : st * bool :=
    perform n [c_range from todo; c_mri c; c_find c; c_clear; c_map c; c_buffer c; c_put c 0; c_put c 1] s.

  (* Whether a PandA exports seqSetEnable and seqReset: pandaseqtriggerpart.py 304-305, 521-523.  Simplified: its design does
     not change. *)
  Variable exported : string -> bool.
  (* panda.seqSetEnable(); an AttributeError if it is not exported: pandaseqtriggerpart.py 304-305, 501, 508. *)
  Definition enable (s : st) : option st :=
    match panda s with
    | Some m => if exported m
                then Some (let s := set_gate m true s in
                           mkSt (gate s) (loaded s) (panda_mri s) (panda s) (range s) (axes s) (buffer s) (puts s)
                                (enables s ++ [m]))
                else None
    | None => None
    end.
  (* on_pre_run: pandaseqtriggerpart.py 495-501. *)
  Definition on_pre_run (n : nat) (s : st) : st * bool :=
    perform n [fun s => match panda s, buffer s with Some _, Some _ => Some s | _, _ => None end;
               fun s => if axes s then enable s else Some s] s.
  (* db_seq_table.run() and the updates of the active attributes that come while its futures are waited for: doublebuffer.py
     256-283, pandaseqtriggerpart.py 509. *)
  Definition play (es : list (bool * bool)) (s : st) : option st :=
    match buffer s with
    | Some (a, b, d) =>
        let d' := Seq_Model.db_events (Seq_Model.db_run d) es in
        let put l (x : bool * T) := fun k => if String.eqb k (if fst x then a else b) then Some (snd x) else l k in
        Some (mkSt (gate s) (fold_left put (skipn (length (Seq_Model.db_written d)) (Seq_Model.db_written d')) (loaded s))
                   (panda_mri s) (panda s) (range s) (axes s) (Some (a, b, d')) (puts s) (enables s))
    | None => None
    end.
  (* wait_all_futures: the subscriptions end when the double buffer cleans up: pandaseqtriggerpart.py 510,
     doublebuffer.py 261-265, 285-296. *)
  Definition played (s : st) : option st :=
    match buffer s with
    | Some (_, _, d) => if Seq_Model.db_subscribed d then None else Some s
    | None => None
    end.
  (* on_run: pandaseqtriggerpart.py 504-510. *)
  Definition on_run (es : list (bool * bool)) (n : nat) (s : st) : st * bool :=
    perform n [fun s => if axes s then Some s else enable s; play es; played] s.
  (* reset_seq: pandaseqtriggerpart.py 412-419, with the except of 519-523: no PandA yet, or another design. *)
  Definition reset_seq (s : st) : option st :=
    match panda_mri s with
    | Some m => if exported m then Some (set_gate m false s) else Some s
    | None => Some s
    end.
  (* pandaseqtriggerpart.py 525-526. *)
  Definition clean (s : st) : option st :=
    Some (mkSt (gate s) (loaded s) (panda_mri s) (panda s) (range s) (axes s)
               (match buffer s with Some (a, b, d) => Some (a, b, Seq_Model.db_cleanup d) | None => None end)
               (puts s) (enables s)).
  (* on_abort, and on_reset: pandaseqtriggerpart.py 513-526. *)
  Definition on_abort (n : nat) (s : st) : st * bool := perform n [reset_seq; clean] s.

  (* ---- The hooks of a block: runnablecontroller.py 430-720 ---- *)
  (* Where the block is between hooks.  [Stopped]: a hook was stopped or has failed, or one of another part.  Simplified:
     the states in which there is nothing to do for this part are not told apart. *)
  Inductive phase := Ready | Armed | PreRun | Ran | Finished | Stopped | Aborted | Fault | Disabled.
  (* What happens next (runnablecontroller.py 430-720); n: after how many steps a hook of this part is stopped; [others]: that the hooks of the other parts
     succeed. *)
  Inductive event :=
  | Configure (c : config) (todo nr n : nat) (others : bool)
  | PreRunHook (n : nat) (others : bool)
  | RunHook (es : list (bool * bool)) (n : nat) (others : bool)
  | PostRunReady (others : bool)
  | PostRunArmed (c : config) (from todo na n : nat) (others : bool)
  | Abort (n : nat) (others : bool)
  | Pause (c : config) (from todo na n : nat) (others : bool)
  | Reset (n : nat) (others : bool)
  | Fail | Disable.
  (* runnablecontroller.py 447-461, 533-560, 618-646. *)
  Definition after (r : st * bool) (others : bool) (p : phase) : phase * st :=
    (if snd r && others then p else Stopped, fst r).
  (* One hook and then, if it succeeds, another: runnablecontroller.py 465-506, 701-720. *)
  Definition then_ (r : st * bool) (f : st -> st * bool) : st * bool := if snd r then f (fst r) else r.
  (* runnablecontroller.py 430-461 (configure), 463-516 (do_configure), 561-589 (do_run), 603-616 (abort), 657-720 (pause),
     statefulcontroller.py 94-111 (disable, reset).  Simplified: abort, pause, reset, a fault and disable are
     allowed at any time, which is more than the states allow; None: not allowed. *)
  Definition step (x : phase * st) (e : event) : option (phase * st) :=
    let (p, s) := x in
    match e with
    | Configure c todo nr n others =>
        match p with
        | Ready => Some (after (on_configure c 0 todo n s) others Armed)
        | Finished => Some (after (then_ (on_abort nr s) (on_configure c 0 todo n)) others Armed)
        | _ => None
        end
    | PreRunHook n others => match p with Armed => Some (after (on_pre_run n s) others PreRun) | _ => None end
    | RunHook es n others => match p with PreRun => Some (after (on_run es n s) others Ran) | _ => None end
    | PostRunReady others => match p with Ran => Some (after (s, true) others Finished) | _ => None end
    | PostRunArmed c from todo na n others =>
        match p with
        | Ran => Some (after (then_ (on_abort na s) (on_configure c from todo n)) others Armed)
        | _ => None
        end
    | Abort n others => Some (after (on_abort n s) others Aborted)
    | Pause c from todo na n others =>
        Some (after (then_ (on_abort na s) (on_configure c from todo n)) others Armed)
    | Reset n others => Some (after (on_abort n s) others Ready)
    | Fail => Some (Fault, s)
    | Disable => Some (Disabled, s)
    end.
  (* runnablecontroller.py 430-720. *)
  Fixpoint run (x : phase * st) (es : list event) : option (phase * st) :=
    match es with
    | [] => Some x
    | e :: r => match step x e with Some y => run y r | None => None end
    end.
  (* A new part: pandaseqtriggerpart.py 308-331; the gates and sequencers are as they were left. *)
  Definition start (g : string -> bool) (l : string -> option T) : phase * st :=
    (Ready, mkSt g l None None (0, 0) false None [] []).
End part.
Arguments config : clear implicits.
Arguments st : clear implicits.
Arguments event : clear implicits.
