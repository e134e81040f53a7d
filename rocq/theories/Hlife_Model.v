(* The life of the file writer over a scan: ADCore/parts/hdfwriterpart.py 468-482, 512-598, ADCore/util.py
   110-112, with the reset that scanning/controllers/runnablecontroller.py 463-468 puts before a configure. *)
From Coq Require Import String Ascii Bool ZArith List.
From Verif Require Import Base.
Import ListNotations.
Local Open Scope string_scope.
Local Open Scope list_scope.
Local Infix "+++" := String.append (at level 60, right associativity).

(* A value put to the plugin: hdfwriterpart.py 548-560, 575-581. *)
Inductive pv := PBool (b : bool) | PNum (z : Z) | PStr (s : string).

(* ---- names of files ---- *)
(* fileDir.rstrip(os.sep), one step from the right: hdfwriterpart.py 539. *)
Fixpoint rstrip (s : string) : string :=
  match s with
  | EmptyString => EmptyString
  | String c r => match rstrip r with
                  | EmptyString => if Ascii.eqb c "/" then EmptyString else String c EmptyString
                  | r' => String c r'
                  end
  end.
(* mri.replace(':', '_'): util.py 112. *)
Fixpoint no_colons (s : string) : string :=
  match s with
  | EmptyString => EmptyString
  | String c r => String (if Ascii.eqb c ":" then "_"%char else c) (no_colons r)
  end.
(* os.path.join of a directory that does not end in a slash and a name that does not start with one
   (Python semantics; a mri that starts with a slash is left out): util.py 112. *)
Definition join (dir name : string) : string := if String.eqb dir "" then name else dir +++ "/" +++ name.
(* make_xml_filename: util.py 110-112. *)
Definition make_xml_filename (dir mri suffix : string) : string :=
  join dir (no_colons mri +++ "-" +++ suffix +++ ".xml").
(* "." in filename: hdfwriterpart.py 545. *)
Fixpoint has_dot (s : string) : bool :=
  match s with EmptyString => false | String c r => Ascii.eqb c "." || has_dot r end.

(* ---- what a scan gives ---- *)
(* The parameters of on_configure that matter here: hdfwriterpart.py 512-522.  [c_filename] is
   fileTemplate % formatName, [c_dims] what set_dimensions puts (Hdf_Model), [c_remove] whether the demand
   positions go to a file of their own.  Not on Windows (the translation of paths is in Ioc_Model). *)
Record conf := mkConf { c_dir : string; c_format : string; c_template : string; c_filename : string;
                        c_steps : Z; c_dims : list (string * pv); c_remove : bool }.

(* What a hook does that others see: requests to the plugin (put and wait, put without waiting, wait for
   these), the assertion on the name, the layout file, the start, the other file: hdfwriterpart.py 468-482,
   523-598. *)
Inductive act :=
| Put (n : string) (v : pv) | PutAsync (n : string) (v : pv) | WaitPuts
| NeedDot | SetLayout (f : string) | WriteLayout (f : string) | Start | OpenHdf | KeepHdf | CheckXml
| ChildReset | Stop | WaitIdle | CloseHdf | Remove (f : string).

(* on_configure: hdfwriterpart.py 533-598, with _write_additional_hdf (252-270), which opens the file before it
   writes to it and gives it to the part only at the end.  The dictionaries are put in the order of their keys
   (core/views.py 168-179).  The text of the layout is in Hdf_Model. *)
Definition configure_acts (mri : string) (c : conf) : list act :=
  let file_dir := rstrip (c_dir c) in
  let layout := make_xml_filename file_dir mri "layout" in
  [Put "positionMode" (PBool true); NeedDot;
   PutAsync "arrayCounter" (PNum 0); PutAsync "dimAttDatasets" (PBool true);
   PutAsync "enableCallbacks" (PBool true); PutAsync "fileName" (PStr (c_format c));
   PutAsync "filePath" (PStr (file_dir +++ "/")); PutAsync "fileTemplate" (PStr ("%s" +++ c_template c));
   PutAsync "fileWriteMode" (PStr "Stream"); PutAsync "lazyOpen" (PBool true);
   PutAsync "storeAttr" (PBool true); PutAsync "swmrMode" (PBool true)] ++
  map (fun p => PutAsync (fst p) (snd p)) (c_dims c) ++
  [SetLayout layout; WriteLayout layout;
   PutAsync "flushAttrPerNFrames" (PNum 0); PutAsync "flushDataPerNFrames" (PNum (c_steps c));
   PutAsync "xmlLayout" (PStr layout); WaitPuts; Put "numCapture" (PNum 0); Start] ++
  (if c_remove c then [OpenHdf; KeepHdf] else []) ++ [CheckXml].

(* ---- the world ---- *)
(* The layout files that are there, layout_filename, h5py files open and whether the part holds one, and the
   plugin: its values, the puts not answered yet, whether it captures: hdfwriterpart.py 430-443. *)
Record world := mkW { w_files : list string; w_layout : option string; w_open : nat; w_hdf : bool;
                      w_pvs : dict pv; w_pending : list (string * pv); w_running : bool }.
(* __init__: hdfwriterpart.py 427-443; the plugin with any values. *)
Definition fresh (pvs : dict pv) : world := mkW [] None 0 false pvs [] false.

(* A put that is done: hdfwriterpart.py 536, 583-585. *)
Definition apply (l : list (string * pv)) (d : dict pv) : dict pv :=
  fold_left (fun d p => dset (fst p) (snd p) d) l d.
(* What each does when it does not raise; None: it raises.  [name] is the filename of the scan.  A put that
   is not waited for is applied at the latest when it is waited for (simplification: not before).
   hdfwriterpart.py 468-482, 533-598. *)
Definition do_act (name : string) (w : world) (a : act) : option world :=
  match a with
  | Put n v => Some (mkW (w_files w) (w_layout w) (w_open w) (w_hdf w) (dset n v (w_pvs w)) (w_pending w) (w_running w))
  | PutAsync n v =>
      Some (mkW (w_files w) (w_layout w) (w_open w) (w_hdf w) (w_pvs w) (w_pending w ++ [(n, v)]) (w_running w))
  | WaitPuts =>
      Some (mkW (w_files w) (w_layout w) (w_open w) (w_hdf w) (apply (w_pending w) (w_pvs w)) [] (w_running w))
  | NeedDot => if has_dot name then Some w else None
  | SetLayout f => Some (mkW (w_files w) (Some f) (w_open w) (w_hdf w) (w_pvs w) (w_pending w) (w_running w))
  | WriteLayout f =>
      Some (mkW (if smem f (w_files w) then w_files w else f :: w_files w) (w_layout w) (w_open w) (w_hdf w)
                (w_pvs w) (w_pending w) (w_running w))
  | Start => Some (mkW (w_files w) (w_layout w) (w_open w) (w_hdf w) (w_pvs w) (w_pending w) true)
  | OpenHdf => Some (mkW (w_files w) (w_layout w) (S (w_open w)) (w_hdf w) (w_pvs w) (w_pending w) (w_running w))
  | KeepHdf => Some (mkW (w_files w) (w_layout w) (w_open w) true (w_pvs w) (w_pending w) (w_running w))
  | CheckXml | ChildReset => Some w
  | Stop | WaitIdle => Some (mkW (w_files w) (w_layout w) (w_open w) (w_hdf w) (w_pvs w) (w_pending w) false)
  | CloseHdf => Some (mkW (w_files w) (w_layout w) (pred (w_open w)) false (w_pvs w) (w_pending w) (w_running w))
  | Remove f =>
      Some (mkW (filter (fun g => negb (String.eqb g f)) (w_files w)) (w_layout w) (w_open w) (w_hdf w)
                (w_pvs w) (w_pending w) (w_running w))
  end.
(* The acts one after the other, the [k]th of which raises (if there are as many): the world, and whether it
   came to the end: hdfwriterpart.py 468-482, 533-598. *)
Fixpoint do_acts (name : string) (k : nat) (l : list act) (w : world) : world * bool :=
  match l, k with
  | [], _ => (w, true)
  | _ :: _, O => (w, false)
  | a :: r, S k' => match do_act name w a with Some w' => do_acts name k' r w' | None => (w, false) end
  end.

(* on_reset: hdfwriterpart.py 468-482, with ChildPart.on_reset (builtin/parts/childpart.py 168-171) and
   on_abort (hdfwriterpart.py 700-702).  Puts of an earlier hook that were not waited for go to the plugin all
   the same. *)
Definition reset_acts (w : world) : list act :=
  [WaitPuts; ChildReset; Stop; WaitIdle] ++ (if w_hdf w then [CloseHdf] else []) ++
  match w_layout w with
  | Some f => if smem f (w_files w) then [Remove f; Put "xmlLayout" (PStr "")] else []
  | None => []
  end.

(* Ready after a reset; configured (armed, running, paused, finished); failed or aborted:
   scanning/util.py (RunnableStates). *)
Inductive phase := Ready | Configured | Failed.
(* What is done with the detector: a configure or reset that may raise at the [k]th act, the abort, and the
   configure of a finished one, which resets first: runnablecontroller.py 463-468, 590-640, hdfwriterpart.py
   468-482, 512-598, 700-702. *)
Inductive op := Configure (c : conf) (k : nat) | Reset (k : nat) | Abort | Reconfigure (c : conf) (kr k : nat).
(* The reset: hdfwriterpart.py 468-482. *)
Definition do_reset (k : nat) (w : world) : phase * world :=
  let (w', ok) := do_acts "" k (reset_acts w) w in (if ok then Ready else Failed, w').
(* The configure: hdfwriterpart.py 512-598. *)
Definition do_configure (mri : string) (c : conf) (k : nat) (w : world) : phase * world :=
  let (w', ok) := do_acts (c_filename c) k (configure_acts mri c) w in (if ok then Configured else Failed, w').
(* One of these, when the state of the detector lets it: runnablecontroller.py 187-230, 463-468. *)
Definition step (mri : string) (x : phase * world) (o : op) : phase * world :=
  let (ph, w) := x in
  match o, ph with
  | Configure c k, Ready => do_configure mri c k w
  | Reset k, _ => do_reset k w
  | Abort, Configured =>
      (Failed, mkW (w_files w) (w_layout w) (w_open w) (w_hdf w) (w_pvs w) (w_pending w) false)
  | Reconfigure c kr k, Configured =>
      match do_reset kr w with
      | (Ready, w') => do_configure mri c k w'
      | other => other
      end
  | _, _ => x
  end.
(* A history: runnablecontroller.py 187-230. *)
Definition run (mri : string) (pvs : dict pv) (os : list op) : phase * world :=
  fold_left (step mri) os (Ready, fresh pvs).
