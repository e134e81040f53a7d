(* Model of the demonstration detector and motors: malcolm/modules/demo/parts/filewritepart.py, motionchildpart.py and
   countermovepart.py, with malcolm/modules/scanning/parts/datasettablepart.py.  Times and positions are exact rationals;
   h5py and scanpointgenerator are not in the repository: a dataset is a shape, a largest shape and what is at each
   index; a generator is its shape, its axes, and for each step its index and the image made for it. *)
From Coq Require Import QArith String Ascii Bool ZArith Lia List.
From Verif Require Import Base.
Import ListNotations.
Local Open Scope string_scope.
Local Open Scope nat_scope.
Local Open Scope list_scope.

(* ---- The file ---- *)
(* A dataset that can be resized: filewritepart.py 180-193.  None at an index: nothing has been written there. *)
Record ds (A : Type) := mkDs { ds_shape : list nat; ds_max : list nat; ds_at : list nat -> option A }.
Arguments mkDs {A}. Arguments ds_shape {A}. Arguments ds_max {A}. Arguments ds_at {A}.

(* tuple(max(z) for z in zip(a, b)): filewritepart.py 209. *)
Fixpoint expand (a b : list nat) : list nat :=
  match a, b with x :: a', y :: b' => Nat.max x y :: expand a' b' | _, _ => [] end.
(* No longer than the largest shape in any direction, as h5py asks at ds.resize: filewritepart.py 210. *)
Fixpoint fits (a b : list nat) : bool :=
  match a, b with
  | [], [] => true
  | x :: a', y :: b' => Nat.leb x y && fits a' b'
  | _, _ => false
  end.
(* An index that is in the dataset: filewritepart.py 216-218. *)
Fixpoint within (i sh : list nat) : bool :=
  match i, sh with
  | [], _ => true
  | x :: i', y :: s' => Nat.ltb x y && within i' s'
  | _, [] => false
  end.
(* ds.resize: filewritepart.py 210; what is outside of the new shape is lost (h5py). *)
Definition resize {A} (sh : list nat) (d : ds A) : option (ds A) :=
  if fits sh (ds_max d) then Some (mkDs sh (ds_max d) (fun j => if within j sh then ds_at d j else None)) else None.
(* Equality of tuples of ints: filewritepart.py 215-218 (the index of an item). *)
Fixpoint ieqb (a b : list nat) : bool :=
  match a, b with
  | [], [] => true
  | x :: a', y :: b' => Nat.eqb x y && ieqb a' b'
  | _, _ => false
  end.
(* self._hdf[path][index] = v: filewritepart.py 216-218. *)
Definition put_at {A} (i : list nat) (v : A) (d : ds A) : option (ds A) :=
  if within i (ds_shape d) then Some (mkDs (ds_shape d) (ds_max d) (fun j => if ieqb j i then Some v else ds_at d j))
  else None.

Section file.
  (* The image of a point and its sum: filewritepart.py 213-217. *)
  Context {I S : Type}.
  (* np.sum: filewritepart.py 217; the size of an image: filewritepart.py 34-39. *)
  Context (total : I -> S) (height width : nat).

  (* What the part uses of a generator: filewritepart.py 104, 149, 158, 177, 185, 192, 195, 206, 213-215.  [g_image i] is
     detector_data for point i, which depends on the exposure too. *)
  Record gen := mkGen { g_shape : list nat; g_axes : list string; g_dims : list (list string);
                        g_index : nat -> list nat; g_image : nat -> I }.

  (* An open file: filewritepart.py 41, 174-202.  The last three are what a reader of the file sees, which is what was
     there at the last flush of each (simplified: nothing gets to the file before it is flushed).  [f_log] is not in the
     code: the steps that were written and their ids. *)
  Record hdf := mkHdf {
    f_data : ds I; f_sum : ds S; f_uid : ds Z;
    r_data : list nat -> option I; r_sum : list nat -> option S; r_uid : list nat -> option Z;
    f_log : list (nat * Z) }.

  (* The part: filewritepart.py 40-48.  [p_closed]: the files that were closed, each
     with the generator it was made for, [p_reports]: the progress that was
     reported (108-117) since on_configure, latest first, [p_ok]: whether h5py has refused anything. *)
  Record part := mkPart {
    p_hdf : option hdf; p_gen : option gen; p_completed : nat; p_todo : nat; p_offset : Z;
    p_closed : list (hdf * option gen); p_reports : list nat; p_ok : bool }.

  (* An array of the file, empty: filewritepart.py 177, 182-193. *)
  Definition new_ds {A} (sh : list nat) (h w : nat) : ds A :=
    mkDs (map (fun _ => 1) sh ++ [h; w]) (sh ++ [h; w]) (fun _ => None).
  (* _create_hdf: filewritepart.py 171-202.  Simplified: without the setpoints, which are below. *)
  Definition create_hdf (g : gen) : hdf :=
    mkHdf (new_ds (g_shape g) height width) (new_ds (g_shape g) 1 1) (new_ds (g_shape g) 1 1)
          (fun _ => None) (fun _ => None) (fun _ => None) [].

  (* on_configure: filewritepart.py 64-92.  Simplified: opening the file does not fail. *)
  Definition on_configure (c n : nat) (g : gen) (p : part) : part :=
    mkPart (Some (create_hdf g)) (Some g) c n 0 (p_closed p) [] (p_ok p).

  (* One of the things that on_run does to the file, and its report of progress: filewritepart.py 95-120, 204-222. *)
  Inductive act := Write (i : nat) | FlushData | FlushSum | FlushUid | Report (n : nat).
  (* _flush_datasets: filewritepart.py 219-222. *)
  Definition flush : list act := [FlushData; FlushSum; FlushUid].
  (* on_run, for the n steps from c; [due i]: whether it is time to flush after step i: filewritepart.py 95-120.  The
     hook can be stopped where it sleeps (107), before each Write. *)
  Fixpoint run_acts (c n : nat) (due : nat -> bool) : list act :=
    match n with
    | O => flush
    | Datatypes.S n => Write c :: (if due c then flush else []) ++ Report (c + 1) :: run_acts (c + 1) n due
    end.

  (* _write_data: filewritepart.py 204-218; None if h5py refuses.  Simplified: nothing is then written. *)
  Definition write_data (g : gen) (step : nat) (offset : Z) (f : hdf) : option hdf :=
    let need := map (fun x => x + 1) (g_index g step) ++ [1; 1] in
    match resize (expand need (ds_shape (f_data f))) (f_data f), resize (expand need (ds_shape (f_sum f))) (f_sum f),
          resize (expand need (ds_shape (f_uid f))) (f_uid f) with
    | Some d, Some s, Some u =>
        let uid := (Z.of_nat step + offset + 1)%Z in
        match put_at (g_index g step) (g_image g step) d, put_at (g_index g step) (total (g_image g step)) s,
              put_at (g_index g step) uid u with
        | Some d, Some s, Some u => Some (mkHdf d s u (r_data f) (r_sum f) (r_uid f) (f_log f ++ [(step, uid)]))
        | _, _, _ => None
        end
    | _, _, _ => None
    end.

  (* The same part with another file: filewritepart.py 204-222. *)
  Definition with_hdf (f : hdf) (p : part) : part :=
    mkPart (Some f) (p_gen p) (p_completed p) (p_todo p) (p_offset p) (p_closed p) (p_reports p) (p_ok p).
  (* filewritepart.py 204-222: an exception of h5py ends on_run. *)
  Definition refused (p : part) : part :=
    mkPart (p_hdf p) (p_gen p) (p_completed p) (p_todo p) (p_offset p) (p_closed p) (p_reports p) false.
  (* filewritepart.py 95-120, 204-222. *)
  Definition do_act (p : part) (a : act) : part :=
    match p_hdf p, p_gen p with
    | Some f, Some g =>
        if p_ok p then
          match a with
          | Write i => match write_data g i (p_offset p) f with Some f' => with_hdf f' p | None => refused p end
          | FlushData => with_hdf (mkHdf (f_data f) (f_sum f) (f_uid f) (ds_at (f_data f)) (r_sum f) (r_uid f) (f_log f)) p
          | FlushSum => with_hdf (mkHdf (f_data f) (f_sum f) (f_uid f) (r_data f) (ds_at (f_sum f)) (r_uid f) (f_log f)) p
          | FlushUid => with_hdf (mkHdf (f_data f) (f_sum f) (f_uid f) (r_data f) (r_sum f) (ds_at (f_uid f)) (f_log f)) p
          | Report n => mkPart (p_hdf p) (p_gen p) (p_completed p) (p_todo p) (p_offset p) (p_closed p)
                               (n :: p_reports p) (p_ok p)
          end
        else p
    | _, _ => refused p
    end.
  (* on_run, of which the first m things are done: filewritepart.py 95-120. *)
  Definition on_run (due : nat -> bool) (m : nat) (p : part) : part :=
    fold_left do_act (firstn m (run_acts (p_completed p) (p_todo p) due)) p.

  (* on_seek: filewritepart.py 122-132. *)
  Definition on_seek (c n : nat) (p : part) : part :=
    mkPart (p_hdf p) (p_gen p) c n
           (p_offset p + (Z.of_nat (p_completed p) + Z.of_nat (p_todo p) - Z.of_nat c))%Z
           (p_closed p) (p_reports p) (p_ok p).

  (* on_reset: filewritepart.py 134-139.  Closing a file flushes it. *)
  Definition on_reset (p : part) : part :=
    match p_hdf p with
    | Some f => mkPart None (p_gen p) (p_completed p) (p_todo p) (p_offset p)
                       ((mkHdf (f_data f) (f_sum f) (f_uid f) (ds_at (f_data f)) (ds_at (f_sum f)) (ds_at (f_uid f)) (f_log f),
                         p_gen p) :: p_closed p) (p_reports p) (p_ok p)
    | None => p
    end.

  (* When the hooks are called: runnablecontroller.py 428-512 (configure, after a reset if a scan has ended, 464-469),
     514-590 (run: RunHook, then PostRunArmedHook if there is more to do), 605-720 (abort; pause, which runs SeekHook
     wherever a scan is: armed, running, paused or ended).  [Idle]: not configured; [Set]: armed or paused; [Ran]: RunHook
     was called. *)
  Inductive phase := Idle | Set_ | Ran.
  (* filewritepart.py 50-62, of the classes of hooks. *)
  Inductive event :=
  | Configure (c n : nat) (g : gen)
  | Run (due : nat -> bool) (m : nat)
  | Seek (c n : nat)
  | Reset.
  (* runnablecontroller.py 428-590, 605-720; what is not allowed does nothing. *)
  Definition step (x : phase * part) (e : event) : phase * part :=
    let '(ph, p) := x in
    match e, ph with
    | Configure c n g, Idle => (Set_, on_configure c n g p)
    | Configure c n g, Ran => (Set_, on_configure c n g (on_reset p))
    | Run due m, Set_ => (Ran, on_run due m p)
    | Seek c n, (Set_ | Ran) => (Set_, on_seek c n p)
    | Reset, _ => (Idle, on_reset p)
    | _, _ => x
    end.
  (* filewritepart.py 34-48. *)
  Definition start : phase * part := (Idle, mkPart None None 0 0 0 [] [] true).
  (* A history: runnablecontroller.py 428-720. *)
  Definition run (h : list event) : phase * part := fold_left step h start.

  (* ---- What it says it makes ---- *)
  (* scanning/infos.py 86-112, without the type of dataset. *)
  Record produced := mkProduced { i_name : string; i_file : string; i_rank : nat; i_path : string; i_uid : string }.
  (* filewritepart.py 21-24. *)
  Definition data_path : string := "/entry/data".
  (* filewritepart.py 22. *)
  Definition sum_path : string := "/entry/sum".
  (* filewritepart.py 23. *)
  Definition uid_path : string := "/entry/uid".
  (* SET_PATH % axis: filewritepart.py 24. *)
  Definition set_path (a : string) : string := ("/entry/" ++ a ++ "_set")%string.
  (* _create_infos: filewritepart.py 141-169. *)
  Definition create_infos (g : gen) (name file : string) : list produced :=
    mkProduced (name ++ ".data")%string file (length (g_shape g) + 2) data_path uid_path
    :: mkProduced (name ++ ".sum")%string file (length (g_shape g) + 2) sum_path uid_path
    :: map (fun a => mkProduced (a ++ ".value_set")%string file 1 (set_path a) "") (g_axes g).
  (* The datasets of the file that _create_hdf makes and the rank of each: filewritepart.py 180-199. *)
  Definition file_paths (g : gen) : list (string * nat) :=
    let f := create_hdf g in
    (data_path, length (ds_shape (f_data f))) :: (uid_path, length (ds_shape (f_uid f)))
    :: (sum_path, length (ds_shape (f_sum f))) :: map (fun a => (set_path a, 1)) (concat (g_dims g)).
End file.

(* ---- The table of datasets ---- *)
(* What a part may report: core/info.py 22-58; None: it reported nothing or failed. *)
Inductive info := Dataset (i : produced) | Other.
(* filter_parts, filter_values: core/info.py 22-58. *)
Fixpoint datasets_of (l : list info) : list produced :=
  match l with [] => [] | Dataset i :: r => i :: datasets_of r | Other :: r => datasets_of r end.
(* core/info.py 43-58. *)
Definition filter_values (part_info : list (string * option (list info))) : list produced :=
  concat (map (fun p => match snd p with Some l => datasets_of l | None => [] end) part_info).
(* DatasetTable: scanning/util.py, as datasettablepart.py 33-43 makes it; columns. *)
Record table := mkTable { t_name : list string; t_file : list string; t_rank : list nat; t_path : list string;
                          t_uid : list string }.
(* on_post_configure: datasettablepart.py 29-45. *)
Definition on_post_configure (part_info : list (string * option (list info))) : table :=
  let l := filter_values part_info in
  mkTable (map i_name l) (map i_file l) (map i_rank l) (map i_path l) (map i_uid l).
(* on_reset: datasettablepart.py 47-48; a table without rows. *)
Definition no_table : table := mkTable [] [] [] [] [].

(* ---- The motors ---- *)
Local Open Scope Q_scope.
(* move of CounterMovePart: countermovepart.py 36-50.  [clock]: what time.time() gives at each turn of the loop; the
   values put to counter, and whether it has come to the end. *)
Fixpoint ticks (start duration demand distance remaining : Q) (clock : list Q) : list Q * bool :=
  if Qlt_le_dec 0 remaining then
    let v := demand - distance * remaining / duration in
    match clock with
    | [] => ([v], false)
    | t :: r => let '(l, d) := ticks start duration demand distance (start + duration - t) r in (v :: l, d)
    end
  else ([demand], true).
(* countermovepart.py 36-50; pos: child.counter.value. *)
Definition move (pos start duration demand : Q) (clock : list Q) : list Q * bool :=
  ticks start duration demand (demand - pos) duration clock.

(* One axis of a MotionChildPart: where it is, and _last_move of its MaybeMover: motionchildpart.py 13-28. *)
Record axis := mkAxis { a_pos : Q; a_last : option Q }.
(* What is done to a counter: countermovepart.py 43-50.  [Timed p]: the value is read, ticks on and ends at p;
   [Instant p]: p is put (46, 50 with a duration of 0 or less). *)
Inductive task := Instant (p : Q) | Timed (p : Q).
(* self._last_move != position: motionchildpart.py 26. *)
Definition same (l : option Q) (p : Q) : bool := match l with Some q => Qeq_bool q p | None => false end.
(* maybe_move_async: motionchildpart.py 21-28; None: it does not move. *)
Definition maybe_move (t : task) (a : axis) : axis * list task :=
  let p := match t with Instant p | Timed p => p end in
  if same (a_last a) p then (a, []) else (mkAxis (a_pos a) (Some p), [t]).
(* What an axis is asked in one turn of on_run; [late]: whether the time for the point is already over:
   motionchildpart.py 98-110. *)
Definition point_tasks (lower upper : Q) (late : bool) (a : axis) : axis * list task :=
  let '(a1, l1) := maybe_move (Instant lower) a in
  let '(a2, l2) := maybe_move (if late then Instant upper else Timed upper) a1 in
  (a2, l1 ++ l2).
(* The end of a move: countermovepart.py 50. *)
Definition ended (p : Q) (t : task) : Q := match t with Instant q | Timed q => q end.
(* on_configure, for one axis, at step c: motionchildpart.py 65-90; a new MaybeMover, so it is always moved. *)
Definition to_start (lower : nat -> Q) (c : nat) (a : axis) : axis :=
  let '(a1, l) := maybe_move (Instant (lower c)) (mkAxis (a_pos a) None) in
  mkAxis (fold_left ended l (a_pos a1)) (a_last a1).
(* One turn of on_run: motionchildpart.py 98-112.  [swap]: the moves of the two tasks are made by threads of their own
   (core/controller.py handle_request), so the one that was asked last need not end last. *)
Definition turn (lower upper : Q) (late swap : bool) (a : axis) : axis * list task :=
  let '(a1, l) := point_tasks lower upper late a in
  (mkAxis (fold_left ended (if swap then rev l else l) (a_pos a1)) (a_last a1), l).
(* on_run: motionchildpart.py 92-119, for one axis; the progress reported, and whether it was stopped by exceptionStep
   (116-119).  [late i]: the time for point i was over. *)
Fixpoint motion_run (lower upper : nat -> Q) (late swap : nat -> bool) (exc c n : nat) (a : axis)
  : axis * list nat * bool :=
  match n with
  | O => (a, [], true)
  | Datatypes.S n =>
      let a1 := fst (turn (lower c) (upper c) (late c) (swap c) a) in
      if Nat.eqb (c + 1) exc then (a1, [(c + 1)%nat], false)
      else let '(a2, r, ok) := motion_run lower upper late swap exc (c + 1) n a1 in (a2, (c + 1)%nat :: r, ok)
  end.
