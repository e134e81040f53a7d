(* Model of a manager block and its child parts: layout, exports, the modified light, saving and
   loading.  /repo/malcolm/modules/builtin/controllers/managercontroller.py and
   builtin/parts/childpart.py. *)
From Coq Require Import String Bool Arith ZArith List.
From Verif Require Import Base.
Import ListNotations.
Local Open Scope list_scope.

Section Mgr.
(* Python values.  none: None; vstr: a string; eqv: ==; same: two messages made from (new,
   original) have the same text (childpart.py 352-357, repr); js: json_decode of json_encode.
   All are arbitrary functions *)
Context {V : Type}.
Variable none : V.
Variable vstr : string -> V.
Variable eqv : V -> V -> bool.
Variable same : V * V -> V * V -> bool.
Variable js : V -> V.

(* an attribute of a child block: value, iteration of its config tag if it has one
   (tags.py 143-160), meta.writeable, and what its meta makes of a value put to it *)
Record attr := mkA { a_value : V; a_config : option nat; a_writeable : bool; a_validate : V -> V }.
(* models.py 346-356: it gets a value *)
Definition revalued (a : attr) (v : V) : attr := mkA v (a_config a) (a_writeable a) (a_validate a).
(* builtin/infos.py 29-74: ports of a child block; the types of ports are numbers *)
Inductive portinfo :=
| Source (name : string) (port : nat) (connected : string)
| Sink (name : string) (port : nat) (disconnected : string) (value : V).

(* childpart.py 110-136.  ch_attrs: the attributes of the child block (fields that come and go
   are in Child_Model); coordinates are integers here *)
Record child := mkCh {
  ch_name : string; ch_mri : string; ch_x : Z; ch_y : Z; ch_visible : option bool;
  ch_pvis : dict bool;           (* part_visibility *)
  ch_attrs : dict attr;
  ch_nosave : list string;       (* no_save_attribute_names *)
  ch_saved : dict V;             (* saved_structure *)
  ch_msgs : dict (V * V)         (* modified_messages *)
}.
(* setters for single fields of the child (Python assignments in childpart.py): childpart.py 107-132 *)
Definition with_attrs (c : child) a := mkCh (ch_name c) (ch_mri c) (ch_x c) (ch_y c) (ch_visible c) (ch_pvis c) a (ch_nosave c) (ch_saved c) (ch_msgs c).
(* ..: childpart.py 210-258. *)
Definition with_saved (c : child) s := mkCh (ch_name c) (ch_mri c) (ch_x c) (ch_y c) (ch_visible c) (ch_pvis c) (ch_attrs c) (ch_nosave c) s (ch_msgs c).
(* ..: childpart.py 345-366. *)
Definition with_msgs (c : child) m := mkCh (ch_name c) (ch_mri c) (ch_x c) (ch_y c) (ch_visible c) (ch_pvis c) (ch_attrs c) (ch_nosave c) (ch_saved c) m.
(* ..: childpart.py 181-208. *)
Definition with_place (c : child) x y v := mkCh (ch_name c) (ch_mri c) x y v (ch_pvis c) (ch_attrs c) (ch_nosave c) (ch_saved c) (ch_msgs c).
(* ..: childpart.py 421-456. *)
Definition with_pvis (c : child) p := mkCh (ch_name c) (ch_mri c) (ch_x c) (ch_y c) (ch_visible c) p (ch_attrs c) (ch_nosave c) (ch_saved c) (ch_msgs c).

(* childpart.py 85-88, 318 and 253: config tagged, and not in no_save *)
Definition tracked (c : child) (n : string) : bool :=
  match dget n (ch_attrs c) with
  | Some a => match a_config a with Some _ => negb (smem n (ch_nosave c)) | None => false end
  | None => false
  end.
(* what a part reports (PartModifiedInfo); None: nothing: childpart.py 337-366 *)
Notation report := (option (dict (V * V))).
(* childpart.py 345-366, send_modified_info_if_not_equal *)
Definition send_modified (c : child) (n : string) (new : V) : child * report :=
  let original := match dget n (ch_saved c) with Some v => v | None => none end in
  let message := if eqv original new then None else Some (new, original) in
  let changed := match message, dget n (ch_msgs c) with
                 | None, None => false
                 | Some a, Some b => negb (same a b)
                 | _, _ => true
                 end in
  if changed then
    let ms := match message with Some a => dset n a (ch_msgs c) | None => ddel n (ch_msgs c) end in
    (with_msgs c ms, Some ms)
  else (c, None).
(* the child block's attribute n gets value v (its own doing, or after validation of a put), and
   the subscription made in childpart.py 318-326 tells update_part_modified, 337-343 *)
Definition set_attr (c : child) (n : string) (v : V) : child * report :=
  match dget n (ch_attrs c) with
  | None => (c, None)
  | Some a =>
    let c1 := with_attrs c (dset n (revalued a v) (ch_attrs c)) in
    if tracked c n then send_modified c1 n v else (c1, None)
  end.
(* a put to it (views.py 168-187).  Simplification: the child takes every put, sets the value its
   meta makes of it, and nothing else *)
Definition put_attr (c : child) (n : string) (v : V) : child * report :=
  match dget n (ch_attrs c) with
  | None => (c, None)
  | Some a => set_attr c n (a_validate a v)
  end.
(* the later of two reports counts: the controller keeps the last (managercontroller.py 209-210) *)
Definition later (a b : report) : report := match b with Some _ => b | None => a end.
(* childpart.py child.put_attribute_values: one after the other; views.py 168-186 has them in
   sorted order and waits for all *)
Fixpoint put_attrs (c : child) (l : list (string * V)) : child * report :=
  match l with
  | [] => (c, None)
  | (n, v) :: r => let (c1, r1) := put_attr c n v in let (c2, r2) := put_attrs c1 r in (c2, later r1 r2)
  end.

(* layout rows: builtin/util.py LayoutTable: builtin/util.py 87-108 *)
Record row := mkRow { r_name : string; r_mri : string; r_x : Z; r_y : Z; r_visible : bool }.

(* childpart.py 375-380 _source_port_lookup: dict connected_value -> port *)
Definition source_lookup (l : list portinfo) : dict nat :=
  fold_left (fun d i => match i with Source _ p cv => dset cv p d | Sink _ _ _ _ => d end) l [].
(* source_port_lookup.get(value) == port, for an attribute value: it is a key of the lookup if it
   is equal to that string: childpart.py 375-380 *)
Definition looks_up (d : dict nat) (v : V) (port : nat) : bool :=
  match find (fun kv => eqv (vstr (fst kv)) v) d with Some (_, p) => Nat.eqb p port | None => false end.
(* childpart.py 368-373: our Sink Ports, by name *)
Definition sinks (ports : dict (list portinfo)) (c : child) : dict (nat * string) :=
  fold_left (fun d i => match i with Sink n p dis _ => dset n (p, dis) d | Source _ _ _ => d end)
    (match dget (ch_name c) ports with Some l => l | None => [] end) [].
(* childpart.py 382-419, sever_sink_ports; connected_to None: all.  The attributes to put *)
Definition severed (c : child) (ports : dict (list portinfo)) (connected_to : option string) : list (string * V) :=
  let lookup := match connected_to with
                | None => None
                | Some n => if String.eqb n "" then None  (* "if connected_to" *)
                            else Some (source_lookup (match dget n ports with Some l => l | None => [] end))
                end in
  flat_map (fun s => let '(n, (p, dis)) := s in
    match dget n (ch_attrs c) with
    | None => []  (* not reached: ports are attributes of the child *)
    | Some a =>
      if match lookup with None => true | Some d => looks_up d (a_value a) p end && a_writeable a
      then [(n, vstr dis)] else []
    end) (sinks ports c).
(* ... put: childpart.py 382-419 *)
Definition sever (c : child) (ports : dict (list portinfo)) (connected_to : option string) : child * report :=
  put_attrs c (severed c ports connected_to).

(* childpart.py 421-456, calculate_part_visibility *)
Definition calc_visibility (ports : dict (list portinfo)) (pvis : dict bool) : dict bool :=
  let lookup := flat_map (fun pl => flat_map (fun i => match i with Source _ p cv => [(cv, (fst pl, p))] | _ => [] end) (snd pl)) ports in
  let lookup := fold_left (fun d kv => dset (fst kv) (snd kv) d) lookup [] in
  fold_left (fun pv pl =>
    fold_left (fun pv i =>
      match i with
      | Source _ _ _ => pv
      | Sink _ p dis v =>
        if eqv v (vstr dis) then pv
        else match find (fun kv => eqv (vstr (fst kv)) v) lookup with
             | Some (_, (conn, p')) =>
               if Nat.eqb p' p then
                 let pv := if dmem conn pv then pv else dset conn true pv in
                 if dmem (fst pl) pv then pv else dset (fst pl) true pv
               else pv
             | None => pv
             end
      end) (snd pl) pv) ports pvis.

(* childpart.py 181-207, on_layout, the loop over the rows of the table written *)
Fixpoint layout_rows (ports : dict (list portinfo)) (c : child) (l : list row) : child * report :=
  match l with
  | [] => (c, None)
  | r :: t =>
    let (c1, r1) :=
      if String.eqb (r_name r) (ch_name c) then
        let (c1, r1) := match ch_visible c with
                        | Some true => if r_visible r then (c, None) else sever c ports None
                        | _ => (c, None)
                        end in
        (with_place c1 (r_x r) (r_y r) (Some (r_visible r)), r1)
      else
        let was := match dget (r_name r) (ch_pvis c) with Some b => b | None => false end in
        let (c1, r1) := if was && negb (r_visible r) then sever c ports (Some (r_name r)) else (c, None) in
        (with_pvis c1 (dset (r_name r) (r_visible r) (ch_pvis c1)), r1) in
    let (c2, r2) := layout_rows ports c1 t in (c2, later r1 r2)
  end.
(* childpart.py 181-207, on_layout *)
Definition on_layout (ports : dict (list portinfo)) (value : list row) (c : child) : child * report :=
  let first_call := match ch_pvis c with [] => true | _ => false end in
  let (c1, r1) := layout_rows ports c value in
  let c2 := if first_call then with_pvis c1 (calc_visibility ports (ch_pvis c1)) else c1 in
  (match ch_visible c2 with
   | Some _ => c2
   | None => with_place c2 (ch_x c2) (ch_y c2)
               (Some (match dget (ch_name c2) (ch_pvis c2) with Some b => b | None => false end))
   end, r1).
(* childpart.py 205-207: the LayoutInfo returned, as the row it becomes (managercontroller.py
   169-175).  After on_layout visible is not None; false stands for that *)
Definition row_of (c : child) : row :=
  mkRow (ch_name c) (ch_mri c) (ch_x c) (ch_y c) (match ch_visible c with Some b => b | None => false end).

(* childpart.py 248-257, on_save: what is saved *)
Definition structure (c : child) : dict V :=
  flat_map (fun na => if tracked c (fst na) then [(fst na, a_value (snd na))] else []) (ch_attrs c).
(* ..: childpart.py 248-258. *)
Definition on_save (c : child) : child := with_saved c (structure c).

(* childpart.py 214-232: the iterations, sorted, each once *)
Fixpoint insert_nat (n : nat) (l : list nat) : list nat :=
  match l with
  | [] => [n]
  | m :: r => if Nat.ltb n m then n :: l else if Nat.eqb n m then l else m :: insert_nat n r
  end.
(* the attributes of the structure that are restored, with their iteration: childpart.py 210-246 *)
Definition restorable (c : child) (init : bool) (st : dict V) : list (nat * (string * V)) :=
  flat_map (fun kv =>
    if init && String.eqb (fst kv) "design" then []
    else match dget (fst kv) (ch_attrs c) with
         | Some a => match a_config a with Some i => [(i, kv)] | None => [] end
         | None => []
         end) st.
(* childpart.py 233-240: one iteration: those that differ are put *)
Definition load_iteration (rest : list (nat * (string * V))) (c : child) (i : nat) : child * report :=
  let to_set := filter (fun kv => match dget (fst kv) (ch_attrs c) with
                                  | Some a => negb (eqv (a_value a) (snd kv))
                                  | None => false
                                  end)
                       (map snd (filter (fun x => Nat.eqb (fst x) i) rest)) in
  put_attrs c to_set.
(* ... all of them: childpart.py 210-246 *)
Fixpoint load_iterations (rest : list (nat * (string * V))) (c : child) (is : list nat) : child * report :=
  match is with
  | [] => (c, None)
  | i :: t => let (c1, r1) := load_iteration rest c i in let (c2, r2) := load_iterations rest c1 t in (c2, later r1 r2)
  end.
(* childpart.py 210-245, on_load *)
Definition on_load (init : bool) (st : dict V) (c : child) : child * report :=
  let rest := restorable c init st in
  let is := fold_left (fun l x => insert_nat (fst x) l) rest [] in
  let (c1, r1) := load_iterations rest (with_saved c st) is in
  if init then
    match dget "design" (ch_attrs c1) with
    | Some a => let (c2, r2) := send_modified c1 "design" (a_value a) in (c2, later r1 r2)
    | None => (c1, r1)
    end
  else (c1, r1).

(* a design file (managercontroller.py 424-448): dicts of layout, exports, own attributes,
   children *)
Record file := mkF { f_layout : dict (Z * Z * bool); f_exports : dict string; f_own : dict V; f_children : dict (dict V) }.
(* managercontroller.py 63-100.  m_parts: the child parts in order (other parts have no layout and
   nothing to save here); m_own: our_config_attributes with their values; m_files: the
   configuration directory, by file name; m_ports: port_info *)
Record mgr := mkM {
  m_parts : list child; m_ports : dict (list portinfo);
  m_layout : list row; m_exports : list (string * string);
  m_savedvis : option (list bool); m_savedexp : list (string * string);
  m_partmod : dict (dict (V * V)); m_modified : bool;
  m_own : dict attr; m_design : string; m_files : dict file
}.
(* comparisons of columns and tables (table.py 38-43) *)
Definition vis_eqb (a b : list bool) : bool := if list_eq_dec bool_dec a b then true else false.
(* ..: managercontroller.py 205-245. *)
Definition exp_eqb (a b : list (string * string)) : bool :=
  Nat.eqb (length a) (length b) &&
  forallb (fun xy => String.eqb (fst (fst xy)) (fst (snd xy)) && String.eqb (snd (fst xy)) (snd (snd xy))) (combine a b).
(* managercontroller.py 205-245, update_modified: whether message_list is not empty.  The texts
   and the alarm are left out *)
Definition is_modified (m : mgr) : bool :=
  existsb (fun r => r_visible r && match dget (r_name r) (m_partmod m) with
                                   | Some (_ :: _) => true | _ => false end) (m_layout m)
  || negb (match m_savedvis m with Some v => vis_eqb (map r_visible (m_layout m)) v | None => false end)
  || negb (exp_eqb (m_exports m) (m_savedexp m)).
(* ..: managercontroller.py 205-245. *)
Definition update_modified (m : mgr) : mgr :=
  mkM (m_parts m) (m_ports m) (m_layout m) (m_exports m) (m_savedvis m) (m_savedexp m) (m_partmod m)
      (is_modified m) (m_own m) (m_design m) (m_files m).
(* part.py 133-140, managercontroller.py 205-210: a part reports *)
Definition got_report (m : mgr) (n : string) (r : report) : mgr :=
  match r with
  | None => m
  | Some d => update_modified (mkM (m_parts m) (m_ports m) (m_layout m) (m_exports m) (m_savedvis m) (m_savedexp m)
                (dset n d (m_partmod m)) (m_modified m) (m_own m) (m_design m) (m_files m))
  end.
(* the parts run a hook: each changes, and may report:
   managercontroller.py 159-192, 413-452, 506-550, core/hook.py 172-240 *)
Definition hooked (f : child -> child * report) (m : mgr) : mgr :=
  let res := map f (m_parts m) in
  fold_left (fun m cr => got_report m (ch_name (fst cr)) (snd cr)) res
    (mkM (map fst res) (m_ports m) (m_layout m) (m_exports m) (m_savedvis m) (m_savedexp m) (m_partmod m)
         (m_modified m) (m_own m) (m_design m) (m_files m)).

(* managercontroller.py 159-192, set_layout; the fields of the block are in Reg_Model *)
Definition set_layout (m : mgr) (value : list row) : mgr :=
  let m1 := hooked (on_layout (m_ports m) value) m in
  let table := map row_of (m_parts m1) in
  let changed := negb (vis_eqb (map r_visible table) (map r_visible (m_layout m1))) in
  match m_savedvis m1 with
  | None => update_modified (mkM (m_parts m1) (m_ports m1) table (m_exports m1) (Some (map r_visible table)) (m_exports m1)
                               (m_partmod m1) (m_modified m1) (m_own m1) (m_design m1) (m_files m1))
  | Some _ => let m2 := mkM (m_parts m1) (m_ports m1) table (m_exports m1) (m_savedvis m1) (m_savedexp m1)
                            (m_partmod m1) (m_modified m1) (m_own m1) (m_design m1) (m_files m1) in
              if changed then update_modified m2 else m2
  end.
(* the exports attribute takes a value (managercontroller.py 201, 536) *)
Definition with_exports (m : mgr) (e : list (string * string)) : mgr :=
  mkM (m_parts m) (m_ports m) (m_layout m) e (m_savedvis m) (m_savedexp m) (m_partmod m) (m_modified m) (m_own m) (m_design m) (m_files m).
(* managercontroller.py 194-203, set_exports, for names that pass the check (Reg_Model) *)
Definition set_exports (m : mgr) (e : list (string * string)) : mgr := update_modified (with_exports m e).

(* managercontroller.py 474-491: name.split(".json")[0]: what is before the first ".json" *)
Fixpoint before_json (s : string) : string :=
  if prefix ".json" s then EmptyString
  else match s with EmptyString => EmptyString | String c r => String c (before_json r) end.
(* managercontroller.py 552-564, _mark_clean.  The list of names of designs is left out *)
Definition mark_clean (m : mgr) (design : string) (init : bool) : mgr :=
  let m1 := update_modified
    (mkM (m_parts m) (m_ports m) (m_layout m) (m_exports m) (Some (map r_visible (m_layout m))) (m_exports m)
         (if init then m_partmod m else []) (m_modified m) (m_own m) (m_design m) (m_files m)) in
  mkM (m_parts m1) (m_ports m1) (m_layout m1) (m_exports m1) (m_savedvis m1) (m_savedexp m1) (m_partmod m1)
      (m_modified m1) (m_own m1) design (m_files m1).
(* managercontroller.py 424-441: the file written; a dict by name, by source *)
Definition file_of (m : mgr) : file :=
  mkF (fold_left (fun d r => dset (r_name r) (r_x r, r_y r, r_visible r) d) (m_layout m) [])
      (fold_left (fun d e => dset (fst e) (snd e) d) (m_exports m) [])
      (map (fun na => (fst na, js (a_value (snd na)))) (m_own m))
      (map (fun c => (ch_name c, map (fun nv => (fst nv, js (snd nv))) (structure c))) (m_parts m)).
(* managercontroller.py 417-452, do_save; None: an assert *)
Definition do_save (m : mgr) (design : string) : option mgr :=
  let design := if String.eqb design "" then m_design m else design in
  if String.eqb design "" then None
  else if prefix "template_" design then None
  else
    let m1 := hooked (fun c => (on_save c, None)) m in
    let m2 := mkM (m_parts m1) (m_ports m1) (m_layout m1) (m_exports m1) (m_savedvis m1) (m_savedexp m1) (m_partmod m1)
                  (m_modified m1) (m_own m1) (m_design m1) (dset (before_json design) (file_of m) (m_files m1)) in
    Some (mark_clean m2 design false).
(* managercontroller.py 533-550, do_load, of a structure, after the layout *)
Definition load_rest (m1 : mgr) (f : file) (design : string) (init : bool) : mgr :=
  let m2 := with_exports m1 (f_exports f) in
  let m3 := mkM (m_parts m2) (m_ports m2) (m_layout m2) (m_exports m2) (m_savedvis m2) (m_savedexp m2) (m_partmod m2) (m_modified m2)
                (fold_left (fun d nv => match dget (fst nv) d with Some a => dset (fst nv) (revalued a (a_validate a (snd nv))) d | None => d end)
                           (f_own f) (m_own m2))
                (m_design m2) (m_files m2) in
  let m4 := hooked (fun c => on_load init (match dget (ch_name c) (f_children f) with Some s => s | None => [] end) c) m3 in
  mark_clean m4 design init.
(* managercontroller.py 506-550, do_load, of a structure; template designs are left out, as are
   files in the old format *)
Definition load_file (m : mgr) (f : file) (design : string) (init : bool) : mgr :=
  load_rest (set_layout m (map (fun nd => let '(n, (x, y, v)) := nd in mkRow n "" x y v) (f_layout f))) f design init.
(* ... by name; None: no such file: managercontroller.py 506-550 *)
Definition do_load (m : mgr) (design : string) (init : bool) : option mgr :=
  if String.eqb design "" then Some (load_file m (mkF [] [] [] []) "" init)
  else match dget (before_json design) (m_files m) with
       | None => None
       | Some f => Some (load_file m f design init)
       end.

(* what can happen to a manager: puts to layout and exports, an attribute of a child block or of
   its own changing, a save, a load.  What raises leaves it as it was (it goes to Fault, C01):
   managercontroller.py 159-203, 413-552, childpart.py 337-366 *)
Inductive op :=
| SetLayout (value : list row)
| SetExports (e : list (string * string))
| ChildSet (part : string) (n : string) (v : V)
| OwnSet (n : string) (v : V)
| Save (design : string)
| Load (design : string).
(* one of them: managercontroller.py 159-203, 413-552, childpart.py 337-366 *)
Definition step (m : mgr) (o : op) : mgr :=
  match o with
  | SetLayout value => set_layout m value
  | SetExports e => set_exports m e
  | ChildSet p n v => hooked (fun c => if String.eqb (ch_name c) p then set_attr c n v else (c, None)) m
  | OwnSet n v => mkM (m_parts m) (m_ports m) (m_layout m) (m_exports m) (m_savedvis m) (m_savedexp m) (m_partmod m) (m_modified m)
                      (match dget n (m_own m) with Some a => dset n (revalued a v) (m_own m) | None => m_own m end) (m_design m) (m_files m)
  | Save d => match do_save m d with Some m' => m' | None => m end
  | Load d => match do_load m d false with Some m' => m' | None => m end
  end.
(* a history: managercontroller.py 159-203, 413-552 *)
Definition run (m : mgr) (os : list op) : mgr := fold_left step os m.
(* managercontroller.py 63-100, 141-156: as made, then do_init without an initial design.  The
   child parts have run on_init: saved what there is, and had their first updates *)
Definition made (parts : list child) (ports : dict (list portinfo)) (own : dict attr) (files : dict file) : mgr :=
  set_layout (mkM parts ports [] [] None [] [] false own "" files) [].
End Mgr.
