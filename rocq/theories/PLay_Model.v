(* The layout that a PandA keeps: pandablocks/controllers/pandamanagercontroller.py 74, 272-286,
   314-335, over the manager of Mgr_Model. *)
From Coq Require Import String Bool ZArith List.
From Verif Require Import Base Mgr_Model.
Import ListNotations.
Local Open Scope list_scope.

Section PLay.
(* The values of Mgr_Model.  order: the order in which Python lists a set (319). *)
Context {V : Type}.
Variable none : V.
Variable vstr : string -> V.
Variable eqv : V -> V -> bool.
Variable same : V * V -> V * V -> bool.
Variable js : V -> V.
Variable order : list string -> list string.

(* The manager and _json_layout (74): the place of each visible block.  Coordinates are integers,
   as in Mgr_Model. *)
Record panda := mkPa { pa_mgr : @mgr V; pa_json : dict (Z * Z) }.

(* a == b of two such dicts (Python semantics): the same keys with the same values:
   pandamanagercontroller.py 272-286, 314-335. *)
Definition place_eqb (a b : Z * Z) : bool := Z.eqb (fst a) (fst b) && Z.eqb (snd a) (snd b).
(* ... (Python semantics): pandamanagercontroller.py 272-286, 314-335 *)
Definition within (a b : dict (Z * Z)) : bool :=
  forallb (fun kv => match dget (fst kv) b with Some v => place_eqb (snd kv) v | None => false end) a.
(* ... (Python semantics): pandamanagercontroller.py 272-286, 314-335 *)
Definition json_eqb (a b : dict (Z * Z)) : bool := within a b && within b a.

(* set(a).union(b), each once: pandamanagercontroller.py 319. *)
Definition union (a b : list string) : list string := nodup string_dec (a ++ b).

(* The table for the layout of the PandA: pandamanagercontroller.py 318-324. *)
Definition from_json (layout : list row) (json : dict (Z * Z)) : list row :=
  map (fun n => match dget n json with
                | Some (x, y) => mkRow n n x y true
                | None => mkRow n n 0 0 false
                end) (order (union (map r_name layout) (dkeys json))).

(* The loop that takes the table over: pandamanagercontroller.py 327-331. *)
Definition take (json : dict (Z * Z)) (layout : list row) : dict (Z * Z) :=
  fold_left (fun j r => if r_visible r then dset (r_name r) (r_x r, r_y r) j else ddel (r_name r) j) layout json.

(* set_layout: pandamanagercontroller.py 314-335; with the layout that is written to the PandA,
   if any.  The text of it is left out. *)
Definition panda_set_layout (p : panda) (value : list row) : panda * option (dict (Z * Z)) :=
  let value' := match value with [] => from_json (m_layout (pa_mgr p)) (pa_json p) | _ => value end in
  let m := set_layout none vstr eqv same (pa_mgr p) value' in
  let json := take (pa_json p) (m_layout m) in
  (mkPa m json, if json_eqb json (pa_json p) then None else Some json).

(* _handle_change for *METADATA.LAYOUT with a value: pandamanagercontroller.py 275-282. *)
Definition got_layout (p : panda) (l : dict (Z * Z)) : panda * option (dict (Z * Z)) :=
  let p1 := mkPa (pa_mgr p) l in
  match m_layout (pa_mgr p) with
  | [] => (p1, None)
  | _ => panda_set_layout p1 []
  end.

(* What can happen, with the layout that the device keeps: a put of a table (or the first step of
   loading a design, managercontroller.py 522-532), the device having a new layout of its own, or
   something else that the manager does (Mgr_Model.step). *)
Inductive pop := PSet (value : list row) | PDevice (l : dict (Z * Z)) | POther (o : @op V).
(* What the device keeps after a write, if there was one: pandamanagercontroller.py 332-335. *)
Definition kept (dev : dict (Z * Z)) (w : option (dict (Z * Z))) : dict (Z * Z) :=
  match w with Some j => j | None => dev end.
(* One of these (pandamanagercontroller.py 275-282, 314-335); the device keeps what is written. *)
Definition pstep (s : panda * dict (Z * Z)) (o : pop) : panda * dict (Z * Z) :=
  let '(p, dev) := s in
  match o with
  | PSet value => let (p', w) := panda_set_layout p value in (p', kept dev w)
  | PDevice l => let (p', w) := got_layout p l in (p', kept l w)
  | POther o => (mkPa (step none vstr eqv same js (pa_mgr p) o) (pa_json p), dev)
  end.
(* A sequence of these (pandamanagercontroller.py 116-147). *)
Definition prun (s : panda * dict (Z * Z)) (os : list pop) : panda * dict (Z * Z) := fold_left pstep os s.
(* The start: the layout of the device is in the first changes (209), then the manager sets its
   default layout (managercontroller.py 143-157). *)
Definition pmade (parts : list (@child V)) (ports : dict (list (@portinfo V))) (own : dict (@attr V)) (files : dict (@file V))
    (l : dict (Z * Z)) : panda * dict (Z * Z) :=
  let (p, w) := panda_set_layout (mkPa (mkM parts ports [] [] None [] [] false own "" files) l) [] in (p, kept l w).
End PLay.
