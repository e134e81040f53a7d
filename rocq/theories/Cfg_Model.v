(* The parameters of configure: scanning/controllers/runnablecontroller.py 59-118, 297-331, 344-364 and 417-470,
   scanning/hooks.py 119-166, scanning/util.py 39-64, core/models.py 994-1044 and 1098-1158, core/hook.py 37-53 and
   126-143, scanning/parts/detectorchildpart.py 83-109.

   Types and values are simplified: a value is one of some scalar type or a table of integer cells, and a table is of
   the type of its columns if each row has a cell for each.  Descriptions, labels and tags are left out, and returns,
   which has the elements of takes, not writeable, and the same required. *)
From Coq Require Import String Bool ZArith Lia List.
From Verif Require Import Base.
Import ListNotations.
Local Open Scope string_scope.
Local Open Scope list_scope.

(* A VMeta: core/models.py 188-273 and 851-979: a type of scalar, or a TableMeta with its columns and whether they are writeable. *)
Inductive kind := KScalar (ty : string) | KTable (cols : list (string * bool)).
(* A value of one (core/models.py 188-273, core/table.py 5-50). *)
Inductive value := VScalar (ty : string) (z : Z) | VTable (rows : list (list Z)).
(* validate of a VMeta: core/models.py 195-204 and 907-932, of a value that has been made by its annotype. *)
Definition check (k : kind) (v : value) : option value :=
  match k, v with
  | KScalar t, VScalar t' _ => if String.eqb t t' then Some v else None
  | KTable cols, VTable rows => if forallb (fun r => Nat.eqb (length r) (length cols)) rows then Some v else None
  | _, _ => None
  end.

(* The default of an Anno: NO_DEFAULT, None or a value (annotypes; core/models.py 1132-1135, scanning/hooks.py 162-165). *)
Inductive default := NoDefault | DNone | Default (v : value).
(* func.call_types of a function with @add_call_types (annotypes), read in scanning/hooks.py 154 and core/models.py 1127. *)
Definition sig := list (string * (kind * default)).

(* ConfigureHook.call_types: scanning/hooks.py 126-137. *)
Definition ignored : list string := ["part"; "context"; "completed_steps"; "steps_to_do"; "part_info"; "generator"; "axesToMove"; "breakpoints"].
(* RunnableController.configure.call_types: runnablecontroller.py 429-436. *)
Definition own : sig := [("generator", (KScalar "generator", NoDefault)); ("axesToMove", (KScalar "str[]", DNone)); ("breakpoints", (KScalar "int32[]", DNone))].

(* ConfigureParamsInfo: scanning/infos.py 42-58. *)
Record cinfo := mkInfo { i_metas : dict kind; i_required : list string; i_defaults : dict value }.
(* ConfigureHook.create_info: scanning/hooks.py 150-166. *)
Definition create_info (f : sig) : cinfo :=
  fold_left (fun i e => let '(k, (m, d)) := e in
    if smem k ignored then i
    else mkInfo (dset k m (i_metas i)) (match d with NoDefault => i_required i ++ [k] | _ => i_required i end)
           (match d with Default v => dset k v (i_defaults i) | _ => i_defaults i end)) f (mkInfo [] [] []).

(* A MethodMeta: the elements and the required of takes, and the defaults (core/models.py 995-1094). *)
Record mmeta := mkMeta { elements : dict kind; required : list string; defaults : dict value }.
(* MapMeta.set_elements: core/models.py 1006-1014. *)
Definition set_elements (es : dict kind) : dict kind := filter (fun e => negb (String.eqb (fst e) "typeid")) es.
(* MapMeta.set_required: core/models.py 1016-1021: None is the AssertionError. *)
Definition set_required (es : dict kind) (r : list string) : option (list string) := if forallb (fun k => dmem k es) r then Some r else None.
(* MethodMeta.set_defaults: core/models.py 1082-1090: None is a KeyError or that of validate. *)
Fixpoint set_defaults (es : dict kind) (ds : dict value) : option (dict value) :=
  match ds with
  | [] => Some []
  | (k, v) :: r =>
      if String.eqb k "typeid" then set_defaults es r
      else match dget k es with
           | None => None
           | Some m => match check m v, set_defaults es r with Some v', Some r' => Some ((k, v') :: r') | _, _ => None end
           end
  end.
(* MethodMeta.from_callable: core/models.py 1096-1158; the metas of the arguments and which of them are required. *)
Definition from_callable (f : sig) : dict kind * list string :=
  (map (fun e => (fst e, fst (snd e))) f, map fst (filter (fun e => match snd (snd e) with NoDefault => true | _ => false end) f)).

(* The required arguments of the infos: runnablecontroller.py 75-80.  None is the KeyError of info.metas[k]. *)
Fixpoint add_required (metas_of : dict kind) (ks : list string) (s : list string * dict kind) : option (list string * dict kind) :=
  match ks with
  | [] => Some s
  | k :: r => if smem k (fst s ++ ignored) then add_required metas_of r s
              else match dget k metas_of with Some m => add_required metas_of r (fst s ++ [k], dset k m (snd s)) | None => None end
  end.
(* runnablecontroller.py 74-79. *)
Fixpoint all_required (is : list cinfo) (s : list string * dict kind) : option (list string * dict kind) :=
  match is with [] => Some s | i :: r => match add_required (i_metas i) (i_required i) s with Some s' => all_required r s' | None => None end end.

(* Whether the defaults for this are put together: runnablecontroller.py 92-94.  min() of no columns is a ValueError (None). *)
Definition merges (m : kind) : option bool :=
  match m with KScalar _ => Some false | KTable [] => None | KTable cols => Some (negb (forallb snd cols)) end.
(* v.rows(): core/table.py 31-36; None is an AttributeError. *)
Definition rows (v : value) : option (list (list Z)) := match v with VTable l => Some l | VScalar _ _ => None end.
(* The default for k: runnablecontroller.py 91-105; meta.table_cls.from_rows takes any rows here. *)
Definition add_default (k : string) (m : kind) (v : value) (ds : dict value) : option (dict value) :=
  match merges m with
  | None => None
  | Some false => Some (dset k v ds)
  | Some true =>
      match match dget k ds with Some v0 => rows v0 | None => Some [] end, rows v with
      | Some a, Some b => Some (dset k (VTable (a ++ b)) ds)
      | _, _ => None
      end
  end.
(* The optional arguments of an info: runnablecontroller.py 87-105. *)
Fixpoint add_optional (req : list string) (defs : dict value) (ms : dict kind) (s : dict kind * dict value) : option (dict kind * dict value) :=
  match ms with
  | [] => Some s
  | (k, m) :: r =>
      if smem k (req ++ ignored) then add_optional req defs r s
      else match match dget k defs with Some v => add_default k m v (snd s) | None => Some (snd s) end with
           | Some ds => add_optional req defs r (dset k m (fst s), ds)
           | None => None
           end
  end.
(* runnablecontroller.py 85-103. *)
Fixpoint all_optional (req : list string) (is : list cinfo) (s : dict kind * dict value) : option (dict kind * dict value) :=
  match is with [] => Some s | i :: r => match add_optional req (i_defaults i) (i_metas i) s with Some s' => all_optional req r s' | None => None end end.

(* update_configure_model: runnablecontroller.py 58-118, for a fresh model of the function [f].  None is an exception. *)
Definition update_configure_model (f : sig) (is : list cinfo) : option mmeta :=
  let '(els, rq) := from_callable f in
  (* 71-73 *)
  let metas0 := fold_left (fun ms k => match dget k els with Some m => dset k m ms | None => ms end) rq [] in
  match all_required is (rq, metas0) with
  | None => None
  | Some (req, metas1) =>
      (* 83-85 *)
      let metas2 := fold_left (fun ms e => if smem (fst e) req then ms else dset (fst e) (snd e) ms) els metas1 in
      match all_optional req is (metas2, []) with
      | None => None
      | Some (metas, defs) =>
          (* 107-118 *)
          let es := set_elements metas in
          match set_required es req, set_defaults es defs with
          | Some r, Some d => Some (mkMeta es r d)
          | _, _ => None
          end
      end
  end.

(* What the controller holds: part_configure_params, whether there is a process, and the metas of the methods configure and
   validate (runnablecontroller.py 120-140). *)
Record cstate := mkState { reported : dict cinfo; process : bool; m_configure : mmeta; m_validate : mmeta }.
(* What can happen: a part reports an info (core/part.py 123-140, 227-229), the process is set, or the block
   endpoints are updated. *)
Inductive cevent := Report (part : string) (i : cinfo) | SetProcess | Endpoints.
(* The infos in the order of the parts: runnablecontroller.py 310-315. *)
Definition infos_of (parts : list string) (rep : dict cinfo) : list cinfo :=
  flat_map (fun p => match dget p rep with Some i => [i] | None => [] end) parts.
(* update_configure_params after the dict was updated: runnablecontroller.py 306-331; the second set of the elements, required and
   defaults, of values that were taken before, is not gone through again.  Exceptions come before the block is touched. *)
Definition update (parts : list string) (s : cstate) : cstate :=
  if process s then
    match update_configure_model own (infos_of parts (reported s)) with
    | Some m => mkState (reported s) (process s) m m
    | None => s
    end
  else s.
(* runnablecontroller.py 296-335. *)
Definition cstep (parts : list string) (s : cstate) (e : cevent) : cstate :=
  match e with
  | Report p i => update parts (mkState (dset p i (reported s)) (process s) (m_configure s) (m_validate s))
  | SetProcess => mkState (reported s) true (m_configure s) (m_validate s)
  | Endpoints => update parts s
  end.

(* ---- a call ---- *)
(* MapMeta.validate: core/models.py 1023-1055, without add_missing; the arguments in the order of the elements. *)
Fixpoint pick (es : dict kind) (params : dict value) : option (dict value) :=
  match es with
  | [] => Some []
  | (k, m) :: r =>
      match dget k params with
      | None => pick r params
      | Some v => match check m v, pick r params with Some v', Some r' => Some ((k, v') :: r') | _, _ => None end
      end
  end.
(* core/models.py 1023-1055. *)
Definition takes_validate (m : mmeta) (params : dict value) : option (dict value) :=
  if forallb (fun k => dmem k (elements m)) (dkeys params) then
    match pick (elements m) params with
    | Some args => if forallb (fun k => dmem k args) (required m) then Some args else None
    | None => None
    end
  else None.
(* The loop in 365-366 of runnablecontroller.py: kwargs.setdefault. *)
Definition fill (defs kw : dict value) : dict value := fold_left (fun d e => if dmem (fst e) d then d else dset (fst e) (snd e) d) defs kw.
(* ConfigureParams, and _part_params (scanning/util.py 39-64, runnablecontroller.py 337-351): [axes] is generator.axes. *)
Definition part_params (axes : value -> value) (took defs : dict value) : option (dict value) :=
  match dget "generator" took with
  | None => None
  | Some g =>
      let kw := fill defs (filter (fun e => negb (smem (fst e) ["generator"; "axesToMove"; "breakpoints"])) took) in
      Some ([("generator", g); ("axesToMove", match dget "axesToMove" took with Some a => a | None => axes g end);
             ("breakpoints", match dget "breakpoints" took with Some b => b | None => VScalar "int32[]" 0 end)] ++ kw)
  end.
(* Hook.__call__: core/hook.py 126-143: what func is called with; None is the AssertionError.  [sys] are the arguments of
   ConfigureHook that are not parameters: context, completed_steps, steps_to_do and part_info (scanning/hooks.py 138-148). *)
Fixpoint demand (supplied : dict value) (ks : list string) : option (dict value) :=
  match ks with
  | [] => Some []
  | k :: r => match dget k supplied, demand supplied r with Some v, Some d => Some ((k, v) :: d) | _, _ => None end
  end.
(* core/hook.py 126-143. *)
Definition hook_args (sys params : dict value) (f : sig) : option (dict value) := demand (sys ++ params) (map fst f).

(* ---- detectors ---- *)
(* DetectorChildPart.on_configure.call_types: detectorchildpart.py 306-316. *)
Definition det_table (w : bool) : kind := KTable [("enable", true); ("name", w); ("mri", w); ("exposure", true); ("framesPerStep", true)].
(* detectorchildpart.py 306-316. *)
Definition det_sig : sig := [("context", (KScalar "context", NoDefault)); ("generator", (KScalar "generator", NoDefault)); ("fileDir", (KScalar "str", NoDefault));
  ("detectors", (det_table true, DNone)); ("axesToMove", (KScalar "str[]", DNone)); ("breakpoints", (KScalar "int32[]", DNone)); ("fileTemplate", (KScalar "str", Default (VScalar "str" 5)))].
(* DetectorChildPart.on_layout: detectorchildpart.py 83-109: the info that it reports; a row is the enable, name, mri, exposure and frames. *)
Record dpart := mkDet { d_name : Z; d_mri : Z; d_visible : bool; d_frames : Z }.
(* detectorchildpart.py 94-102. *)
Definition det_rows (p : dpart) : list (list Z) :=
  if d_visible p then [if (d_frames p =? 0)%Z then [0; d_name p; d_mri p; 0; 1]%Z else [1; d_name p; d_mri p; 0; d_frames p]%Z] else [].
(* detectorchildpart.py 91-108. *)
Definition det_info (p : dpart) : cinfo :=
  let i := create_info det_sig in
  mkInfo (dset "detectors" (det_table false) (i_metas i)) (i_required i) (dset "detectors" (VTable (det_rows p)) (i_defaults i)).

(* ---- other parts ---- *)
(* Strings are numbers here: "%s.h5" is 5, "%s.nxs" is 6 and "det" is 7.
   HDFWriterPart.on_configure.call_types: ADCore/parts/hdfwriterpart.py 512-522. *)
Definition hdf_sig : sig := [("context", (KScalar "context", NoDefault)); ("completed_steps", (KScalar "int", NoDefault)); ("steps_to_do", (KScalar "int", NoDefault)); ("part_info", (KScalar "part_info", NoDefault));
  ("generator", (KScalar "generator", NoDefault)); ("fileDir", (KScalar "str", NoDefault)); ("formatName", (KScalar "str", Default (VScalar "str" 7))); ("fileTemplate", (KScalar "str", Default (VScalar "str" 5)))].
(* KinematicsSavuPart.on_configure.call_types: ADPandABlocks/parts/kinematicssavupart.py 95-103. *)
Definition savu_sig : sig := [("context", (KScalar "context", NoDefault)); ("fileDir", (KScalar "str", NoDefault)); ("generator", (KScalar "generator", NoDefault)); ("axesToMove", (KScalar "str[]", NoDefault));
  ("part_info", (KScalar "part_info", NoDefault)); ("fileTemplate", (KScalar "str", Default (VScalar "str" 6)))].
(* PandAPulseTriggerPart.on_configure.call_types: ADPandABlocks/parts/pandapulsetriggerpart.py 99-104; it reports no info. *)
Definition pulse_sig : sig := [("context", (KScalar "context", NoDefault)); ("generator", (KScalar "generator", NoDefault)); ("detectors", (det_table true, DNone))].
