(* Model of the block that tells of an IOC, /repo/malcolm/modules/system/parts/dirparsepart.py, and
   of the list of IOCs of a ProcessController,
   /repo/malcolm/modules/system/controllers/ProcessController.py. *)
From Coq Require Import String Ascii Bool Arith List.
From Verif Require Import Base.
From Verif Require Yaml_Model Savu_Model Bus_Model.
Import ListNotations.
Local Open Scope string_scope.
Local Open Scope list_scope.

(* ---- parse_release, dirparsepart.py 156-188 ---- *)
(* dirparsepart.py 163-165: dep.startswith("#"). *)
Definition comment (l : string) : bool := String.prefix "#" l.

(* dirparsepart.py 166-169: one line, without its end.  Simplified: strip (164) also takes an end of
   line away from the start, where there is none. *)
Definition assign (d : dict string) (l : string) : dict string :=
  match Savu_Model.split "="%char (Yaml_Model.replace " " "" l) with
  | [k; v] => dset k v d
  | _ => d
  end.
(* dirparsepart.py 162-169. *)
Definition read_release (lines : list string) : dict string :=
  fold_left assign (filter (fun l => negb (comment l)) lines) [].

(* dirparsepart.py 173-174: the inner loop.  v1 was read before it started. *)
Definition replace_in (k1 v1 : string) (d : dict string) : dict string :=
  map (fun kv => (fst kv, Yaml_Model.replace ("$(" ++ k1 ++ ")")%string v1 (snd kv))) d.
(* dirparsepart.py 172-174: one turn of the outer loop: items() gives the value that the key has by
   then. *)
Definition expand1 (d : dict string) (k1 : string) : dict string :=
  match dget k1 d with Some v1 => replace_in k1 v1 d | None => d end.
(* dirparsepart.py 172-174. *)
Definition expand (d : dict string) : dict string := fold_left expand1 (dkeys d) d.

(* ---- the part, dirparsepart.py 22-188 ---- *)
(* The alarms of the HealthInfo: dirparsepart.py 111-140: OK, running from a non-prod area (MINOR),
   not running (UNDEFINED), neither IOC nor procServ are running (INVALID). *)
Inductive alarm := Healthy | NonProd | NotRunning | Neither.

(* dirparsepart.py 22-25, 65-81: has_procserv, dls_version, the health last reported, dir1, dir2,
   the dependencies and whether they have the alarm of a directory that is not found. *)
Record part := mkPart {
  procserv : bool; version : option string; health : option alarm;
  dir1 : option string; dir2 : option string;
  table : list (string * string); not_found : bool }.
(* dirparsepart.py 22-81. *)
Definition new_part : part := mkPart false None None None None [] false.

(* dirparsepart.py 115: value.lower() is "work" or "other". *)
Definition non_prod (v : string) : bool :=
  String.eqb (Bus_Model.lower v) "work" || String.eqb (Bus_Model.lower v) "other".

(* version_updated: dirparsepart.py 111-140.  None is a value that is None or not ok. *)
Definition version_updated (v : option string) (p : part) : part :=
  match v with
  | Some s => mkPart (procserv p) (Some s) (Some (if non_prod s then NonProd else Healthy))
                     (dir1 p) (dir2 p) (table p) (not_found p)
  | None => mkPart (procserv p) (version p) (Some (if procserv p then NotRunning else Neither))
                   (dir1 p) (dir2 p) (table p) (not_found p)
  end.

(* set_procserv_state: dirparsepart.py 106-110. *)
Definition set_procserv_state (ok : bool) (p : part) : part :=
  if ok then version_updated (version p)
               (mkPart true (version p) (health p) (dir1 p) (dir2 p) (table p) (not_found p))
  else p.

Section files.
  (* The lines of configure/RELEASE in a directory, None if one of the two is not there:
     dirparsepart.py 157-162.  Simplified: they stay as they are. *)
  Variable release : string -> option (list string).

  (* parse_release: dirparsepart.py 156-188; set_value takes the alarm away
     (core/models.py 323-345). *)
  Definition parse_release (dir : string) (p : part) : part :=
    match release dir with
    | Some lines =>
        match filter (fun l => negb (comment l)) lines with
        | [] => p
        | _ => mkPart (procserv p) (version p) (health p) (dir1 p) (dir2 p)
                      (expand (read_release lines)) false
        end
    | None => mkPart (procserv p) (version p) (health p) (dir1 p) (dir2 p) (table p) true
    end.

  (* The end of set_dir1 and set_dir2: dirparsepart.py 145-147, 152-154. *)
  Definition update_dir (p : part) : part :=
    match dir1 p, dir2 p with
    | Some a, Some b => parse_release (a ++ b)%string p
    | _, _ => p
    end.
  (* set_dir1: dirparsepart.py 142-147.  None is a value that is not ok. *)
  Definition set_dir1 (v : option string) (p : part) : part :=
    update_dir (mkPart (procserv p) (version p) (health p)
                       (match v with Some _ => v | None => dir1 p end) (dir2 p) (table p) (not_found p)).
  (* set_dir2: dirparsepart.py 149-154. *)
  Definition set_dir2 (v : option string) (p : part) : part :=
    update_dir (mkPart (procserv p) (version p) (health p)
                       (dir1 p) (match v with Some _ => v | None => dir2 p end) (table p) (not_found p)).

  (* An update of one of the PVs: dirparsepart.py 30-63; None and false are not ok. *)
  Inductive event :=
  | Version (v : option string) | Status (ok : bool) | Dir1 (v : option string) | Dir2 (v : option string).
  (* The callback of each: dirparsepart.py 30-63. *)
  Definition step (p : part) (e : event) : part :=
    match e with
    | Version v => version_updated v p
    | Status ok => set_procserv_state ok p
    | Dir1 v => set_dir1 v p
    | Dir2 v => set_dir2 v p
    end.
  (* dirparsepart.py 30-63. *)
  Definition run (es : list event) : part := fold_left step es new_part.
End files.

(* ---- ProcessController.py ---- *)
(* ioc_list.split(" ") without an empty last one: ProcessController.py 81-83. *)
Definition bl_iocs (ioc_list : string) : list string :=
  let l := Savu_Model.split " "%char ioc_list in
  if String.eqb (last l "") "" then removelast l else l.

(* get_ioc_list: ProcessController.py 169-176: the mris of the controllers that are added (205-207)
   and the parts, with the mri of each. *)
Definition ioc_mris (iocs : list string) : list string := map (fun i => (i ++ ":STATUS")%string) iocs.
(* ProcessController.py 175-176. *)
Definition ioc_parts (iocs : list string) : list (string * string) :=
  map (fun i => (i, (i ++ ":STATUS")%string)) iocs.
