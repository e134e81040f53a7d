(** Specification vocabulary for C01-C03, C39: the state graphs as plain lists
    of edges, paths, what a field's declared states are, latest reports.  From
    the model only the vocabulary of events ([op], [alarm], [kind]) is used, none
    of its functions. *)
From Coq Require Import List String Bool.
From Verif Require Import Base States_Model.
Import ListNotations.
Local Open Scope string_scope.
Local Open Scope list_scope.

(** Published state graph of a stateful block. *)
Definition stateful_edges : list (string * string) :=
  [("Resetting","Ready"); ("Resetting","Fault"); ("Resetting","Disabling");
   ("Ready","Fault"); ("Ready","Disabling");
   ("Fault","Resetting"); ("Fault","Disabling");
   ("Disabling","Fault"); ("Disabling","Disabled");
   ("Disabled","Resetting")].

(** ... of a manager block. *)
Definition manager_edges : list (string * string) :=
  stateful_edges ++
  [("Ready","Saving"); ("Ready","Loading");
   ("Saving","Ready"); ("Saving","Fault"); ("Saving","Disabling");
   ("Loading","Ready"); ("Loading","Fault"); ("Loading","Disabling")].

(** ... of a runnable (scannable) block. *)
Definition runnable_edges : list (string * string) :=
  manager_edges ++
  [("Ready","Configuring"); ("Ready","Aborting");
   ("Configuring","Armed"); ("Configuring","Aborting");
   ("Configuring","Fault"); ("Configuring","Disabling");
   ("Armed","Running"); ("Armed","Seeking"); ("Armed","Resetting"); ("Armed","Aborting");
   ("Armed","Fault"); ("Armed","Disabling");
   ("Running","PostRun"); ("Running","Seeking"); ("Running","Aborting");
   ("Running","Fault"); ("Running","Disabling");
   ("PostRun","Finished"); ("PostRun","Armed"); ("PostRun","Seeking"); ("PostRun","Aborting");
   ("PostRun","Fault"); ("PostRun","Disabling");
   ("Finished","Seeking"); ("Finished","Resetting"); ("Finished","Configuring");
   ("Finished","Aborting"); ("Finished","Fault"); ("Finished","Disabling");
   ("Seeking","Armed"); ("Seeking","Paused"); ("Seeking","Finished"); ("Seeking","Aborting");
   ("Seeking","Fault"); ("Seeking","Disabling");
   ("Paused","Seeking"); ("Paused","Running"); ("Paused","Aborting");
   ("Paused","Fault"); ("Paused","Disabling");
   ("Aborting","Aborted"); ("Aborting","Fault"); ("Aborting","Disabling");
   ("Aborted","Resetting"); ("Aborted","Fault"); ("Aborted","Disabling")].

(** [path es l]: the states in [l], newest first, are a walk along [es]. *)
Inductive path (es : list (string * string)) : list string -> Prop :=
| path_one : forall s, path es [s]
| path_cons : forall s t l, In (s, t) es -> path es (s :: l) -> path es (t :: s :: l).

(** The graph and the states of each kind of block. *)
Definition graph (k : kind) : list (string * string) :=
  match k with
  | Stateful => stateful_edges | Manager => manager_edges | Runnable => runnable_edges
  end.
Definition nodes (k : kind) : list string :=
  match k with
  | Stateful => ["Ready"; "Resetting"; "Fault"; "Disabling"; "Disabled"]
  | Manager => ["Ready"; "Resetting"; "Saving"; "Loading"; "Fault"; "Disabling"; "Disabled"]
  | Runnable => ["Ready"; "Resetting"; "Saving"; "Loading"; "Configuring"; "Armed"; "Running";
                 "Seeking"; "PostRun"; "Finished"; "Paused"; "Aborting"; "Aborted"; "Fault";
                 "Disabling"; "Disabled"]
  end.

(** The states declared for a field by a history; [states] are the states
    of the graph. *)
Definition declare (states : list string) (f : string) (d : option (list string)) (o : op)
  : option (list string) :=
  match o with
  | OWriteableIn g l =>
      if String.eqb g f && forallb (fun s => smem s states) l then Some l else d
  | OAddField g true =>
      if String.eqb g f then
        match d with
        | None => Some (filter (fun s => negb (smem s ["Disabling"; "Disabled"])) states)
        | Some l => Some l
        end
      else d
  | _ => d
  end.
Definition declared (states : list string) (f : string) (h : list op) : option (list string) :=
  fold_left (declare states f) h
    (if String.eqb "reset" f then Some ["Disabled"; "Fault"] else None).

(** Does an operation touch the declaration or registration of [f]? *)
Definition touches (f : string) (o : op) : bool :=
  match o with
  | OWriteableIn g _ => String.eqb g f
  | OAddField g _ => String.eqb g f
  | _ => false
  end.

(** Latest report of each reporter in a history of reports (newest last). *)
Fixpoint latest (p : string) (h : list (string * alarm)) : option alarm :=
  match h with
  | [] => None
  | (q, a) :: r => match latest p r with
                   | Some b => Some b
                   | None => if String.eqb p q then Some a else None
                   end
  end.
