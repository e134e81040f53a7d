(* What a user of a proxy block or of an exported field relies on. *)
From Coq Require Import String Bool ZArith Lia List.
From Verif Require Import Base Notify_Model Notify_Spec.
Import ListNotations.
Local Open Scope string_scope.
Local Open Scope list_scope.

(* the field called n of an object *)
Definition field (v : val) (n : string) : option val :=
  match v with VObj _ fs => dget n fs | _ => None end.
(* the field m of the field n *)
Definition field2 (v : val) (n m : string) : option val :=
  match field v n with Some c => field c m | None => None end.

(* What every Attribute and every BlockMeta has *)
Definition health_names := ["value"; "alarm"; "timeStamp"].
Definition meta_names := ["description"; "tags"; "writeable"; "label"].

(* p is the place of a field of a Model that is not a block, reached through such Models *)
Definition settable (v : val) (p : path) : Prop :=
  p <> [] /\ vsee v p <> None /\
  forall q s, p = q ++ s -> s <> [] ->
    exists t, vsee v q = Some (SObj (KModel t)) /\ t <> "malcolm:core/Block:1.0".

(* a serialized block: health and meta, and everything else an Attribute or a Method *)
Definition block_like (v : val) : Prop :=
  exists k fs, v = VObj k fs /\ NoDup (dkeys fs) /\
    (forall n, In n health_names -> field2 v "health" n <> None) /\
    (forall n, In n ("fields" :: meta_names) -> field2 v "meta" n <> None) /\
    (forall n, n <> "health" -> n <> "meta" -> In n (dkeys fs) ->
       exists t gs, dget n fs = Some (VObj (KModel t) gs)).

(* A change that a proxy can follow, given the remote block before it: the whole block, or
   something inside a field *)
Definition followed (v : val) (c : path * option val) : Prop :=
  match c with
  | ([], Some x) => block_like x
  | (f :: r, Some _) =>
    if String.eqb f "health" then exists n, r = [n] /\ In n health_names
    else if String.eqb f "meta" then exists n, r = [n] /\ In n meta_names
    else exists x, field v f = Some x /\ settable x r
  | (_, None) => False
  end.
Fixpoint all_followed (v : val) (cs : list (path * option val)) : Prop :=
  match cs with
  | [] => True
  | c :: r => followed v c /\ all_followed (vapply (fst c) (snd c) v) r
  end.
Fixpoint msgs_followed (v : val) (ms : list msg) : Prop :=
  match ms with
  | [] => True
  | m :: r => match m with Delta cs => all_followed v cs | _ => True end /\
              msgs_followed (replay v m) r
  end.
(* the first message is about the whole block *)
Definition starts (ms : list msg) : Prop :=
  exists v r cs, ms = Delta (([], Some v) :: cs) :: r.

(* a place of the block that the proxy shows: all but meta.fields and health.meta *)
Definition shown (p : path) : Prop :=
  match p with
  | [] => False
  | f :: r =>
    if String.eqb f "health" then exists n q, r = n :: q /\ In n health_names
    else if String.eqb f "meta" then exists n q, r = n :: q /\ In n meta_names
    else True
  end.

(* The block of a new proxy: health and meta and nothing else *)
Definition new_proxy (b : list (string * val)) : Prop :=
  exists tm ms th hs,
    b = [("meta", VObj (KModel tm) ms); ("health", VObj (KModel th) hs)] /\
    tm <> "malcolm:core/Block:1.0" /\ th <> "malcolm:core/Block:1.0" /\
    NoDup (dkeys ms) /\ (forall n, In n (dkeys ms) <-> In n ("fields" :: meta_names)) /\
    (forall n, In n health_names -> In n (dkeys hs)).

(* ---- exports ---- *)
Definition apart (q p : path) : Prop := ~ prefix q p /\ ~ prefix p q.
(* a change inside the exported field that leaves its tags and its label alone *)
Definition exportable (v : val) (c : path * option val) : Prop :=
  match c with
  | (p, Some _) => settable v p /\ apart ["meta"; "tags"] p /\ apart ["meta"; "label"] p
  | _ => False
  end.
Fixpoint all_exportable (v : val) (cs : list (path * option val)) : Prop :=
  match cs with
  | [] => True
  | c :: r => exportable v c /\ all_exportable (vapply (fst c) (snd c) v) r
  end.
Fixpoint msgs_exportable (v : val) (ms : list msg) : Prop :=
  match ms with
  | [] => True
  | m :: r => match m with Delta cs => all_exportable v cs | _ => True end /\
              msgs_exportable (replay v m) r
  end.
