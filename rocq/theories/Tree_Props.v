(** C50: in a published block every object knows the block's notifier and its own path, and what an
    operation tells the notifiers is what it changed. *)
From Coq Require Import String Bool ZArith Lia List.
From Verif Require Import Base Tree_Model Tree_Spec Tree_Proofs Tree2_Proofs Tree3_Proofs Tree4_Proofs.
Import ListNotations.
Local Open Scope string_scope.
Local Open Scope list_scope.

Lemma run_good : forall os s, runs tinit os s -> good s.
Proof. intros os s R. exact (runs_good _ _ _ R good_init). Qed.

(** An object is at a place in a published block if and only if it has the notifier of that block
    and that place for its path. *)
Theorem C50_located : forall os s n r mri, runs tinit os s -> root s n r mri -> forall x p,
  look (t_heap s) r p = Some (IModel x) <->
  o_not (t_heap s x) = Some n /\ o_path (t_heap s x) = mri :: p.
Proof. intros os s n r mri R H. exact (located s (proj1 (run_good os s R)) n r mri H). Qed.

(** It is at one place of one block only. *)
Theorem C50_one_place : forall os s n r mri p n' r' mri' p' x, runs tinit os s ->
  root s n r mri -> look (t_heap s) r p = Some (IModel x) ->
  root s n' r' mri' -> look (t_heap s) r' p' = Some (IModel x) -> n = n' /\ r = r' /\ mri = mri' /\ p = p'.
Proof.
  intros os s n r mri p n' r' mri' p' x R H L H' L'.
  apply (C50_located os s n r mri R H) in L. apply (C50_located os s n' r' mri' R H') in L'.
  destruct L as [A B], L' as [A' B']. assert (n = n') by congruence. subst n'.
  destruct (root_fun s n r mri r' mri' (i_nodup s (proj1 (run_good os s R))) H H') as [-> ->].
  repeat split. congruence.
Qed.

(** An object outside of all blocks has no notifier. *)
Theorem C50_outside : forall os s x, runs tinit os s ->
  (forall n r mri p, root s n r mri -> look (t_heap s) r p <> Some (IModel x)) -> o_not (t_heap s x) = None.
Proof.
  intros os s x R H. destruct (o_not (t_heap s x)) as [n|] eqn:E; [|reflexivity].
  pose proof (proj1 (run_good os s R)) as Iv. destruct (i_reach s Iv x n E) as (r & mri & p & C & D & F).
  exfalso. exact (H n r mri p C F).
Qed.

(** What an operation announces is what it changed, in all published blocks. *)
Theorem C50_announced : forall os s o s1 cs, runs tinit os s -> disciplined s o -> tstep s o = (s1, Ok cs) ->
  announces s cs s1.
Proof. intros os s o s1 cs R D H. exact (proj1 (proj2 (step_good s o s1 cs (run_good os s R) D H))). Qed.

(** Setting an attribute of an object tells its block of exactly that path. *)
Theorem C50_set : forall os s x name v s1 cs, runs tinit os s -> disciplined s (TSet x name v) ->
  tstep s (TSet x name v) = (s1, Ok cs) ->
  (forall n r mri p, root s n r mri -> look (t_heap s) r p = Some (IModel x) ->
     cs = [(n, mri :: p ++ [name], Some v)]) /\
  ((forall n r mri p, root s n r mri -> look (t_heap s) r p <> Some (IModel x)) -> cs = []).
Proof.
  intros os s x name v s1 cs R D H. destruct (step_good s _ s1 cs (run_good os s R) D H) as (_ & _ & E).
  cbn beta iota in E. subst cs. unfold tell. split.
  - intros n r mri p Rt L. apply (C50_located os s n r mri R Rt) in L. destruct L as [-> ->]. reflexivity.
  - intros N. now rewrite (C50_outside os s x R N).
Qed.

(** meta.fields lists the block's fields in order, after a field is set or removed. *)
Theorem C50_fields : forall os s b name s1 cs i, runs tinit os s ->
  (disciplined s (TBlockSet b name i) -> tstep s (TBlockSet b name i) = (s1, Ok cs) ->
     o_fields (t_heap s1 b) = dset name (FModel i) (o_fields (t_heap s b)) /\
     look (t_heap s1) b ["meta"; "fields"] =
     Some (IData (DNames (filter (fun k => negb (String.eqb k "meta")) (dkeys (o_fields (t_heap s1 b))))))) /\
  (disciplined s (TRemove b name) -> tstep s (TRemove b name) = (s1, Ok cs) ->
     o_fields (t_heap s1 b) = ddel name (o_fields (t_heap s b)) /\
     look (t_heap s1) b ["meta"; "fields"] =
     Some (IData (DNames (filter (fun k => negb (String.eqb k "meta")) (dkeys (o_fields (t_heap s1 b))))))).
Proof.
  intros os s b name s1 cs i R. split; intros D H;
    destruct (step_good s _ s1 cs (run_good os s R) D H) as (_ & _ & E1 & E2); auto.
Qed.

(** A Model that is in no block, nor anything inside it, and that holds nothing at two places, can
    be put anywhere its class is declared. *)
Theorem C50_accepted : forall os s x name l i, runs tinit os s -> o_block (t_heap s x) = false ->
  x < t_next s -> i < t_next s -> dget name (o_types (t_heap s x)) = Some (CModel l) ->
  o_level (t_heap s i) <= l -> quiet (t_heap s) i -> single (t_heap s) i ->
  exists s1 cs, tstep s (TSet x name (VModel i)) = (s1, Ok cs).
Proof. intros os s x name l i R. exact (set_accepted s x name l i (run_good os s R)). Qed.

(** The fuel of [snp] does not matter. *)
Theorem C50_fuel : forall os s x f n p, runs tinit os s -> o_level (t_heap s x) < f ->
  snp f (t_heap s) x n p = set_notifier_path (t_heap s) x n p.
Proof.
  intros os s x f n p R L. apply snp_fuel; [exact (i_level s (proj1 (run_good os s R))) | exact L | lia].
Qed.

(** ** A block with an attribute that has a meta with a display *)

(** Runs that are checked by computing: before anything is published all is disciplined, and so is
    an operation on an object with a notifier. *)
Fixpoint crun (s : tstate) (os : list top) : option tstate :=
  match os with
  | [] => Some s
  | o :: r =>
      let d := match t_roots s with [] => true | _ =>
                 match o with
                 | TSet x _ _ | TBlockSet x _ _ | TRemove x _ =>
                     match o_not (t_heap s x) with Some _ => true | None => false end
                 | _ => true
                 end end in
      if d then match tstep s o with (s1, Ok _) => crun s1 r | _ => None end else None
  end.
Lemma all_quiet : forall s, inv s -> t_roots s = [] -> forall x, o_not (t_heap s x) = None.
Proof.
  intros s Iv E x. destruct (o_not (t_heap s x)) as [n|] eqn:N; [|reflexivity].
  destruct (i_reach s Iv x n N) as (r & mri & p & C & _). unfold root in C. rewrite E in C. destruct C.
Qed.
Lemma crun_runs : forall os s s', good s -> crun s os = Some s' -> runs s os s'.
Proof.
  intros os; induction os as [|o r IH]; intros s s' G H; cbn [crun] in H.
  - injection H as ->. constructor.
  - match type of H with (if ?c then _ else _) = _ => destruct c eqn:D; [|discriminate] end.
    destruct (tstep s o) as [s1 [cs|e]] eqn:T; [|discriminate].
    assert (Di : disciplined s o).
    { destruct (t_roots s) as [|rt rts] eqn:R.
      - intros x c _ _ q y _. exact (all_quiet s (proj1 G) R y).
      - intros x c Tc N. destruct o as [lv ts| |b mri|y name v|b name i|b name]; cbn [touches] in Tc; try destruct Tc as [-> _];
          try (rewrite N in D; discriminate); destruct Tc. }
    econstructor; [exact Di | exact T |]. apply IH; [|exact H]. exact (proj1 (step_good s o s1 cs G Di T)).
Qed.

(** 0 is a block with meta 1; 2 an attribute; 3 its meta; 4 the display of that. *)
Definition mk : list top :=
  [TBlock; TNew 3 [("meta", CModel 1); ("value", CData)]; TNew 1 [("display", CModel 0); ("label", CData)];
   TNew 0 [("limit", CData)]; TSet 3 "display" (VModel 4); TSet 2 "meta" (VModel 3); TBlockSet 0 "x" 2;
   TPublish 0 "B"].
Definition s_mk : tstate := match crun tinit mk with Some s => s | None => tinit end.
Lemma ran : forall os, match crun tinit os with Some _ => true | None => false end = true ->
  runs tinit os (match crun tinit os with Some s => s | None => tinit end).
Proof. intros os H. apply crun_runs; [exact good_init|]. destruct (crun tinit os); [reflexivity | discriminate]. Qed.
Lemma step_eq : forall s o r, snd (tstep s o) = r -> tstep s o = (fst (tstep s o), r).
Proof. intros s o r <-. apply surjective_pairing. Qed.
Lemma mk_runs : runs tinit mk s_mk.
Proof. apply ran. vm_compute. reflexivity. Qed.

Example C50_ex_located : root s_mk 0 0 "B" /\ look (t_heap s_mk) 0 ["x"; "meta"; "display"] = Some (IModel 4) /\
  o_not (t_heap s_mk 4) = Some 0 /\ o_path (t_heap s_mk 4) = ["B"; "x"; "meta"; "display"].
Proof. vm_compute. auto. Qed.
Example C50_ex_set : snd (tstep s_mk (TSet 4 "limit" (VData (DVal 5)))) =
  Ok [(0, ["B"; "x"; "meta"; "display"; "limit"], Some (VData (DVal 5)))].
Proof. vm_compute. reflexivity. Qed.
Example C50_ex_disciplined : disciplined s_mk (TSet 4 "limit" (VData (DVal 5))).
Proof. intros x c (<- & _) N. vm_compute in N. discriminate. Qed.
Example C50_ex_fields : snd (tstep s_mk (TRemove 0 "x")) =
  Ok [(0, ["B"; "meta"; "fields"], Some (VData (DNames []))); (0, ["B"; "x"], None)] /\
  look (t_heap s_mk) 0 ["meta"; "fields"] = Some (IData (DNames ["x"])).
Proof. vm_compute. auto. Qed.
(** A new display replaces the old one, which is silent afterwards. *)
Definition mk2 : list top := mk ++ [TNew 0 [("limit", CData)]].
Definition s_mk2 : tstate := match crun tinit mk2 with Some s => s | None => tinit end.
Lemma mk2_runs : runs tinit mk2 s_mk2.
Proof. apply ran. vm_compute. reflexivity. Qed.
Example C50_ex_replace :
  let s1 := fst (tstep s_mk2 (TSet 3 "display" (VModel 5))) in
  snd (tstep s_mk2 (TSet 3 "display" (VModel 5))) = Ok [(0, ["B"; "x"; "meta"; "display"], Some (VModel 5))] /\
  o_path (t_heap s1 5) = ["B"; "x"; "meta"; "display"] /\ o_not (t_heap s1 4) = None /\
  snd (tstep s1 (TSet 4 "limit" (VData (DVal 1)))) = Ok [].
Proof. vm_compute. auto. Qed.
Example C50_ex_accepted : quiet (t_heap s_mk2) 5 /\ single (t_heap s_mk2) 5 /\
  dget "display" (o_types (t_heap s_mk2 3)) = Some (CModel 0) /\ o_level (t_heap s_mk2 5) = 0.
Proof.
  assert (E : o_fields (t_heap s_mk2 5) = []) by (vm_compute; reflexivity).
  split. { apply fresh_quiet; [exact E | vm_compute; reflexivity]. }
  split; [|split; vm_compute; reflexivity].
  assert (Z : forall q y, look (t_heap s_mk2) 5 q = Some (IModel y) -> q = []).
  { intros [|a q] y H; [reflexivity|]. cbn [look] in H. rewrite E in H. discriminate. }
  intros q q' y H H'. apply Z in H, H'. congruence.
Qed.

(** ** What goes wrong *)

(** After a set that raises, what was there before is still there, but without its notifier: a
    change of it is then told to nobody.  Here the display is set to an attribute. *)
Theorem C50_failed_set_refuted : exists os s o s1 e s2 v, runs tinit os s /\ disciplined s o /\
  tstep s o = (s1, Err e) /\ root s1 0 0 "B" /\ look (t_heap s1) 0 ["x"; "meta"; "display"] = Some (IModel 4) /\
  o_not (t_heap s1 4) = None /\
  tstep s1 (TSet 4 "limit" v) = (s2, Ok []) /\
  look (t_heap s1) 0 ["x"; "meta"; "display"; "limit"] <> look (t_heap s2) 0 ["x"; "meta"; "display"; "limit"].
Proof.
  set (o := TSet 3 "display" (VModel 2)). set (v := VData (DVal 5)).
  exists mk, s_mk, o, (fst (tstep s_mk o)), EBad, (fst (tstep (fst (tstep s_mk o)) (TSet 4 "limit" v))), v.
  split; [exact mk_runs|]. split. { intros x c (<- & _) N. vm_compute in N. discriminate. }
  split; [apply step_eq; vm_compute; reflexivity|]. split; [vm_compute; auto|]. split; [vm_compute; reflexivity|].
  split; [vm_compute; reflexivity|]. split; [apply step_eq; vm_compute; reflexivity|]. vm_compute. discriminate.
Qed.

(** A Model that is in a block can be put into one that is in none: nothing is raised, and it is
    silent in the block that it stays in. *)
Definition mk3 : list top := mk ++ [TNew 1 [("display", CModel 0); ("label", CData)]].
Definition s_mk3 : tstate := match crun tinit mk3 with Some s => s | None => tinit end.
Lemma mk3_runs : runs tinit mk3 s_mk3.
Proof. apply ran. vm_compute. reflexivity. Qed.
Theorem C50_borrowed_refuted : exists os s o s1 cs, runs tinit os s /\ tstep s o = (s1, Ok cs) /\ cs = [] /\
  root s1 0 0 "B" /\ look (t_heap s1) 0 ["x"; "meta"; "display"] = Some (IModel 4) /\ o_not (t_heap s1 4) = None.
Proof.
  set (o := TSet 5 "display" (VModel 4)). exists mk3, s_mk3, o, (fst (tstep s_mk3 o)), []. split; [exact mk3_runs|].
  split; [apply step_eq; vm_compute; reflexivity|]. split; [reflexivity|]. split; [vm_compute; auto|].
  split; vm_compute; reflexivity.
Qed.

(** A field whose Model is refused (it is in a block already) can never be set afterwards, whatever
    Model is given: its name stays in call_types without an attribute. *)
Theorem C50_refused_name_refuted : exists os s name i s1 e, runs tinit os s /\
  dget name (o_fields (t_heap s 0)) = None /\ disciplined s (TBlockSet 0 name i) /\
  tstep s (TBlockSet 0 name i) = (s1, Err e) /\ dget name (o_fields (t_heap s1 0)) = None /\
  forall j, snd (tstep s1 (TBlockSet 0 name j)) = Err e.
Proof.
  set (o := TBlockSet 0 "y" 2). exists mk, s_mk, "y", 2, (fst (tstep s_mk o)), EBad.
  split; [exact mk_runs|]. split; [vm_compute; reflexivity|].
  split. { intros x c (<- & _) N. vm_compute in N. discriminate. }
  split; [apply step_eq; vm_compute; reflexivity|].
  assert (F : dget "y" (o_fields (t_heap (fst (tstep s_mk o)) 0)) = None) by (vm_compute; reflexivity).
  assert (M : dmem "y" (o_types (t_heap (fst (tstep s_mk o)) 0)) = true) by (vm_compute; reflexivity).
  split; [exact F|]. intros j. generalize dependent (fst (tstep s_mk o)). intros s1 F M. cbn [tstep]. unfold lift.
  match goal with |- context [if ?c then _ else _] => destruct c end; [|reflexivity].
  cbn [snd]. unfold block_set. match goal with |- context [if ?c then _ else _] => destruct c end; [reflexivity|].
  rewrite M, F. reflexivity.
Qed.

Print Assumptions C50_located.
Print Assumptions C50_one_place.
Print Assumptions C50_outside.
Print Assumptions C50_announced.
Print Assumptions C50_set.
Print Assumptions C50_fields.
Print Assumptions C50_accepted.
Print Assumptions C50_fuel.
Print Assumptions C50_failed_set_refuted.
Print Assumptions C50_borrowed_refuted.
Print Assumptions C50_refused_name_refuted.
