(* C78, frames per step: the scan that a detector is given has the dimensions of the scan, the last of
   them multiplied by the frames. *)
From Coq Require Import String Bool ZArith QArith Lia List.
From Verif Require Import Base Expo_Model Expo_Props Dval_Model.
Import ListNotations.
Local Open Scope string_scope.
Local Open Scope list_scope.

(* ---- specification: the dimensions of a CompoundGenerator (scanpointgenerator, external): an excluder
   makes one of all from the first to the last that has one of its axes ---- *)
Definition dim := (list string * Z)%type.
Definition hit (ex : list string) (d : dim) : bool := existsb (fun a => smem a ex) (fst d).
Fixpoint take_no (ex : list string) (ds : list dim) : list dim := match ds with d :: r => if hit ex d then [] else d :: take_no ex r | [] => [] end.
Fixpoint drop_no (ex : list string) (ds : list dim) : list dim := match ds with d :: r => if hit ex d then ds else drop_no ex r | [] => [] end.
Definition one (ds : list dim) : list dim :=
  match ds with [] => [] | _ => [(concat (map fst ds), fold_right Z.mul 1%Z (map snd ds))] end.
Definition merge (ds : list dim) (ex : list string) : list dim :=
  take_no ex ds ++ one (rev (drop_no ex (rev (drop_no ex ds)))) ++ rev (take_no ex (rev (drop_no ex ds))).
Definition dims (gens : list dim) (squash : list (list string)) : list dim := fold_left merge squash gens.

(* ---- proofs ---- *)
Lemma take_drop ex ds : take_no ex ds ++ drop_no ex ds = ds.
Proof. induction ds as [|d r IH]; cbn; [reflexivity|]. destruct (hit ex d); cbn; [reflexivity|now rewrite IH]. Qed.
Lemma take_snoc ex ds d : take_no ex (ds ++ [d]) = if existsb (hit ex) ds then take_no ex ds else ds ++ (if hit ex d then [] else [d]).
Proof. induction ds as [|a r IH]; cbn; [now destruct (hit ex d)|]. destruct (hit ex a); cbn; [reflexivity|]. rewrite IH. now destruct (existsb (hit ex) r). Qed.
Lemma drop_snoc ex ds d : drop_no ex (ds ++ [d]) = if existsb (hit ex) ds then drop_no ex ds ++ [d] else if hit ex d then [d] else [].
Proof. induction ds as [|a r IH]; cbn; [now destruct (hit ex d)|]. destruct (hit ex a); cbn; [reflexivity|]. exact IH. Qed.
Lemma take_none ex ds : existsb (hit ex) ds = false -> take_no ex ds = ds /\ drop_no ex ds = [].
Proof. induction ds as [|a r IH]; cbn; [auto|]. intros H. apply orb_false_iff in H as [-> H]. destruct (IH H) as [-> ->]. auto. Qed.
Lemma merge_snoc ex ds d : hit ex d = false -> merge (ds ++ [d]) ex = merge ds ex ++ [d].
Proof.
  intros H. unfold merge. rewrite take_snoc, drop_snoc, H. destruct (existsb (hit ex) ds) eqn:E.
  - rewrite rev_app_distr. cbn [rev Datatypes.app take_no drop_no]. rewrite H. cbn [rev]. now rewrite !app_assoc.
  - destruct (take_none ex ds E) as [-> ->]. cbn. now rewrite !app_nil_r.
Qed.
Lemma dims_snoc sq : forall ds d, (forall ex, In ex sq -> hit ex d = false) -> dims (ds ++ [d]) sq = dims ds sq ++ [d].
Proof. unfold dims. induction sq as [|ex sq IH]; intros ds d H; [reflexivity|]. cbn [fold_left]. rewrite merge_snoc by (apply H; now left). apply IH. intros; apply H; now right. Qed.
Lemma one_concat ds : concat (map fst (one ds)) = concat (map fst ds).
Proof. destruct ds; [reflexivity|]. unfold one. cbn [map concat fst]. now rewrite app_nil_r. Qed.
Lemma merge_concat ex ds : concat (map fst (merge ds ex)) = concat (map fst ds).
Proof.
  unfold merge. rewrite !map_app, !concat_app, one_concat. rewrite <- concat_app, <- map_app, <- rev_app_distr, take_drop, rev_involutive, <- concat_app, <- map_app, take_drop. reflexivity.
Qed.
(* the last dimension ends with the axes of the last generator *)
Definition ends (ds : list dim) (l : list string) : Prop := exists pre a n, ds = pre ++ [(a ++ l, n)].
Lemma one_snoc ds d : exists a n, one (ds ++ [d]) = [(a ++ fst d, n)].
Proof.
  assert (E : one (ds ++ [d]) = [(concat (map fst (ds ++ [d])), fold_right Z.mul 1%Z (map snd (ds ++ [d])))]) by (destruct ds; reflexivity).
  rewrite E, map_app, concat_app. cbn [map concat]. rewrite app_nil_r. eauto.
Qed.
Lemma merge_ends ex ds l : ends ds l -> ends (merge ds ex) l.
Proof.
  intros (pre & a & n & ->). set (d := (a ++ l, n)). destruct (hit ex d) eqn:H.
  - unfold merge. rewrite take_snoc, drop_snoc, H. destruct (existsb (hit ex) pre) eqn:E.
    + rewrite rev_app_distr. cbn [rev Datatypes.app take_no drop_no]. rewrite H. cbn [rev]. rewrite rev_involutive, app_nil_r.
      destruct (one_snoc (drop_no ex pre) d) as (a' & n' & ->). cbn [fst d]. exists (take_no ex pre), (a' ++ a), n'. now rewrite app_assoc.
    + cbn [rev Datatypes.app drop_no take_no]. rewrite H. cbn. exists (pre ++ []), a, (n * 1)%Z. unfold d. now rewrite !app_nil_r.
  - rewrite merge_snoc by exact H. exists (merge pre ex), a, n. reflexivity.
Qed.
Lemma dims_ends sq : forall ds l, ends ds l -> ends (dims ds sq) l /\ concat (map fst (dims ds sq)) = concat (map fst ds).
Proof.
  unfold dims. induction sq as [|ex sq IH]; intros ds l E; [auto|]. cbn [fold_left]. destruct (IH _ l (merge_ends ex ds l E)) as [A B]. split; [exact A|]. now rewrite B, merge_concat.
Qed.
Lemma last_snoc (gens : list dim) : gens <> [] -> exists pre, gens = pre ++ [last gens ([], 0%Z)].
Proof. intros N. destruct (exists_last N) as (pre & x & ->). exists pre. now rewrite last_last. Qed.
Lemma hit_false ex d : hit ex d = false <-> forall a, In a (fst d) -> ~ In a ex.
Proof.
  unfold hit. split.
  - intros H a I J. assert (X : existsb (fun a => smem a ex) (fst d) = true) by (apply existsb_exists; exists a; split; [exact I|now apply smem_In]). congruence.
  - intros H. destruct (existsb _ _) eqn:E; [|reflexivity]. apply existsb_exists in E as (a & I & J). apply smem_In in J. destruct (H a I J).
Qed.
Lemma hit_true ex d a : In a (fst d) -> In a ex -> hit ex d = true.
Proof. intros I J. apply existsb_exists. exists a. split; [exact I|now apply smem_In]. Qed.

(* The dimensions of the scan are kept but for the last, which has the frames as fastest axis and so many
   times more points; a point takes that much less time, so that the scan takes as long as it did. *)
Theorem C78_multiplied axis frames g pre a n :
  g_gens g <> [] -> fst (last (g_gens g) ([], 0%Z)) <> [] -> NoDup (concat (map fst (g_gens g))) ->
  ~ In axis (concat (map fst (g_gens g))) -> (forall ex, In ex (g_squash g) -> ~ In axis ex) -> (1 < frames)%Z ->
  dims (g_gens g) (g_squash g) = pre ++ [(a, n)] ->
  let g' := multiplied axis frames g in
  dims (g_gens g') (g_squash g') = pre ++ [(a ++ [axis], n * frames)%Z] /\ (g_dur g' * inject_Z (n * frames) == g_dur g * inject_Z n)%Q.
Proof.
  intros Ng Nl ND Na Ns Fr D g'. split.
  - unfold g', multiplied, dims. cbn [g_gens g_squash]. rewrite fold_left_app. fold (dims (g_gens g ++ [([axis], frames)]) (g_squash g)). set (l := fst (last (g_gens g) ([], 0%Z))) in *.
    rewrite dims_snoc by (intros ex I; apply hit_false; intros x [<-|[]]; exact (Ns ex I)). rewrite D. cbn [fold_left].
    destruct (last_snoc (g_gens g) Ng) as (p0 & E0). assert (En : ends (g_gens g) l) by (exists p0, [], (snd (last (g_gens g) ([], 0%Z))); transitivity (p0 ++ [last (g_gens g) ([], 0%Z)]); [exact E0|]; unfold l; now destruct (last (g_gens g) ([], 0%Z))).
    destruct (dims_ends (g_squash g) _ l En) as [(pre' & a' & n' & E) C]. rewrite D in E, C. apply app_inj_tail in E as [<- E]. injection E as -> <-.
    rewrite map_app, concat_app in C. cbn [map concat fst] in C. rewrite app_nil_r in C. rewrite <- C in ND, Na. clear D E0 En C.
    assert (Hp : existsb (hit (l ++ [axis])) pre = false).
    { destruct (existsb _ _) eqn:X; [|reflexivity]. exfalso. apply existsb_exists in X as (d & I & H). destruct (proj2 (not_false_iff_true _) H). apply hit_false. intros x Ix Jx.
      assert (Cx : In x (concat (map fst pre))) by (apply in_concat; exists (fst d); split; [now apply in_map|exact Ix]).
      apply in_app_or in Jx as [Jx|[<-|[]]].
      - apply in_split in Cx as (u1 & u2 & Eu). rewrite Eu, <- app_assoc in ND. cbn [Datatypes.app] in ND. apply NoDup_remove_2 in ND. apply ND. rewrite !in_app_iff. tauto.
      - apply Na. apply in_or_app. now left. }
    assert (H1 : hit (l ++ [axis]) (a' ++ l, n) = true).
    { destruct l as [|x l]; [congruence|]. apply (hit_true _ _ x); [cbn [fst]; apply in_or_app; right; now left|now left]. }
    assert (H2 : hit (l ++ [axis]) ([axis], frames) = true) by (apply (hit_true _ _ axis); [now left|apply in_or_app; right; now left]).
    unfold merge. rewrite !take_snoc, !drop_snoc, existsb_app. cbn [existsb]. rewrite Hp, H1. cbn [orb]. rewrite app_nil_r. cbn [rev Datatypes.app drop_no take_no]. rewrite H2. cbn [rev Datatypes.app one map concat fst snd fold_right].
    rewrite !orb_true_r. cbn [orb rev Datatypes.app drop_no take_no]. rewrite !H2. cbn [rev Datatypes.app one map concat fst snd fold_right]. rewrite ?app_nil_r, ?Z.mul_1_r. reflexivity.
  - unfold g'. cbn [g_dur multiplied]. rewrite inject_Z_mult. field. intros X. unfold Qeq in X. cbn in X. lia.
Qed.
Print Assumptions C78_multiplied.
(* a grid of two squashed generators below a third, three frames per step *)
Example C78_ex_multiplied :
  let g := mkGen [(["z"], 2); (["y"], 3); (["x"], 5)]%Z [["x"; "y"]] (6 # 1) in
  dims (g_gens g) (g_squash g) = [(["z"], 2%Z); (["y"; "x"], 15%Z)]
  /\ dims (g_gens (multiplied "DET_frames_per_step" 3 g)) (g_squash (multiplied "DET_frames_per_step" 3 g)) = [(["z"], 2%Z); (["y"; "x"; "DET_frames_per_step"], 45%Z)].
Proof. vm_compute. auto. Qed.
