From Coq Require Import String Bool ZArith Lia List Permutation.
From Verif Require Import Base Notify_Model Notify_Spec.
Import ListNotations.
Local Open Scope list_scope.
Local Open Scope nat_scope.

(* ---------------- trees ---------------- *)
Lemma ids_obj i k fs : ids (TObj i k fs) = i :: flat_map (fun nc => ids (snd nc)) fs.
Proof.
  cbn [ids]. f_equal. induction fs as [|[n c] r IH]; cbn [flat_map snd]; [reflexivity|].
  now rewrite IH.
Qed.
Lemma tfind_obj i j k fs :
  tfind i (TObj j k fs) = if Nat.eqb i j then Some (TObj j k fs) else ffind i (map snd fs).
Proof.
  cbn [tfind]. destruct (Nat.eqb i j); [reflexivity|].
  induction fs as [|[n c] r IH]; cbn [map snd ffind]; [reflexivity|].
  now rewrite IH.
Qed.

Lemma tget_app t p q :
  tget t (p ++ q) = match tget t p with Some x => tget x q | None => None end.
Proof.
  revert t. induction p as [|n r IH]; intros t; cbn [tget app]; [reflexivity|].
  destruct t as [v|i k fs]; [reflexivity|]. destruct (dget n fs); [apply IH|reflexivity].
Qed.

Definition ref_at (t : tree) (p : path) : ref :=
  match tget t p with Some x => tref x | None => RNone end.
Definition mark (r : ref) : option seen :=
  match r with RNone => None | RLeaf v => Some (SLeaf v) | RObj _ k => Some (SObj k) end.
Lemma tsee_mark t p : tsee t p = mark (ref_at t p).
Proof. unfold tsee, ref_at. destruct (tget t p) as [[|]|]; reflexivity. Qed.

Fixpoint tree_ind' (P : tree -> Prop) (Hl : forall v, P (TLeaf v))
  (Ho : forall i k fs, Forall (fun nc => P (snd nc)) fs -> P (TObj i k fs)) (t : tree) : P t :=
  match t with
  | TLeaf v => Hl v
  | TObj i k fs =>
    Ho i k fs ((fix go l : Forall (fun nc => P (snd nc)) l :=
                  match l with
                  | [] => Forall_nil _
                  | nc :: r => Forall_cons nc (tree_ind' P Hl Ho (snd nc)) (go r)
                  end) fs)
  end.

Lemma tfind_ids i t : ~ In i (ids t) -> tfind i t = None.
Proof.
  induction t as [v|j k fs IH] using tree_ind'; [reflexivity|].
  rewrite ids_obj, tfind_obj. intros H. destruct (Nat.eqb_spec i j) as [->|Hne].
  - exfalso. apply H. now left.
  - induction IH as [|[n c] r Hc Hr IHr]; [reflexivity|]. cbn [map snd ffind].
    cbn [flat_map snd] in H.
    cbn [snd] in Hc. rewrite Hc. 2:{ intros Hi. apply H. right. apply in_or_app. now left. }
    apply IHr. intros [He|Hi]; [congruence|]. apply H. right. apply in_or_app. now right.
Qed.
Lemma ffind_ids i l : ~ In i (forest_ids l) -> ffind i l = None.
Proof.
  induction l as [|t r IH]; intros H; [reflexivity|]. cbn [ffind].
  unfold forest_ids in *. cbn [flat_map] in H.
  rewrite tfind_ids; [apply IH|]; intros Hi; apply H; apply in_or_app; auto.
Qed.
Lemma tfind_some_id i t x : tfind i t = Some x -> In i (ids t).
Proof.
  intros H. destruct (in_dec Nat.eq_dec i (ids t)) as [Hi|Hi]; [exact Hi|].
  rewrite tfind_ids in H by exact Hi. discriminate.
Qed.

Lemma NoDup_app_l {A} (a b : list A) : NoDup (a ++ b) -> NoDup a.
Proof.
  induction a as [|x r IH]; intros H; [constructor|]. inversion H as [|y z Hy Hz]; subst.
  constructor; [|now apply IH]. intros Hi. apply Hy. apply in_or_app. now left.
Qed.
Lemma NoDup_app_r {A} (a b : list A) : NoDup (a ++ b) -> NoDup b.
Proof. induction a as [|x r IH]; intros H; [exact H|]. inversion H; subst; auto. Qed.
Lemma NoDup_app_disj {A} (a b : list A) x : NoDup (a ++ b) -> In x a -> In x b -> False.
Proof.
  induction a as [|y r IH]; intros H Ha Hb; [destruct Ha|]. inversion H as [|u v Hu Hv]; subst.
  destruct Ha as [->|Ha]; [apply Hu; apply in_or_app; now right|eauto].
Qed.

Lemma ffind_in i (l : list tree) c x :
  NoDup (flat_map ids l) -> In c l -> tfind i c = Some x -> ffind i l = Some x.
Proof.
  induction l as [|t r IH]; intros Hn Hi Hf; [destruct Hi|]. cbn [ffind flat_map] in *.
  destruct Hi as [->|Hi]; [now rewrite Hf|].
  rewrite tfind_ids; [now apply IH; [apply NoDup_app_r in Hn|..]|].
  intros Ht. apply tfind_some_id in Hf.
  apply (NoDup_app_disj _ _ i Hn Ht). apply in_flat_map. eauto.
Qed.

Lemma flat_map_snd (fs : list (string * tree)) :
  flat_map (fun nc => ids (snd nc)) fs = flat_map ids (map snd fs).
Proof. induction fs as [|[n c] r IH]; cbn [flat_map map snd]; congruence. Qed.

Lemma tget_tfind t p i k fs :
  NoDup (ids t) -> tget t p = Some (TObj i k fs) -> tfind i t = Some (TObj i k fs).
Proof.
  revert t. induction p as [|n r IH]; intros t Hn Hg; cbn [tget] in Hg.
  - injection Hg as ->. rewrite tfind_obj, Nat.eqb_refl. reflexivity.
  - destruct t as [v|j kk gs]; [discriminate|].
    destruct (dget n gs) as [c|] eqn:Ec; [|discriminate].
    rewrite ids_obj, flat_map_snd in Hn. inversion Hn as [|a b Ha Hb]; subst.
    assert (Hic : In c (map snd gs)) by
        (apply dget_Some_In in Ec; apply (in_map snd) in Ec; exact Ec).
    assert (Hnc : NoDup (ids c)).
    { apply in_split in Hic. destruct Hic as (l1 & l2 & He). rewrite He in Hb.
      rewrite flat_map_app in Hb. apply NoDup_app_r in Hb. cbn [flat_map] in Hb.
      now apply NoDup_app_l in Hb. }
    pose proof (IH c Hnc Hg) as Hf.
    rewrite tfind_obj. destruct (Nat.eqb_spec i j) as [->|Hne].
    + exfalso. apply Ha. apply in_flat_map. exists c. split; [exact Hic|].
      now apply tfind_some_id in Hf.
    + eapply ffind_in; eauto.
Qed.

(* what identity-based access gives in a world where identities are unique *)
Definition wf (w : world) : Prop := unique (w_root w) (w_limbo w).

Lemma find_root w p i k fs :
  wf w -> tget (w_root w) p = Some (TObj i k fs) -> find w i = Some (TObj i k fs).
Proof.
  unfold wf, unique, find. intros H Hg. cbn [ffind].
  rewrite (tget_tfind _ _ _ _ _ (NoDup_app_l _ _ H) Hg). reflexivity.
Qed.

Lemma geta_ref w p n : wf w -> tsee (w_root w) p <> Some (SObj KMap) ->
  geta w (ref_at (w_root w) p) n = ref_at (w_root w) (p ++ [n]).
Proof.
  intros Hw Hm. unfold tsee in Hm. unfold ref_at at 1 2. rewrite tget_app.
  destruct (tget (w_root w) p) as [[v|i k fs]|] eqn:E; cbn [tref geta tget]; [reflexivity| |reflexivity].
  rewrite (find_root w p i k fs Hw E).
  destruct k; [| |congruence]; destruct (dget n fs); reflexivity.
Qed.

Lemma vsee_freeze t p : vsee (freeze_tree t) p = mark (ref_at t p).
Proof.
  revert t. induction p as [|n r IH]; intros t; unfold ref_at.
  - destruct t; reflexivity.
  - destruct t as [v|i k fs]; cbn [freeze_tree vsee tget]; [reflexivity|].
    assert (H : dget n (map (fun nc => (fst nc, freeze_tree (snd nc))) fs)
                = option_map freeze_tree (dget n fs)).
    { induction fs as [|[m c] fs IHf]; cbn [map fst snd dget option_map]; [reflexivity|].
      destruct (String.eqb n m); [reflexivity|exact IHf]. }
    rewrite H. destruct (dget n fs) as [c|]; cbn [option_map]; [|reflexivity].
    rewrite IH. unfold ref_at. reflexivity.
Qed.

Lemma ref_at_app t p q :
  ref_at t (p ++ q) = match tget t p with Some x => ref_at x q | None => RNone end.
Proof. unfold ref_at. rewrite tget_app. destruct (tget t p); reflexivity. Qed.

(* freezing the reference found at p gives the value of the block at p *)
Lemma freeze_ref w p : wf w -> is_value (freeze w (ref_at (w_root w) p)) (w_root w) p.
Proof.
  intros Hw r. rewrite tsee_mark, ref_at_app. unfold ref_at at 1.
  destruct (tget (w_root w) p) as [[v|i k fs]|] eqn:E; cbn [tref freeze].
  - destruct r; reflexivity.
  - rewrite (find_root w p i k fs Hw E). apply vsee_freeze.
  - destruct r; reflexivity.
Qed.

(* ---------------- changing trees ---------------- *)
Definition is_obj (t : option tree) : bool :=
  match t with Some (TObj _ _ _) => true | _ => false end.

Lemma prefix_cons a q b p : prefix (a :: q) (b :: p) <-> a = b /\ prefix q p.
Proof.
  split.
  - intros (r & H). injection H as -> ->. split; [reflexivity|now exists r].
  - intros (-> & r & ->). now exists r.
Qed.
Lemma prefix_nil p : prefix [] p.
Proof. now exists p. Qed.
Lemma prefix_cons_nil a q : ~ prefix (a :: q) [].
Proof. intros (r & H). discriminate. Qed.
Lemma prefix_refl p : prefix p p.
Proof. exists []. now rewrite app_nil_r. Qed.
Lemma prefix_trans a b c : prefix a b -> prefix b c -> prefix a c.
Proof. intros (r & ->) (s & ->). exists (r ++ s). now rewrite app_assoc. Qed.
Lemma prefix_app p q : prefix p (p ++ q).
Proof. now exists q. Qed.
Lemma prefix_dec q p : {prefix q p} + {~ prefix q p}.
Proof.
  revert p. induction q as [|a q IH]; intros [|b p].
  - left. apply prefix_nil.
  - left. apply prefix_nil.
  - right. apply prefix_cons_nil.
  - destruct (string_dec a b) as [->|Hne].
    + destruct (IH p) as [H|H]; [left|right]; rewrite prefix_cons; [now split|tauto].
    + right. rewrite prefix_cons. tauto.
Qed.

Lemma tset_at t p n v : is_obj (tget t p) = true -> tget (tset p n v t) (p ++ [n]) = Some v.
Proof.
  revert t. induction p as [|m r IH]; intros t H; cbn [tget app] in *.
  - destruct t as [z|i k fs]; [discriminate|]. cbn [tset tget]. rewrite dget_dset_same. reflexivity.
  - destruct t as [z|i k fs]; [discriminate|]. cbn [tset].
    destruct (dget m fs) as [c|] eqn:E; [|discriminate]. cbn [tget]. rewrite dget_dset_same.
    now apply IH.
Qed.
Lemma tset_other t p n v q : ~ prefix (p ++ [n]) q -> ref_at (tset p n v t) q = ref_at t q.
Proof.
  revert t q. induction p as [|m r IH]; intros t q H; cbn [app] in *.
  - destruct t as [z|i k fs]; [reflexivity|]. destruct q as [|a q]; [reflexivity|].
    unfold ref_at. cbn [tset tget]. rewrite dget_dset_other; [reflexivity|].
    intros ->. apply H. apply prefix_cons. split; [reflexivity|apply prefix_nil].
  - destruct t as [z|i k fs]; [reflexivity|]. cbn [tset].
    destruct (dget m fs) as [c|] eqn:E; [|reflexivity].
    destruct q as [|a q]; [reflexivity|]. unfold ref_at. cbn [tget].
    destruct (String.eqb_spec a m) as [->|Hne].
    + rewrite dget_dset_same, E. apply (IH c q). intros Hp. apply H. now apply prefix_cons.
    + rewrite dget_dset_other by congruence. reflexivity.
Qed.
Lemma dget_dpop {A} n m (fs : list (string * A)) :
  dget m (dpop n fs) = if String.eqb m n then None else dget m fs.
Proof.
  induction fs as [|[a c] r IH]; cbn [dpop filter dget fst].
  - now destruct (String.eqb m n).
  - destruct (String.eqb_spec n a) as [->|Hne]; cbn [negb].
    + fold (dpop a r). rewrite IH. destruct (String.eqb_spec m a) as [->|Hne2]; [reflexivity|reflexivity].
    + cbn [dget]. fold (dpop n r). rewrite IH.
      destruct (String.eqb_spec m a) as [->|Hne2]; [|reflexivity].
      destruct (String.eqb_spec a n) as [->|Hne3]; [congruence|reflexivity].
Qed.
Lemma tdel_at t p n : is_obj (tget t p) = true -> tget (tdel p n t) (p ++ [n]) = None.
Proof.
  revert t. induction p as [|m r IH]; intros t H; cbn [tget app] in *.
  - destruct t as [z|i k fs]; [discriminate|]. cbn [tdel tget].
    rewrite dget_dpop, String.eqb_refl. reflexivity.
  - destruct t as [z|i k fs]; [discriminate|]. cbn [tdel].
    destruct (dget m fs) as [c|] eqn:E; [|discriminate]. cbn [tget]. rewrite dget_dset_same.
    now apply IH.
Qed.
Lemma tdel_other t p n q : ~ prefix (p ++ [n]) q -> ref_at (tdel p n t) q = ref_at t q.
Proof.
  revert t q. induction p as [|m r IH]; intros t q H; cbn [app] in *.
  - destruct t as [z|i k fs]; [reflexivity|]. destruct q as [|a q]; [reflexivity|].
    unfold ref_at. cbn [tdel tget]. rewrite dget_dpop.
    destruct (String.eqb_spec a n) as [->|Hne]; [|reflexivity].
    exfalso. apply H. apply prefix_cons. split; [reflexivity|apply prefix_nil].
  - destruct t as [z|i k fs]; [reflexivity|]. cbn [tdel].
    destruct (dget m fs) as [c|] eqn:E; [|reflexivity].
    destruct q as [|a q]; [reflexivity|]. unfold ref_at. cbn [tget].
    destruct (String.eqb_spec a m) as [->|Hne].
    + rewrite dget_dset_same, E. apply (IH c q). intros Hp. apply H. now apply prefix_cons.
    + rewrite dget_dset_other by congruence. reflexivity.
Qed.

(* identities: nothing appears from nowhere *)
Definition ids_o (o : option tree) : list nat := match o with Some t => ids t | None => [] end.
Definition fids (fs : list (string * tree)) : list nat := flat_map (fun nc => ids (snd nc)) fs.

Lemma fids_dset n v fs :
  Permutation (fids (dset n v fs) ++ ids_o (dget n fs)) (fids fs ++ ids v).
Proof.
  induction fs as [|[m c] r IH]; cbn [dset dget].
  - cbn [fids flat_map snd ids_o app]. now rewrite !app_nil_r.
  - destruct (String.eqb n m); unfold fids in *; cbn [flat_map snd ids_o].
    + etransitivity; [apply Permutation_app_comm|]. rewrite <- app_assoc.
      apply Permutation_app_head. apply Permutation_app_comm.
    + rewrite <- !app_assoc. apply Permutation_app_head. exact IH.
Qed.

Lemma ids_tset t p n v : is_obj (tget t p) = true ->
  Permutation (ids (tset p n v t) ++ ids_o (tget t (p ++ [n]))) (ids t ++ ids v).
Proof.
  revert t. induction p as [|m r IH]; intros t H; cbn [tget app] in *.
  - destruct t as [z|i k fs]; [discriminate|]. cbn [tset tget].
    rewrite !ids_obj. fold (fids (dset n v fs)) (fids fs). cbn [app]. apply perm_skip.
    replace (match dget n fs with Some c => Some c | None => None end) with (dget n fs)
      by (destruct (dget n fs); reflexivity).
    apply fids_dset.
  - destruct t as [z|i k fs]; [discriminate|]. cbn [tset].
    destruct (dget m fs) as [c|] eqn:E; [|discriminate].
    rewrite !ids_obj. fold (fids (dset m (tset r n v c) fs)) (fids fs). cbn [app].
    apply perm_skip.
    pose proof (fids_dset m (tset r n v c) fs) as H1. rewrite E in H1. cbn [ids_o] in H1.
    pose proof (IH c H) as H2.
    (* cancel ids c *)
    apply (Permutation_app_inv_l (ids c)).
    transitivity ((fids (dset m (tset r n v c) fs) ++ ids c) ++ ids_o (tget c (r ++ [n]))).
    { rewrite <- app_assoc. etransitivity; [apply Permutation_app_swap_app|]. reflexivity. }
    etransitivity; [apply Permutation_app_tail, H1|]. rewrite <- app_assoc.
    etransitivity; [apply Permutation_app_head, H2|].
    rewrite app_assoc. etransitivity; [apply Permutation_app_tail, Permutation_app_comm|].
    rewrite <- app_assoc. reflexivity.
Qed.

Lemma fids_dpop_sub n fs : forall x, In x (fids (dpop n fs)) -> In x (fids fs).
Proof.
  intros x. unfold fids. rewrite !in_flat_map. intros ([a c] & Hi & Hx).
  unfold dpop in Hi. apply filter_In in Hi. exists (a, c). tauto.
Qed.

Lemma dget_perm n (fs : list (string * tree)) c : dget n fs = Some c ->
  Permutation (fids fs) (ids c ++ fids (ddel n fs)).
Proof.
  induction fs as [|[m d] r IH]; cbn [dget ddel]; [discriminate|].
  destruct (String.eqb n m); intros H; unfold fids in *; cbn [flat_map snd].
  - injection H as ->. reflexivity.
  - etransitivity; [apply Permutation_app_head, (IH H)|]. apply Permutation_app_swap_app.
Qed.
Lemma dpop_ddel_perm n fs : exists l, Permutation (fids (ddel n fs)) (fids (dpop n fs) ++ l).
Proof.
  assert (Hf : forall g : list (string * tree), exists l, Permutation (fids g) (fids (dpop n g) ++ l)).
  { induction g as [|[m d] r (l & IH)]; [exists []; reflexivity|].
    unfold fids, dpop in *. cbn [filter fst]. destruct (String.eqb n m); cbn [negb flat_map snd].
    - exists (l ++ ids d). etransitivity; [apply Permutation_app_comm|].
      rewrite app_assoc. now apply Permutation_app_tail.
    - exists l. rewrite <- app_assoc. now apply Permutation_app_head. }
  induction fs as [|[m d] r (l & IH)]; [exists []; reflexivity|].
  cbn [ddel]. unfold dpop. cbn [filter fst]. destruct (String.eqb n m) eqn:E; cbn [negb].
  - apply Hf.
  - exists l. unfold fids in *. cbn [flat_map snd]. rewrite <- app_assoc.
    now apply Permutation_app_head.
Qed.

Lemma ids_tdel t p n old : tget t (p ++ [n]) = Some old ->
  exists l, Permutation (ids t) ((ids (tdel p n t) ++ ids old) ++ l).
Proof.
  revert t. induction p as [|m r IH]; intros t H; cbn [tget app] in *.
  - destruct t as [z|i k fs]; [discriminate|]. cbn [tdel].
    destruct (dget n fs) as [c|] eqn:E; [|discriminate]. injection H as ->.
    destruct (dpop_ddel_perm n fs) as (l & Hl). exists l.
    rewrite !ids_obj. fold (fids (dpop n fs)) (fids fs). cbn [app]. apply perm_skip.
    etransitivity; [apply (dget_perm _ _ _ E)|].
    etransitivity; [apply Permutation_app_head, Hl|].
    rewrite app_assoc. apply Permutation_app_tail. apply Permutation_app_comm.
  - destruct t as [z|i k fs]; [discriminate|]. cbn [tdel].
    destruct (dget m fs) as [c|] eqn:E; [|discriminate].
    destruct (IH c H) as (l & Hl). exists l.
    rewrite !ids_obj. fold (fids (dset m (tdel r n c) fs)) (fids fs). cbn [app].
    apply perm_skip.
    pose proof (fids_dset m (tdel r n c) fs) as H1. rewrite E in H1. cbn [ids_o] in H1.
    apply (Permutation_app_inv_l (ids (tdel r n c))).
    etransitivity; [apply Permutation_app_comm|].
    etransitivity; [symmetry; apply H1|].
    etransitivity; [apply Permutation_app_head, Hl|].
    rewrite <- !app_assoc. rewrite (app_assoc (fids _)).
    etransitivity; [apply Permutation_app_tail, Permutation_app_comm|].
    rewrite <- app_assoc. reflexivity.
Qed.

Lemma take_perm i l t l' : take i l = Some (t, l') ->
  Permutation (forest_ids l) (ids t ++ forest_ids l').
Proof.
  revert t l'. induction l as [|x r IH]; intros t l' H; [discriminate|]. cbn [take] in H.
  unfold forest_ids in *.
  assert (Hrec : match take i r with Some (y, r') => Some (y, x :: r') | None => None end
                 = Some (t, l') -> Permutation (flat_map ids (x :: r)) (ids t ++ flat_map ids l')).
  { destruct (take i r) as [[y r']|]; [|discriminate]. intros H'. injection H' as <- <-.
    cbn [flat_map]. etransitivity; [apply Permutation_app_head, (IH y r' eq_refl)|].
    apply Permutation_app_swap_app. }
  destruct x as [v|j k fs]; [now apply Hrec|].
  destruct (Nat.eqb i j); [|now apply Hrec]. injection H as <- <-. reflexivity.
Qed.
Lemma new_tree_perm l v t l' : new_tree l v = Some (t, l') ->
  Permutation (forest_ids l) (ids t ++ forest_ids l').
Proof.
  destruct v as [z|i]; cbn [new_tree]; intros H; [|eapply take_perm; eauto].
  injection H as <- <-. reflexivity.
Qed.
Lemma to_limbo_ids o : forest_ids (to_limbo o) = ids_o o.
Proof. destruct o; unfold forest_ids; cbn [to_limbo flat_map ids_o]; [apply app_nil_r|reflexivity]. Qed.
Lemma forest_ids_app a b : forest_ids (a ++ b) = forest_ids a ++ forest_ids b.
Proof. unfold forest_ids. apply flat_map_app. Qed.

Lemma nodup_b_spec l : nodup_b l = true <-> NoDup l.
Proof.
  induction l as [|x r IH]; cbn [nodup_b]; [split; [constructor|reflexivity]|].
  rewrite andb_true_iff, negb_true_iff, IH. split.
  - intros [He Hn]. constructor; [|exact Hn]. intros Hi.
    assert (existsb (Nat.eqb x) r = true) by
        (apply existsb_exists; exists x; split; [exact Hi|apply Nat.eqb_refl]). congruence.
  - intros H. inversion H as [|a b Ha Hb]; subst. split; [|exact Hb].
    destruct (existsb (Nat.eqb x) r) eqn:E; [|reflexivity].
    apply existsb_exists in E. destruct E as (y & Hy & He). apply Nat.eqb_eq in He. subst.
    contradiction.
Qed.

Lemma is_model_obj o : is_model o = true -> is_obj o = true.
Proof. destruct o as [[v|i [| |] fs]|]; cbn; congruence. Qed.

Lemma set_wf w p n v t l : wf w -> is_model (tget (w_root w) p) = true ->
  new_tree (to_limbo (tget (w_root w) (p ++ [n])) ++ w_limbo w) v = Some (t, l) ->
  wf (mkWorld (tset p n t (w_root w)) l).
Proof.
  unfold wf, unique. intros Hw Hm Hn. cbn [w_root w_limbo].
  apply new_tree_perm in Hn. rewrite forest_ids_app, to_limbo_ids in Hn.
  pose proof (ids_tset (w_root w) p n t (is_model_obj _ Hm)) as Hp.
  set (old := ids_o (tget (w_root w) (p ++ [n]))) in *.
  eapply Permutation_NoDup; [|exact Hw].
  apply (Permutation_app_inv_l old).
  etransitivity; [apply Permutation_app_swap_app|].
  etransitivity; [apply Permutation_app_head, Hn|].
  rewrite app_assoc. etransitivity; [apply Permutation_app_tail; symmetry; apply Hp|].
  etransitivity; [apply Permutation_app_tail, Permutation_app_comm|].
  rewrite <- app_assoc. reflexivity.
Qed.

Lemma mutate_wf w m w' cs : wf w -> mutate w m = Some (w', cs) -> wf w'.
Proof.
  intros Hw. destruct m as [p n v|p n|p n v ks|ts]; cbn [mutate].
  - destruct (is_model (tget (w_root w) p)) eqn:Em; [|discriminate].
    destruct (new_tree _ v) as [[t l]|] eqn:En; [|discriminate].
    intros H. injection H as <- _. eapply set_wf; eauto.
  - destruct (is_model (tget (w_root w) p)) eqn:Em; [|discriminate].
    destruct (tget (w_root w) (p ++ [n])) as [old|] eqn:Eo; [|discriminate].
    intros H. injection H as <- _. unfold wf, unique in *. cbn [w_root w_limbo].
    destruct (ids_tdel _ _ _ _ Eo) as (l & Hl).
    unfold forest_ids. cbn [flat_map]. fold (forest_ids (w_limbo w)).
    apply (NoDup_app_l _ l). eapply Permutation_NoDup; [|exact Hw].
    etransitivity; [apply Permutation_app_tail, Hl|].
    rewrite <- !app_assoc. apply Permutation_app_head. apply Permutation_app_head.
    apply Permutation_app_comm.
  - destruct (is_model (tget (w_root w) p)) eqn:Em; [|discriminate].
    destruct (new_tree _ v) as [[t l]|] eqn:En; [|discriminate].
    intros H. injection H as <- _. eapply set_wf; eauto.
  - destruct (nodup_b _) eqn:E; [|discriminate]. intros H. injection H as <- _.
    unfold wf, unique. now apply nodup_b_spec.
Qed.

(* ---------------- a group of changes ---------------- *)

(* the changes cs lead from w0 to w: places not changed hold the same references; what is
   found at a place is what the last change above it put there *)
Definition tracks (t0 : tree) (cs : list change) (t : tree) : Prop :=
  (forall p, (forall c, In c cs -> ~ prefix (fst c) p) -> ref_at t p = ref_at t0 p) /\
  (forall cs1 q r cs2, cs = cs1 ++ (q, r) :: cs2 ->
     (forall c, In c cs2 -> ~ prefix (fst c) q) -> ref_at t q = r).

Lemma tracks_nil t : tracks t [] t.
Proof. split; [reflexivity|]. intros [|] ? ? ? H; discriminate. Qed.

Lemma app_snoc_inv {A} (cs1 : list A) x cs2 cs y :
  cs ++ [y] = cs1 ++ x :: cs2 ->
  (cs2 = [] /\ cs1 = cs /\ x = y) \/ (exists c2, cs2 = c2 ++ [y] /\ cs = cs1 ++ x :: c2).
Proof.
  intros H. destruct (exists_last (l := x :: cs2)) as (l & z & Hz); [discriminate|].
  rewrite Hz, app_assoc in H. apply app_inj_tail in H as [H ->].
  destruct l as [|a l].
  - injection Hz as -> ->. left. rewrite app_nil_r in H. auto.
  - injection Hz as -> ->. right. exists l. now split.
Qed.

Lemma tracks_snoc t0 cs t t' q r : tracks t0 cs t ->
  (forall p, ~ prefix q p -> ref_at t' p = ref_at t p) -> ref_at t' q = r ->
  tracks t0 (cs ++ [(q, r)]) t'.
Proof.
  intros [H1 H2] Ho Ha. split.
  - intros p Hp. rewrite Ho; [apply H1|].
    + intros c Hc. apply Hp. apply in_or_app. now left.
    + apply (Hp (q, r)). apply in_or_app. right. now left.
  - intros cs1 q' r' cs2 He Hn. apply app_snoc_inv in He.
    destruct He as [(-> & -> & Hx)|(c2 & -> & ->)].
    + injection Hx as -> ->. exact Ha.
    + rewrite Ho.
      * eapply H2; [reflexivity|]. intros c Hc. apply Hn. apply in_or_app. now left.
      * apply (Hn (q, r)). apply in_or_app. right. now left.
Qed.

Lemma mutate_tracks t0 cs w m w' cs' : tracks t0 cs (w_root w) -> whole (Mut m) ->
  mutate w m = Some (w', cs') -> tracks t0 (cs ++ cs') (w_root w').
Proof.
  intros Ht Hw. destruct m as [p n v|p n|p n v ks|ts]; cbn [mutate whole] in *; [| |destruct Hw|].
  - destruct (is_model (tget (w_root w) p)) eqn:Em; [|discriminate].
    destruct (new_tree _ v) as [[t l]|] eqn:En; [|discriminate].
    intros H. injection H as <- <-. cbn [w_root].
    apply tracks_snoc with (t := w_root w); [exact Ht| |].
    + intros q Hq. now apply tset_other.
    + unfold ref_at. rewrite tset_at by now apply is_model_obj. reflexivity.
  - destruct (is_model (tget (w_root w) p)) eqn:Em; [|discriminate].
    destruct (tget (w_root w) (p ++ [n])) as [old|] eqn:Eo; [|discriminate].
    intros H. injection H as <- <-. cbn [w_root].
    apply tracks_snoc with (t := w_root w); [exact Ht| |].
    + intros q Hq. now apply tdel_other.
    + unfold ref_at. rewrite tdel_at by now apply is_model_obj. reflexivity.
  - destruct (nodup_b _) eqn:E; [|discriminate]. intros H. injection H as <- <-.
    rewrite app_nil_r. exact Ht.
Qed.
