From Coq Require Import String Bool ZArith Lia List Permutation.
From Verif Require Import Base Notify_Model Notify_Spec Notify_Proofs Notify2_Proofs.
Import ListNotations.
Local Open Scope list_scope.
Local Open Scope nat_scope.

(* ---------------- the changes handed to the children ---------------- *)
Definition get_or {A} (n : string) (cc : dict (list A)) : list A :=
  match dget n cc with Some l => l | None => [] end.
Lemma get_or_append {A} n m (x : A) cc :
  get_or m (append_to n x cc) = if String.eqb m n then get_or m cc ++ [x] else get_or m cc.
Proof.
  unfold get_or, append_to. rewrite dget_dset. destruct (String.eqb_spec m n) as [->|Hne].
  - destruct (dget n cc); reflexivity.
  - reflexivity.
Qed.
Definition all_some {A} (cc : dict (list A)) : Prop := forall n l, dget n cc = Some l -> l <> [].
Lemma append_all_some {A} n (x : A) cc : all_some cc -> all_some (append_to n x cc).
Proof.
  intros H m l. unfold append_to. rewrite dget_dset. destruct (String.eqb_spec m n) as [->|Hne].
  - intros He. injection He as <-. destruct (dget n cc) as [l|]; [|discriminate].
    intros Hn. apply app_eq_nil in Hn as [_ Hn]. discriminate.
  - apply H.
Qed.

Lemma fold_names_get w r names (cc : dict (list change)) n : NoDup names ->
  get_or n (fold_left (fun (cc : dict (list change)) n => append_to n ([], geta w r n) cc) names cc)
  = get_or n cc ++ (if smem n names then [([], geta w r n)] else []).
Proof.
  revert cc. induction names as [|m l IH]; intros cc Hn; cbn [fold_left smem existsb].
  - now rewrite app_nil_r.
  - inversion Hn as [|a b Ha Hb]; subst. rewrite IH by exact Hb. rewrite get_or_append.
    fold (smem n l). destruct (String.eqb_spec n m) as [->|Hne]; cbn [orb].
    + apply smem_false in Ha. rewrite Ha. now rewrite app_nil_r.
    + reflexivity.
Qed.
Lemma fold_names_inv w r names (cc : dict (list change)) : NoDup (dkeys cc) /\ all_some cc /\ (forall n, In n (dkeys cc) -> In n names) ->
  forall names', (forall n, In n names' -> In n names) ->
  let cc' := fold_left (fun (cc : dict (list change)) n => append_to n ([], geta w r n) cc) names' cc in
  NoDup (dkeys cc') /\ all_some cc' /\ (forall n, In n (dkeys cc') -> In n names).
Proof.
  intros (H1 & H2 & H3) names'. revert cc H1 H2 H3.
  induction names' as [|m l IH]; intros cc H1 H2 H3 Hs; cbn [fold_left]; [now repeat split|].
  apply IH.
  - unfold append_to. now apply dset_nodup.
  - now apply append_all_some.
  - intros n Hn. unfold append_to in Hn. apply In_dkeys_dset in Hn as [->|Hn]; [apply Hs; now left|auto].
  - intros n Hn. apply Hs. now right.
Qed.

Lemma cc_get w names cs cc n : NoDup names ->
  get_or n (fold_left (add_child_change w names) cs cc)
  = get_or n cc ++ (if smem n names then view1 w n cs else []).
Proof.
  intros Hn. revert cc. induction cs as [|[q r] cs IH]; intros cc; cbn [fold_left view1 flat_map].
  - destruct (smem n names); now rewrite app_nil_r.
  - rewrite IH. unfold add_child_change. cbn [fst snd]. fold (view1 w n cs). destruct q as [|m q].
    + rewrite fold_names_get by exact Hn. destruct (smem n names); [|now rewrite !app_nil_r].
      now rewrite <- app_assoc.
    + rewrite (String.eqb_sym m n). destruct (smem m names) eqn:Em.
      * rewrite get_or_append. destruct (String.eqb_spec n m) as [->|Hne]; cbn [app].
        -- rewrite Em. now rewrite <- app_assoc.
        -- reflexivity.
      * destruct (String.eqb_spec n m) as [->|Hne]; [|reflexivity]. now rewrite Em.
Qed.
Lemma cc_inv w names cs cc : NoDup (dkeys cc) /\ all_some cc /\ (forall n, In n (dkeys cc) -> In n names) ->
  let cc' := fold_left (add_child_change w names) cs cc in
  NoDup (dkeys cc') /\ all_some cc' /\ (forall n, In n (dkeys cc') -> In n names).
Proof.
  revert cc. induction cs as [|[q r] cs IH]; intros cc H; cbn [fold_left]; [exact H|].
  apply IH. unfold add_child_change. cbn [fst snd]. destruct q as [|m q].
  - apply (fold_names_inv w r names cc H names). auto.
  - destruct (smem m names) eqn:Em; [|exact H]. destruct H as (H1 & H2 & H3).
    apply smem_In in Em. split; [unfold append_to; now apply dset_nodup|].
    split; [now apply append_all_some|].
    intros n Hn. unfold append_to in Hn. apply In_dkeys_dset in Hn as [->|Hn]; auto.
Qed.

Definition child_changes w (ch : list (string * nnode)) cs :=
  fold_left (add_child_change w (dkeys ch)) cs [].
Lemma cc_nil_inv (names : list string) :
  NoDup (dkeys (@nil (string * list change))) /\ all_some (@nil (string * list change)) /\
  (forall n, In n (dkeys (@nil (string * list change))) -> In n names).
Proof. split; [constructor|]. split; [discriminate|]. intros n []. Qed.
Lemma child_changes_get w ch cs n : NoDup (dkeys ch) -> In n (dkeys ch) ->
  dget n (child_changes w ch cs) = match view1 w n cs with [] => None | l => Some l end.
Proof.
  intros Hn Hi. unfold child_changes.
  pose proof (cc_get w (dkeys ch) cs [] n Hn) as Hg.
  destruct (cc_inv w (dkeys ch) cs [] (cc_nil_inv _)) as (_ & Hs & _).
  apply smem_In in Hi. rewrite Hi in Hg. cbn [get_or dget app] in Hg. unfold get_or in Hg.
  destruct (dget n (fold_left (add_child_change w (dkeys ch)) cs [])) as [l|] eqn:E.
  - apply Hs in E. cbn [dget app] in Hg. subst l. destruct (view1 w n cs); [congruence|reflexivity].
  - cbn [dget app] in Hg. now rewrite <- Hg.
Qed.

(* ---------------- nodes by path ---------------- *)
Fixpoint nget (nd : nnode) (p : path) : option nnode :=
  match p with
  | [] => Some nd
  | n :: r => match dget n (n_children nd) with Some c => nget c r | None => None end
  end.

Fixpoint nnode_ind' (P : nnode -> Prop)
  (H : forall d us ds ch, Forall (fun nc => P (snd nc)) ch -> P (NN d us ds ch)) (n : nnode) : P n :=
  match n with
  | NN d us ds ch =>
    H d us ds ch ((fix go l : Forall (fun nc => P (snd nc)) l :=
                     match l with
                     | [] => Forall_nil _
                     | nc :: r => Forall_cons nc (nnode_ind' P H (snd nc)) (go r)
                     end) ch)
  end.

Definition nchild w (cc : dict (list change)) (kc : string * nnode) : nnode * list out :=
  match dget (fst kc) cc with Some cs' => notify w (snd kc) cs' | None => (snd kc, []) end.

Lemma notify_eq w d us ds ch cs :
  notify w (NN d us ds ch) cs =
  (NN (new_data d cs) us ds (map (fun kc => (fst kc, fst (nchild w (child_changes w ch cs) kc))) ch),
   map (fun s => (s_key s, Update (freeze w (new_data d cs)))) us
   ++ map (fun s => (s_key s, Delta (map (freeze_change w) cs))) ds
   ++ flat_map (fun kc => match dget (fst kc) ch with
                          | Some c => snd (nchild w (child_changes w ch cs) (fst kc, c))
                          | None => [] end)
        (child_changes w ch cs)).
Proof.
  cbn [notify]. fold (child_changes w ch cs). set (cc := child_changes w ch cs).
  match goal with |- context [map _ (?f ch)] => set (go := f) end.
  assert (Hgo : forall l, go l = map (fun kc => (fst kc, nchild w cc kc)) l).
  { induction l as [|[k c] r IH]; [reflexivity|]. cbn [go map fst]. fold go. rewrite IH.
    reflexivity. }
  rewrite Hgo, map_map. cbn [fst snd]. f_equal.
  f_equal. f_equal. apply flat_map_ext. intros [k l]. cbn [fst].
  clear Hgo go. clearbody cc.
  induction ch as [|[m c] r IH]; cbn [map dget fst]; [reflexivity|].
  destruct (String.eqb_spec k m) as [->|Hne]; [reflexivity|exact IH].
Qed.

(* every node has each child once *)
Definition nwf (nd : nnode) : Prop :=
  forall p m, nget nd p = Some m -> NoDup (dkeys (n_children m)).
Lemma nwf_child d us ds ch n c : nwf (NN d us ds ch) -> dget n ch = Some c -> nwf c.
Proof. intros H He p m Hp. apply (H (n :: p) m). cbn [nget n_children]. now rewrite He. Qed.
Lemma nwf_here d us ds ch : nwf (NN d us ds ch) -> NoDup (dkeys ch).
Proof. intros H. apply (H [] (NN d us ds ch)). reflexivity. Qed.

Lemma dget_map_key {A B} (f : string * A -> B) n (ch : list (string * A)) :
  dget n (map (fun kc => (fst kc, f kc)) ch)
  = match dget n ch with Some c => Some (f (n, c)) | None => None end.
Proof.
  induction ch as [|[m c] r IH]; cbn [map dget fst]; [reflexivity|].
  destruct (String.eqb_spec n m) as [->|Hne]; [reflexivity|exact IH].
Qed.

Lemma notify_nil w nd : nwf nd -> fst (notify w nd []) = nd.
Proof.
  destruct nd as [d us ds ch]. intros _. rewrite notify_eq. cbn [fst new_data fold_left].
  unfold child_changes. cbn [fold_left]. f_equal.
  induction ch as [|[m c] r IH]; cbn [map fst]; [reflexivity|]. f_equal. exact IH.
Qed.

Lemma notify_nget w nd cs p : nwf nd ->
  nget (fst (notify w nd cs)) p = option_map (fun m => fst (notify w m (view w p cs))) (nget nd p).
Proof.
  revert nd cs. induction p as [|n p IH]; intros nd cs Hw; [reflexivity|].
  destruct nd as [d us ds ch]. rewrite notify_eq. cbn [fst nget n_children view].
  rewrite dget_map_key. destruct (dget n ch) as [c|] eqn:Ec; [|reflexivity].
  pose proof (nwf_child _ _ _ _ _ _ Hw Ec) as Hc.
  unfold nchild. cbn [fst snd]. rewrite child_changes_get;
    [|now apply (nwf_here d us ds)|eapply dget_Some_key; eauto].
  destruct (view1 w n cs) as [|x l] eqn:Ev.
  - cbn [fst]. rewrite view_nil. destruct (nget c p) as [m|] eqn:Em; [|reflexivity].
    cbn [option_map]. rewrite notify_nil; [reflexivity|].
    intros q m' Hq. apply (Hc (p ++ q)).
    clear - Em Hq. revert c Em. induction p as [|a p IH]; intros c Em; cbn [nget app] in *.
    + congruence.
    + destruct (dget a (n_children c)); [now apply IH|discriminate].
  - rewrite IH by exact Hc. reflexivity.
Qed.

(* ---------------- who is told what ---------------- *)
Definition keys_at (m : nnode) : list key := map s_key (n_updates m) ++ map s_key (n_deltas m).

Lemma key_eqb_spec a b : key_eqb a b = true <-> a = b.
Proof.
  destruct a as [a1 a2], b as [b1 b2]. unfold key_eqb. cbn [fst snd].
  rewrite andb_true_iff, !Nat.eqb_eq. split; [intros [-> ->]; reflexivity|].
  intros H. injection H as -> ->. auto.
Qed.
Lemma key_eqb_refl a : key_eqb a a = true.
Proof. now apply key_eqb_spec. Qed.
Lemma key_eqb_neq a b : a <> b -> key_eqb a b = false.
Proof. intros H. destruct (key_eqb a b) eqn:E; [|reflexivity]. apply key_eqb_spec in E. congruence. Qed.

Lemma to_key_app k a b : to_key k (a ++ b) = to_key k a ++ to_key k b.
Proof. unfold to_key. rewrite filter_app, map_app. reflexivity. Qed.
Lemma to_key_none k (f : sub -> msg) l : ~ In k (map s_key l) ->
  to_key k (map (fun s => (s_key s, f s)) l) = [].
Proof.
  induction l as [|s r IH]; intros H; [reflexivity|]. cbn [map] in *.
  unfold to_key. cbn [filter fst]. rewrite key_eqb_neq by (intros ->; apply H; now left).
  apply IH. intros Hi. apply H. now right.
Qed.
Lemma to_key_one k (f : sub -> msg) l s : NoDup (map s_key l) -> In s l -> s_key s = k ->
  to_key k (map (fun s => (s_key s, f s)) l) = [f s].
Proof.
  induction l as [|x r IH]; intros Hn Hi Hk; [destruct Hi|]. cbn [map] in *.
  inversion Hn as [|a b Ha Hb]; subst. unfold to_key. cbn [filter fst].
  destruct Hi as [->|Hi].
  - rewrite key_eqb_refl. cbn [map snd]. f_equal. now apply to_key_none.
  - rewrite key_eqb_neq; [now apply IH|]. intros He. apply Ha. rewrite <- He.
    now apply in_map.
Qed.

Lemma to_key_flat {A} k (f : A -> list out) l :
  to_key k (flat_map f l) = flat_map (fun x => to_key k (f x)) l.
Proof. induction l as [|x r IH]; cbn [flat_map]; [reflexivity|]. now rewrite to_key_app, IH. Qed.
Lemma flat_map_nil {A B} (f : A -> list B) l : (forall x, In x l -> f x = []) -> flat_map f l = [].
Proof.
  induction l as [|x r IH]; intros H; cbn [flat_map]; [reflexivity|].
  rewrite H by now left. apply IH. intros y Hy. apply H. now right.
Qed.
Lemma flat_map_one {A B} (f : string * A -> list B) n l (d : list (string * A)) :
  NoDup (dkeys d) -> dget n d = Some l ->
  (forall k x, In (k, x) d -> k <> n -> f (k, x) = []) -> flat_map f d = f (n, l).
Proof.
  induction d as [|[m x] r IH]; intros Hn Hg Ho; [discriminate|]. cbn [dget dkeys map fst flat_map] in *.
  inversion Hn as [|a b Ha Hb]; subst.
  destruct (String.eqb_spec n m) as [->|Hne].
  - injection Hg as ->. rewrite (flat_map_nil f r); [apply app_nil_r|].
    intros [k y] Hi. apply Ho; [now right|]. intros ->. apply Ha.
    apply (in_map fst) in Hi. exact Hi.
  - rewrite (Ho m x); [|now left|congruence]. apply IH; auto. intros k y Hi. apply Ho. now right.
Qed.

Lemma notify_nokey w k nd : forall cs, nwf nd ->
  (forall p m, nget nd p = Some m -> ~ In k (keys_at m)) -> to_key k (snd (notify w nd cs)) = [].
Proof.
  induction nd as [d us ds ch IH] using nnode_ind'. intros cs Hw Hk. rewrite notify_eq. cbn [snd].
  pose proof (Hk [] _ eq_refl) as H0. unfold keys_at in H0. cbn [n_updates n_deltas] in H0.
  rewrite !to_key_app, to_key_none, to_key_none.
  2,3: intros Hi; apply H0; apply in_or_app; auto.
  cbn [app]. rewrite to_key_flat. apply flat_map_nil. intros [n l] _. cbn [fst].
  destruct (dget n ch) as [c|] eqn:Ec; [|reflexivity].
  unfold nchild. cbn [fst snd]. destruct (dget n (child_changes w ch cs)); [|reflexivity].
  rewrite Forall_forall in IH. apply (IH (n, c)); [now apply dget_Some_In|now apply (nwf_child _ _ _ _ _ _ Hw Ec)|].
  intros p m Hp. apply (Hk (n :: p)). cbn [nget n_children]. now rewrite Ec.
Qed.

(* what the node m itself sends to key k *)
Definition own (w : world) (k : key) (m : nnode) (cs : list change) : list msg :=
  to_key k (map (fun s => (s_key s, Update (freeze w (new_data (n_data m) cs)))) (n_updates m)
            ++ map (fun s => (s_key s, Delta (map (freeze_change w) cs))) (n_deltas m)).
Definition is_nil {A} (l : list A) : bool := match l with [] => true | _ => false end.

Lemma notify_out w k p : forall nd cs m, nwf nd -> nget nd p = Some m ->
  (forall q m', nget nd q = Some m' -> q <> p -> ~ In k (keys_at m')) ->
  to_key k (snd (notify w nd cs))
  = if is_nil p || negb (is_nil (view w p cs)) then own w k m (view w p cs) else [].
Proof.
  induction p as [|n p IH]; intros [d us ds ch] cs m Hw Hg Ho; rewrite notify_eq; cbn [snd].
  - cbn [nget] in Hg. injection Hg as <-. cbn [is_nil orb view]. unfold own.
    cbn [n_updates n_deltas n_data]. rewrite !to_key_app.
    rewrite (to_key_flat k _ (child_changes w ch cs)).
    rewrite (flat_map_nil _ (child_changes w ch cs)); [now rewrite app_nil_r|].
    intros [n l] _. cbn [fst]. destruct (dget n ch) as [c|] eqn:Ec; [|reflexivity].
    unfold nchild. cbn [fst snd]. destruct (dget n (child_changes w ch cs)); [|reflexivity].
    apply notify_nokey; [now apply (nwf_child _ _ _ _ _ _ Hw Ec)|].
    intros q m' Hq. apply (Ho (n :: q)); [|discriminate]. cbn [nget n_children]. now rewrite Ec.
  - cbn [nget n_children] in Hg. destruct (dget n ch) as [c|] eqn:Ec; [|discriminate].
    pose proof (nwf_child _ _ _ _ _ _ Hw Ec) as Hwc. pose proof (nwf_here _ _ _ _ Hw) as Hnd.
    pose proof (Ho [] _ eq_refl ltac:(discriminate)) as H0. unfold keys_at in H0.
    cbn [n_updates n_deltas] in H0.
    rewrite !to_key_app, to_key_none, to_key_none.
    2,3: intros Hi; apply H0; apply in_or_app; auto.
    cbn [app is_nil orb view]. rewrite to_key_flat.
    destruct (cc_inv w (dkeys ch) cs [] (cc_nil_inv _)) as (Hcn & _ & Hci).
    fold (child_changes w ch cs) in Hcn, Hci.
    assert (Hother : forall k' l, In (k', l) (child_changes w ch cs) -> k' <> n ->
      to_key k (match dget k' ch with
                | Some c => snd (nchild w (child_changes w ch cs) (k', c)) | None => [] end) = []).
    { intros k' l _ Hne. destruct (dget k' ch) as [c'|] eqn:Ec'; [|reflexivity].
      unfold nchild. cbn [fst snd]. destruct (dget k' (child_changes w ch cs)); [|reflexivity].
      apply notify_nokey; [now apply (nwf_child _ _ _ _ _ _ Hw Ec')|].
      intros q m' Hq. apply (Ho (k' :: q)); [|congruence]. cbn [nget n_children]. now rewrite Ec'. }
    assert (Hink : In n (dkeys ch)) by (eapply dget_Some_key; eauto).
    pose proof (child_changes_get w ch cs n Hnd Hink) as Hcc.
    destruct (view1 w n cs) as [|x l] eqn:Ev.
    + rewrite flat_map_nil; [rewrite view_nil; reflexivity|].
      intros [k' l'] Hi. cbn [fst]. apply (Hother k' l' Hi). intros ->.
      apply (dget_In_nodup n l') in Hi; [congruence|exact Hcn].
    + rewrite (flat_map_one _ n (x :: l)); [|exact Hcn|exact Hcc|exact Hother].
      cbn [fst]. rewrite Ec. unfold nchild. cbn [fst snd]. rewrite Hcc.
      rewrite (IH c (x :: l) m Hwc Hg).
      2:{ intros q m' Hq Hne. apply (Ho (n :: q)); [|congruence]. cbn [nget n_children]. now rewrite Ec. }
      destruct p; reflexivity.
Qed.
