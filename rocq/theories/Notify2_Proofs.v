From Coq Require Import String Bool ZArith Lia List Permutation.
From Verif Require Import Base Notify_Model Notify_Spec Notify_Proofs.
Import ListNotations.
Local Open Scope list_scope.
Local Open Scope nat_scope.

(* ---------------- one subscription's view of the changes ---------------- *)
Definition view1 (w : world) (n : string) (cs : list change) : list change :=
  flat_map (fun c => match fst c with
                     | [] => [([], geta w (snd c) n)]
                     | m :: p => if String.eqb m n then [(p, snd c)] else []
                     end) cs.
Fixpoint view (w : world) (p : path) (cs : list change) : list change :=
  match p with [] => cs | n :: r => view w r (view1 w n cs) end.

Fixpoint getas (w : world) (r : ref) (p : path) : ref :=
  match p with [] => r | n :: q => getas w (geta w r n) q end.

Lemma view_nil w p : view w p [] = [].
Proof. induction p; cbn [view view1 flat_map]; auto. Qed.
Lemma view_app w p a b : view w p (a ++ b) = view w p a ++ view w p b.
Proof.
  revert a b. induction p as [|n r IH]; intros a b; cbn [view]; [reflexivity|].
  unfold view1. rewrite flat_map_app. apply IH.
Qed.
Lemma geta_none w n : geta w RNone n = RNone.
Proof. reflexivity. Qed.

Lemma view_above w q r s : view w (q ++ s) [(q, r)] = [([], getas w r s)].
Proof.
  revert s. induction q as [|a q IH]; intros s; cbn [app].
  - revert r. induction s as [|n s IHs]; intros r; cbn [view getas]; [reflexivity|].
    cbn [view1 flat_map fst snd app]. apply IHs.
  - cbn [view view1 flat_map fst snd]. rewrite String.eqb_refl. cbn [app]. apply IH.
Qed.
Lemma view_below w p r s : view w p [(p ++ s, r)] = [(s, r)].
Proof.
  induction p as [|a p IH]; cbn [app]; [reflexivity|].
  cbn [view view1 flat_map fst snd]. rewrite String.eqb_refl. cbn [app]. apply IH.
Qed.
Lemma view_unrelated w p q r : ~ prefix q p -> ~ prefix p q -> view w p [(q, r)] = [].
Proof.
  revert q. induction p as [|a p IH]; intros q H1 H2.
  - exfalso. apply H2. apply prefix_nil.
  - destruct q as [|b q]; [exfalso; apply H1, prefix_nil|].
    cbn [view view1 flat_map fst snd]. destruct (String.eqb_spec b a) as [->|Hne].
    + cbn [app]. apply IH; intros H; [apply H1|apply H2]; now apply prefix_cons.
    + apply view_nil.
Qed.
Lemma view_one w p q r :
  (exists s, p = q ++ s /\ view w p [(q, r)] = [([], getas w r s)]) \/
  (exists a s, q = p ++ a :: s /\ view w p [(q, r)] = [(a :: s, r)]) \/
  (~ prefix q p /\ ~ prefix p q /\ view w p [(q, r)] = []).
Proof.
  destruct (prefix_dec q p) as [(s & ->)|H1].
  - left. exists s. split; [reflexivity|apply view_above].
  - destruct (prefix_dec p q) as [(s & ->)|H2].
    + right; left. destruct s as [|a s]; [exfalso; apply H1; rewrite app_nil_r; apply prefix_refl|].
      exists a, s. split; [reflexivity|apply view_below].
    + right; right. split; [exact H1|]. split; [exact H2|]. now apply view_unrelated.
Qed.
Lemma view_empty w p (cs : list change) : view w p cs = [] <-> (forall c, In c cs -> ~ related (fst c) p).
Proof.
  induction cs as [|[q r] cs IH].
  - rewrite view_nil. split; [intros _ c []|reflexivity].
  - change ((q, r) :: cs) with ([(q, r)] ++ cs). rewrite view_app. split.
    + intros H. apply app_eq_nil in H as [Ha Hb]. pose proof (proj1 IH Hb) as Hb2. clear Hb. rename Hb2 into Hb.
      intros c Hc. apply in_app_or in Hc as [[<-|[]]|Hc]; [|now apply Hb].
      cbn [fst]. destruct (view_one w p q r) as [(s & -> & Hv)|[(a & s & -> & Hv)|(H1 & H2 & _)]].
      * pose proof (eq_trans (eq_sym Hv) Ha). discriminate.
      * pose proof (eq_trans (eq_sym Hv) Ha). discriminate.
      * intros [H|H]; auto.
    + intros H. rewrite (proj2 IH), app_nil_r.
      2:{ intros c Hc. apply H. apply in_or_app. now right. }
      apply view_unrelated; intros Hp; apply (H (q, r)); try (apply in_or_app; left; now left).
      * now left.
      * now right.
Qed.

Lemma clear_prefix t p q : clear t (p ++ q) -> clear t p.
Proof. intros H a n b He. apply (H a n (b ++ q)). rewrite He, <- app_assoc. reflexivity. Qed.
Lemma getas_ref w q s : wf w -> clear (w_root w) (q ++ s) ->
  getas w (ref_at (w_root w) q) s = ref_at (w_root w) (q ++ s).
Proof.
  revert q. induction s as [|n s IH]; intros q Hw Hc; cbn [getas]; [now rewrite app_nil_r|].
  rewrite geta_ref; [|exact Hw|now apply (Hc q n s)].
  replace (q ++ n :: s) with ((q ++ [n]) ++ s) by now rewrite <- app_assoc.
  apply IH; [exact Hw|]. now rewrite <- app_assoc.
Qed.

Lemma new_data_app d a b : new_data d (a ++ b) = new_data (new_data d a) b.
Proof. unfold new_data. apply fold_left_app. Qed.

(* the last change at or above p *)
Lemma last_above (cs : list change) p :
  (forall c, In c cs -> ~ prefix (fst c) p) \/
  exists cs1 q r cs2, cs = cs1 ++ (q, r) :: cs2 /\ prefix q p /\
                      (forall c, In c cs2 -> ~ prefix (fst c) p).
Proof.
  induction cs as [|[q r] cs IH] using rev_ind; [left; intros c []|].
  destruct (prefix_dec q p) as [Hp|Hp].
  - right. exists cs, q, r, []. split; [reflexivity|]. split; [exact Hp|]. intros c [].
  - destruct IH as [H|(c1 & q' & r' & c2 & -> & Hq & Hn)].
    + left. intros c Hc. apply in_app_or in Hc as [Hc|[<-|[]]]; [now apply H|exact Hp].
    + right. exists c1, q', r', (c2 ++ [(q, r)]). split; [now rewrite <- app_assoc|].
      split; [exact Hq|]. intros c Hc. apply in_app_or in Hc as [Hc|[<-|[]]]; [now apply Hn|exact Hp].
Qed.

Lemma new_data_none w d p (cs : list change) : (forall c, In c cs -> ~ prefix (fst c) p) ->
  new_data d (view w p cs) = d.
Proof.
  induction cs as [|[q r] cs IH] using rev_ind; intros H; [now rewrite view_nil|].
  rewrite view_app, new_data_app, IH.
  2:{ intros c Hc. apply H. apply in_or_app. now left. }
  destruct (view_one w p q r) as [(s & -> & Hv)|[(a & s & -> & Hv)|(H1 & H2 & Hv)]];
    rewrite Hv; [|reflexivity|reflexivity].
  exfalso. apply (H (q, r)); [apply in_or_app; right; now left|]. apply prefix_app.
Qed.

Lemma clear_same t0 cs t p : tracks t0 cs t -> (forall c, In c cs -> ~ prefix (fst c) p) ->
  clear t p -> clear t0 p.
Proof.
  intros [H1 _] Hn Hc q n r He. specialize (Hc q n r He). rewrite tsee_mark in *.
  rewrite <- H1; [exact Hc|]. intros c Hi Hp. apply (Hn c Hi).
  apply (prefix_trans _ q); [exact Hp|]. exists (n :: r). exact He.
Qed.

Lemma data_ok t0 cs w d p : tracks t0 cs (w_root w) -> wf w -> clear (w_root w) p ->
  (clear t0 p -> d = ref_at t0 p) -> new_data d (view w p cs) = ref_at (w_root w) p.
Proof.
  intros Ht Hw Hc Hd. destruct (last_above cs p) as [Hn|(c1 & q & r & c2 & -> & (s & ->) & Hn)].
  - rewrite new_data_none by exact Hn. rewrite Hd by now apply (clear_same t0 cs (w_root w)).
    symmetry. now apply (proj1 Ht).
  - rewrite view_app, new_data_app. change ((q, r) :: c2) with ([(q, r)] ++ c2).
    rewrite view_app, new_data_app, view_above, (new_data_none w _ _ c2 Hn).
    cbn [new_data fold_left fst snd].
    assert (Hr : ref_at (w_root w) q = r).
    { eapply (proj2 Ht); [reflexivity|]. intros c Hi Hp. apply (Hn c Hi).
      apply (prefix_trans _ q); [exact Hp|apply prefix_app]. }
    rewrite <- Hr. now apply getas_ref.
Qed.

(* ---------------- a client replaying ---------------- *)
Lemma vsee_apply_other s d v r : ~ prefix s r -> vsee (vapply s d v) r = vsee v r.
Proof.
  revert v r. induction s as [|n s IH]; intros v r H; [exfalso; apply H, prefix_nil|].
  cbn [vapply]. destruct v as [|z|k fs]; [reflexivity|reflexivity|].
  destruct s as [|m s].
  - destruct r as [|a r]; [now destruct d|]. cbn [vsee].
    assert (Hne : a <> n).
    { intros ->. apply H. apply prefix_cons. split; [reflexivity|apply prefix_nil]. }
    destruct d as [x|].
    + rewrite dget_dset_other by congruence. reflexivity.
    + change (vpop n fs) with (dpop n fs). rewrite dget_dpop.
      apply String.eqb_neq in Hne. now rewrite Hne.
  - destruct (dget n fs) as [c|] eqn:E; [|reflexivity].
    destruct r as [|a r]; [reflexivity|]. cbn [vsee].
    destruct (String.eqb_spec a n) as [->|Hne].
    + rewrite dget_dset_same, E. apply IH. intros Hp. apply H. now apply prefix_cons.
    + rewrite dget_dset_other by congruence. reflexivity.
Qed.
Lemma vsee_apply_del s v r : s <> [] -> vsee (vapply s None v) (s ++ r) = None.
Proof.
  revert v. induction s as [|n s IH]; intros v Hs; [congruence|]. cbn [vapply app].
  destruct v as [|z|k fs]; [reflexivity|reflexivity|]. destruct s as [|m s].
  - cbn [vsee app]. change (vpop n fs) with (dpop n fs). rewrite dget_dpop, String.eqb_refl.
    reflexivity.
  - destruct (dget n fs) as [c|] eqn:E.
    + cbn [vsee]. rewrite dget_dset_same. now apply IH.
    + cbn [vsee]. now rewrite E.
Qed.
Lemma vsee_apply_set s n x v k r : vsee v s = Some (SObj k) ->
  vsee (vapply (s ++ [n]) (Some x) v) ((s ++ [n]) ++ r) = vsee x r.
Proof.
  revert v. induction s as [|m s IH]; intros v H; cbn [app].
  - destruct v as [|z|k' fs]; [discriminate|discriminate|]. cbn [vapply vsee].
    now rewrite dget_dset_same.
  - destruct v as [|z|k' fs]; [discriminate|discriminate|]. cbn [vsee] in H.
    destruct (dget m fs) as [c|] eqn:E; [|discriminate].
    cbn [vapply]. destruct (s ++ [n]) as [|b l] eqn:El; [destruct s; discriminate|].
    rewrite E, <- El. cbn [vsee app]. rewrite dget_dset_same. rewrite <- IH with (1 := H).
    rewrite <- El. reflexivity.
Qed.

Definition app_change (w : world) (copy : val) (c : change) : val :=
  vapply (fst (freeze_change w c)) (snd (freeze_change w c)) copy.
Lemma replay_fold w copy cs :
  replay copy (Delta (map (freeze_change w) cs)) = fold_left (app_change w) cs copy.
Proof.
  cbn [replay]. revert copy. induction cs as [|c r IH]; intros copy; cbn [map fold_left];
    [reflexivity|]. apply IH.
Qed.

Lemma prefix_comparable a b c : prefix a c -> prefix b c -> prefix a b \/ prefix b a.
Proof.
  revert b c. induction a as [|x a IH]; intros b c Ha Hb; [left; apply prefix_nil|].
  destruct b as [|y b]; [right; apply prefix_nil|].
  destruct c as [|z c]; [exfalso; eapply prefix_cons_nil; eauto|].
  apply prefix_cons in Ha as [-> Ha]. apply prefix_cons in Hb as [-> Hb].
  destruct (IH b c Ha Hb); [left|right]; now apply prefix_cons.
Qed.

Lemma prefix_app_l p s r : prefix (p ++ s) (p ++ r) <-> prefix s r.
Proof.
  split; intros (x & Hx); exists x.
  - rewrite <- app_assoc in Hx. now apply app_inv_head in Hx.
  - rewrite Hx. now rewrite app_assoc.
Qed.

Lemma replay_ok t0 cs w p copy : tracks t0 cs (w_root w) -> wf w -> clear (w_root w) p ->
  (clear t0 p -> is_value copy t0 p) ->
  is_value (fold_left (app_change w) (view w p cs) copy) (w_root w) p.
Proof.
  intros Ht Hw Hc Hd.
  assert (Hgen : forall cs1 cs2, cs = cs1 ++ cs2 -> forall r,
             (forall c, In c cs2 -> ~ prefix (fst c) (p ++ r)) ->
             vsee (fold_left (app_change w) (view w p cs1) copy) r = tsee (w_root w) (p ++ r)).
  { induction cs1 as [|[q d] cs1 IH] using rev_ind; intros cs2 He r Hn.
    - cbn [app] in He. subst cs2. rewrite view_nil. cbn [fold_left].
      assert (Hn' : forall c, In c cs -> ~ prefix (fst c) p).
      { intros c Hi Hp. apply (Hn c Hi). apply (prefix_trans _ p); [exact Hp|apply prefix_app]. }
      rewrite Hd by now apply (clear_same t0 cs (w_root w)).
      rewrite !tsee_mark. f_equal. symmetry. now apply (proj1 Ht).
    - rewrite <- app_assoc in He. cbn [app] in He.
      specialize (IH ((q, d) :: cs2) He).
      assert (Hlast : prefix q (p ++ r) -> ref_at (w_root w) q = d).
      { intros Hq. eapply (proj2 Ht); [exact He|]. intros c Hi Hp. apply (Hn c Hi).
        apply (prefix_trans _ q); auto. }
      rewrite view_app, fold_left_app.
      destruct (view_one w p q d) as [(s & Hp & Hv)|[(a & s & Hq & Hv)|(H1 & H2 & Hv)]]; rewrite Hv.
      + cbn [fold_left]. subst p.
        rewrite <- Hlast by (rewrite <- app_assoc; apply prefix_app).
        rewrite getas_ref by auto.
        unfold app_change, freeze_change. cbn [fst snd vapply].
        match goal with |- vsee ?vv _ = _ =>
          replace vv with (freeze w (ref_at (w_root w) (q ++ s)))
            by (destruct (ref_at (w_root w) (q ++ s)); reflexivity) end.
        apply freeze_ref. exact Hw.
      + cbn [fold_left]. set (cp := fold_left _ (view w p cs1) copy) in *.
        unfold app_change, freeze_change. cbn [fst snd].
        destruct (prefix_dec (a :: s) r) as [(r' & ->)|Hnp].
        * assert (Hr : ref_at (w_root w) q = d).
          { apply Hlast. subst q. apply prefix_app_l. apply prefix_app. }
          destruct (tget (w_root w) q) as [x|] eqn:Ex.
          -- assert (Hd' : d = tref x) by (rewrite <- Hr; unfold ref_at; now rewrite Ex).
             (* the parent *)
             assert (Hne : a :: s <> []) by discriminate.
             destruct (exists_last Hne) as (s' & n & Hs').
             assert (Hpar : exists k, tsee (w_root w) (p ++ s') = Some (SObj k)).
             { rewrite Hq, Hs', app_assoc, tget_app in Ex. unfold tsee.
               destruct (tget (w_root w) (p ++ s')) as [[z|i k fs]|]; [discriminate| |discriminate].
               now exists k. }
             destruct Hpar as (k & Hk).
             assert (Hcp : vsee cp s' = Some (SObj k)).
             { rewrite IH; [exact Hk|]. intros c [<-|Hi] Hp; cbn [fst] in Hp.
               - rewrite Hq, prefix_app_l, Hs' in Hp. destruct Hp as (y & Hy).
                 apply (f_equal (@length _)) in Hy. rewrite !app_length in Hy. cbn [length] in Hy. lia.
               - apply (Hn c Hi). apply (prefix_trans _ (p ++ s')); [exact Hp|].
                 apply prefix_app_l. rewrite Hs', <- app_assoc. apply prefix_app. }
             match goal with |- context [vapply _ ?dd cp] =>
               replace dd with (Some (freeze w (ref_at (w_root w) q)))
                 by (rewrite Hr, Hd'; destruct x; reflexivity) end.
             rewrite Hs'. rewrite (vsee_apply_set s' n _ cp k r' Hcp).
             rewrite (freeze_ref w q Hw r'). rewrite Hq, Hs'. f_equal.
             now rewrite !app_assoc.
          -- assert (Hd' : d = RNone) by (rewrite <- Hr; unfold ref_at; now rewrite Ex).
             subst d. rewrite Hd'. rewrite vsee_apply_del by discriminate.
             unfold tsee. rewrite app_assoc, <- Hq, tget_app, Ex. reflexivity.
        * rewrite vsee_apply_other by exact Hnp. apply IH.
          intros c [<-|Hi]; [|now apply Hn]. cbn [fst]. now rewrite Hq, prefix_app_l.
      + cbn [fold_left]. apply IH. intros c [<-|Hi]; [|now apply Hn]. cbn [fst]. intros Hp.
        destruct (prefix_comparable q p (p ++ r) Hp (prefix_app p r)); contradiction. }
  intros r. apply (Hgen cs []); [now rewrite app_nil_r|]. intros c [].
Qed.
