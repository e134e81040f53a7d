From Coq Require Import String Bool ZArith Lia List Permutation.
From Verif Require Import Base Notify_Model Notify_Spec Notify_Proofs Notify2_Proofs Notify3_Proofs
  Notify4_Proofs.
Import ListNotations.
Local Open Scope list_scope.
Local Open Scope nat_scope.

(* ---------------- histories ---------------- *)
Definition keyed (L : list sub) : list (key * sub) := map (fun s => (s_key s, s)) L.

(* t0 is the block when the open group was opened *)
Record inv (st : nst) (L : list sub) (t0 : tree) : Prop := mkInv {
  i_wf : wf (n_w st);
  i_keys : n_keys st = keyed L;
  i_nodup : NoDup (map s_key L);
  i_tree : okt t0 L [] (n_tree st);
  i_tracks : tracks t0 (n_changes st) (w_root (n_w st));
  i_zero : n_count st = 0 -> t0 = w_root (n_w st) /\ n_changes st = [] }.

Definition live1 (o : op) (open : nat) (L : list sub) : list sub :=
  match o, open with
  | Subscribe s, O => L ++ [s]
  | Unsubscribe k, O => filter (fun s => negb (key_eqb k (s_key s))) L
  | _, _ => L
  end.
Definition distinct1 (o : op) (open : nat) (L : list sub) : Prop :=
  match o, open with Subscribe s, O => ~ In (s_key s) (map s_key L) | _, _ => True end.
Definition open1 (o : op) (open : nat) : nat :=
  match o with Enter => S open | Exit => pred open | _ => open end.

Lemma live_cons o r open L : live (o :: r) open L = live r (open1 o open) (live1 o open L).
Proof. destruct o, open; reflexivity. Qed.
Lemma distinct_cons o r open L :
  distinct (o :: r) open L <-> distinct1 o open L /\ distinct r (open1 o open) (live1 o open L).
Proof. destruct o, open; cbn [distinct distinct1 open1 live1]; tauto. Qed.
Lemma step_count st o : n_count (fst (step st o)) = open1 o (n_count st).
Proof.
  destruct o as [| |m|s|k]; cbn [step open1].
  - reflexivity.
  - destruct (n_count st) as [|[|c]] eqn:E; cbn [fst n_count pred]; [exact E| |reflexivity].
    destruct (notify _ _ _); reflexivity.
  - destruct (n_count st) as [|c] eqn:E.
    + destruct m; try exact E. destruct (mutate _ _) as [[w cs]|]; [reflexivity|exact E].
    + destruct (mutate _ _) as [[w cs]|]; [reflexivity|exact E].
  - destruct (n_count st) eqn:E; [|exact E]. destruct (subscribe_at _ _ _ _); reflexivity.
  - destruct (n_count st) eqn:E; [|exact E]. destruct (kget k (n_keys st)) as [s|]; [|exact E].
    destruct (unsubscribe_at _ _ _); reflexivity.
Qed.

Lemma kget_keyed k L : kget k (keyed L) = List.find (fun s => key_eqb k (s_key s)) L.
Proof.
  induction L as [|s r IH]; cbn [keyed map kget List.find]; [reflexivity|].
  destruct (key_eqb k (s_key s)); [reflexivity|exact IH].
Qed.
Lemma kpop_keyed k L : kpop k (keyed L) = keyed (filter (fun s => negb (key_eqb k (s_key s))) L).
Proof.
  induction L as [|s r IH]; cbn [keyed map kpop filter fst]; [reflexivity|].
  fold (keyed r) (kpop k (keyed r)). rewrite IH.
  destruct (key_eqb k (s_key s)); reflexivity.
Qed.
Lemma filter_all {A} (f : A -> bool) l : (forall x, In x l -> f x = true) -> filter f l = l.
Proof.
  induction l as [|x r IH]; intros H; cbn [filter]; [reflexivity|].
  rewrite H by now left. f_equal. apply IH. intros y Hy. apply H. now right.
Qed.
Lemma filter_notin k L : ~ In k (map s_key L) ->
  filter (fun s => negb (key_eqb k (s_key s))) L = L.
Proof.
  intros H. apply filter_all. intros s Hs. rewrite key_eqb_neq; [reflexivity|].
  intros ->. apply H. now apply in_map.
Qed.
Lemma NoDup_map_filter {A B} (f : A -> B) (g : A -> bool) l : NoDup (map f l) -> NoDup (map f (filter g l)).
Proof.
  induction l as [|x r IH]; cbn [map filter]; intros H; [constructor|].
  inversion H as [|u v Hu Hv]; subst. destruct (g x); [|auto]. cbn [map]. constructor; [|auto].
  intros Hi. apply Hu. apply in_map_iff in Hi as (y & Hy & Hi). apply filter_In in Hi as [Hi _].
  rewrite <- Hy. now apply in_map.
Qed.

Lemma find_sub k L : match List.find (fun s => key_eqb k (s_key s)) L with
                     | Some s => In s L /\ s_key s = k
                     | None => ~ In k (map s_key L)
                     end.
Proof.
  destruct (List.find _ L) as [s|] eqn:E.
  - apply find_some in E as [A B]. apply key_eqb_spec in B. auto.
  - intros Hi. apply in_map_iff in Hi as (s & Hs & Hi).
    apply (find_none _ _ E) in Hi. rewrite <- Hs, key_eqb_refl in Hi. discriminate.
Qed.

Lemma inv_init root limbo : unique root limbo -> inv (init root limbo) [] root.
Proof.
  intros Hu. constructor; cbn [init n_w n_keys n_tree n_changes n_count w_root w_limbo].
  - exact Hu.
  - reflexivity.
  - constructor.
  - apply okt_intro.
    + constructor; cbn [n_children n_data n_updates n_deltas dkeys map]; try constructor;
        try (intros []); try tauto.
    + discriminate.
    + intros s n q [].
  - apply tracks_nil.
  - auto.
Qed.

Lemma inv_step st L t0 o : inv st L t0 -> whole o -> distinct1 o (n_count st) L ->
  exists t1, inv (fst (step st o)) (live1 o (n_count st) L) t1 /\
    (match o with Exit => match n_count st with 1 => True | _ => t1 = t0 end | _ => t1 = t0 end).
Proof.
  intros [Hw Hk Hn Ht Htr Hz] Hwh Hd. destruct o as [| |m|s|k]; cbn [step].
  - (* Enter *)
    exists t0. split; [|reflexivity].
    constructor; cbn [fst n_w n_keys n_tree n_changes n_count live1]; auto. discriminate.
  - (* Exit *)
    destruct (n_count st) as [|[|c]] eqn:Ec; cbn [fst live1].
    + exists t0. split; [constructor; auto|reflexivity].
    + pose proof (notify_ok _ _ _ _ _ Htr Hw Ht) as Ho.
      destruct (notify (n_w st) (n_tree st) (n_changes st)) as [t outs]. cbn [fst] in *.
      exists (w_root (n_w st)). split; [|exact I].
      constructor; cbn [n_w n_keys n_tree n_changes n_count]; auto. apply tracks_nil.
    + exists t0. split; [|reflexivity].
      constructor; cbn [n_w n_keys n_tree n_changes n_count]; auto. discriminate.
  - (* Mut *)
    exists t0. split; [|reflexivity]. destruct (n_count st) as [|c] eqn:Ec; cbn [live1].
    + destruct m as [p n v|p n|p n v ks|ts]; try (cbn [fst]; constructor; now auto).
      cbn [mutate]. destruct (nodup_b _) eqn:En; cbn [fst]; [|constructor; now auto].
      constructor; cbn [n_w n_keys n_tree n_changes n_count w_root]; auto.
      unfold wf, unique. cbn [w_root w_limbo]. now apply nodup_b_spec.
    + destruct (mutate (n_w st) m) as [[w cs]|] eqn:Em; cbn [fst]; [|constructor; auto; rewrite Ec; discriminate].
      constructor; cbn [n_w n_keys n_tree n_changes n_count]; auto; try discriminate.
      * now apply (mutate_wf (n_w st) m w cs).
      * now apply (mutate_tracks _ _ (n_w st) m).
  - (* Subscribe *)
    exists t0. split; [|reflexivity]. destruct (n_count st) as [|c] eqn:Ec; cbn [live1 fst];
      [|constructor; auto; rewrite Ec; discriminate].
    destruct (Hz eq_refl) as [-> Hch]. cbn [distinct1] in Hd.
    assert (Hns : ~ In s L) by (intros Hi; apply Hd; now apply in_map).
    destruct (subscribe_at_ok (n_w st) L s (s_path s) (n_tree st) [] Hw eq_refl Hns Ht) as (Ho & _ & _).
    destruct (subscribe_at (n_w st) (n_tree st) s (s_path s)) as [t outs]. cbn [fst] in *.
    constructor; cbn [n_w n_keys n_tree n_changes n_count]; auto.
    + rewrite Hk, kpop_keyed, filter_notin by exact Hd. unfold keyed. rewrite map_app. reflexivity.
    + rewrite map_app. cbn [map]. apply NoDup_Add with (a := s_key s) (l := map s_key L).
      * rewrite <- (app_nil_r (map s_key L)) at 1. apply Add_app.
      * now split.
  - (* Unsubscribe *)
    exists t0. split; [|reflexivity]. destruct (n_count st) as [|c] eqn:Ec; cbn [live1 fst];
      [|constructor; auto; rewrite Ec; discriminate].
    rewrite Hk, kget_keyed. pose proof (find_sub k L) as Hf.
    destruct (List.find _ L) as [s|].
    + destruct Hf as [Hi <-].
      destruct (unsubscribe_at_ok t0 L s (s_path s) Hn Hi (n_tree st) [] eq_refl Ht) as (nd & Hu & Ho).
      rewrite Hu. cbn [fst]. constructor; cbn [n_w n_keys n_tree n_changes n_count]; auto.
      * apply kpop_keyed.
      * now apply NoDup_map_filter.
    + rewrite filter_notin by exact Hf. cbn [fst]. constructor; now auto.
Qed.

(* what one step sends to a key *)
Lemma subscribe_single w s p nd : exists msg, snd (subscribe_at w nd s p) = [(s_key s, msg)].
Proof.
  assert (H0 : forall p d, exists msg, snd (subscribe_new w d s p) = [(s_key s, msg)]).
  { clear p. induction p as [|n p IH]; intros d; cbn [subscribe_new].
    - destruct (s_delta s); eexists; reflexivity.
    - destruct (IH (geta w d n)) as (msg & He). destruct (subscribe_new _ _ _ _). cbn [snd] in *.
      eauto. }
  revert nd. induction p as [|n p IH]; intros [d us ds ch]; cbn [subscribe_at].
  - destruct (s_delta s); eexists; reflexivity.
  - destruct (dget n ch) as [c|].
    + destruct (IH c) as (msg & He). destruct (subscribe_at _ _ _ _). cbn [snd] in *. eauto.
    + destruct (H0 p (geta w d n)) as (msg & He). destruct (subscribe_new _ _ _ _).
      cbn [snd] in *. eauto.
Qed.

(* the operation is not a request, served now, with key k *)
Definition other (o : op) (open : nat) (k : key) : Prop :=
  match o, open with
  | Subscribe x, O => s_key x <> k
  | Unsubscribe k', O => k' <> k
  | _, _ => True
  end.

Lemma step_silent st L t0 o k : inv st L t0 -> ~ In k (map s_key L) -> other o (n_count st) k ->
  to_key k (snd (step st o)) = [].
Proof.
  intros [Hw Hk Hn Ht Htr Hz] Hnk Hs. destruct o as [| |m|s|k']; cbn [step other] in *.
  - reflexivity.
  - destruct (n_count st) as [|[|c]]; [reflexivity| |reflexivity].
    pose proof (notify_silent t0 (n_changes st) (n_w st) L (n_tree st) k Hw Ht Hnk) as H.
    destruct (notify _ _ _). exact H.
  - destruct (n_count st); [destruct m|]; try reflexivity; destruct (mutate _ _) as [[? ?]|]; reflexivity.
  - destruct (n_count st); [|reflexivity].
    destruct (subscribe_single (n_w st) s (s_path s) (n_tree st)) as (msg & He).
    destruct (subscribe_at _ _ _ _). cbn [snd] in *. subst l.
    unfold to_key. cbn [filter fst]. rewrite key_eqb_neq; [reflexivity|congruence].
  - destruct (n_count st); [|reflexivity].
    destruct (kget _ _); [destruct (unsubscribe_at _ _ _)|]; cbn [snd]; unfold to_key;
      cbn [filter fst]; rewrite key_eqb_neq by congruence; reflexivity.
Qed.

Lemma copy_of_app k a b : copy_of k (a ++ b) = fold_left replay (to_key k b) (copy_of k a).
Proof. unfold copy_of. rewrite to_key_app. apply fold_left_app. Qed.

(* what one step sends to a subscription, in terms of the block alone *)
Definition sends (st : nst) (o : op) (s : sub) (ms : list msg) : Prop :=
  match o, n_count st with
  | Exit, 1 =>
    exists d,
      ms = (if is_nil (s_path s) || negb (is_nil (view (n_w st) (s_path s) (n_changes st)))
            then [if s_delta s
                  then Delta (map (freeze_change (n_w st)) (view (n_w st) (s_path s) (n_changes st)))
                  else Update (freeze (n_w st) d)]
            else []) /\
      (clear (w_root (n_w st)) (s_path s) -> d = ref_at (w_root (n_w st)) (s_path s))
  | _, _ => ms = []
  end.
Lemma step_sends st L t0 o s : inv st L t0 -> In s L -> other o (n_count st) (s_key s) ->
  sends st o s (to_key (s_key s) (snd (step st o))).
Proof.
  intros [Hw Hk Hn Ht Htr Hz] Hs Ho. unfold sends.
  destruct o as [| |m|x|k]; cbn [step other] in *.
  - reflexivity.
  - destruct (n_count st) as [|[|c]]; [reflexivity| |reflexivity].
    destruct (notify_msgs t0 (n_changes st) (n_w st) L (n_tree st) s Htr Hw Ht Hn Hs) as (d & Hd & Hc).
    exists d. destruct (notify _ _ _). cbn [snd] in *. auto.
  - destruct (n_count st); [destruct m|]; try reflexivity; destruct (mutate _ _) as [[? ?]|]; reflexivity.
  - destruct (n_count st) eqn:Ec; [|reflexivity].
    destruct (subscribe_single (n_w st) x (s_path x) (n_tree st)) as (msg & He).
    destruct (subscribe_at _ _ _ _). cbn [snd] in *. subst l.
    unfold to_key. cbn [filter fst]. rewrite key_eqb_neq by congruence. reflexivity.
  - destruct (n_count st); [|reflexivity].
    destruct (kget _ _); [destruct (unsubscribe_at _ _ _)|]; cbn [snd]; unfold to_key;
      cbn [filter fst]; rewrite key_eqb_neq by congruence; reflexivity.
Qed.

(* copies of delta subscribers *)
Definition copies (L : list sub) (t0 : tree) (outs : list out) : Prop :=
  forall s, In s L -> s_delta s = true -> clear t0 (s_path s) ->
            is_value (copy_of (s_key s) outs) t0 (s_path s).

Lemma copies_step st L t0 o outs t1 : inv st L t0 -> whole o -> distinct1 o (n_count st) L ->
  copies L t0 outs -> inv (fst (step st o)) (live1 o (n_count st) L) t1 ->
  (match o with Exit => match n_count st with 1 => True | _ => t1 = t0 end | _ => t1 = t0 end) ->
  copies (live1 o (n_count st) L) t1 (outs ++ snd (step st o)).
Proof.
  intros Hi Hwh Hd Hc Hi1 Ht1 s Hs Hds Hcl. rewrite copy_of_app.
  (* old subscription of a key not touched by the operation *)
  assert (Hold : In s L ->
    other o (n_count st) (s_key s) ->
    is_value (fold_left replay (to_key (s_key s) (snd (step st o))) (copy_of (s_key s) outs)) t1 (s_path s)).
  { intros HsL Ho. pose proof (step_sends st L t0 o s Hi HsL Ho) as Hse. unfold sends in Hse.
    assert (Hquiet : to_key (s_key s) (snd (step st o)) = [] -> t1 = t0 ->
      is_value (fold_left replay (to_key (s_key s) (snd (step st o))) (copy_of (s_key s) outs)) t1 (s_path s)).
    { intros Hq ->. rewrite Hq. cbn [fold_left]. now apply Hc. }
    destruct o as [| |m|x|k]; try (apply Hquiet; assumption).
    destruct (n_count st) as [|[|c]] eqn:Ec; try (apply Hquiet; assumption).
    destruct Hse as (d & Hse & Hd').
    assert (Htr1 : t1 = w_root (n_w st)).
    { pose proof (i_zero _ _ _ Hi1) as H. rewrite step_count in H. cbn [open1] in H. rewrite Ec in H.
      specialize (H eq_refl). destruct H as [-> _]. cbn [step]. rewrite Ec.
      destruct (notify _ _ _); reflexivity. }
    subst t1. rewrite Hse, Hds.
    pose proof (replay_ok t0 (n_changes st) (n_w st) (s_path s) (copy_of (s_key s) outs)
                  (i_tracks _ _ _ Hi) (i_wf _ _ _ Hi) Hcl (Hc s HsL Hds)) as Hr.
    destruct (is_nil (s_path s) || negb (is_nil (view (n_w st) (s_path s) (n_changes st)))) eqn:Ev.
    - cbn [fold_left]. rewrite replay_fold. exact Hr.
    - apply orb_false_iff in Ev as [_ Ev]. cbn [fold_left].
      destruct (view (n_w st) (s_path s) (n_changes st)); [exact Hr|discriminate]. }
  destruct o as [| |m|x|k]; cbn [live1] in *; try (apply Hold; [exact Hs|exact I]).
  - destruct (n_count st) as [|c] eqn:Ec; cbn [live1 distinct1 other] in *;
      [|apply Hold; [exact Hs|exact I]].
    apply in_app_or in Hs as [Hs|[<-|[]]].
    + apply Hold; [exact Hs|]. intros He. apply Hd. rewrite He. now apply in_map.
    + (* the new one *)
      destruct (i_zero _ _ _ Hi Ec) as [H0 _]. subst t1 t0.
      assert (Hns : ~ In x L) by (intros Hx; apply Hd; now apply in_map).
      destruct (subscribe_at_ok (n_w st) L x (s_path x) (n_tree st) [] (i_wf _ _ _ Hi) eq_refl Hns
                  (i_tree _ _ _ Hi)) as (_ & _ & r & Hr & Hcr).
      cbn [step]. rewrite Ec. destruct (subscribe_at _ _ _ _). cbn [snd] in *. subst l.
      rewrite Hds in *. rewrite Hcr by exact Hcl. unfold to_key. cbn [filter fst]. rewrite key_eqb_refl.
      cbn [map snd fold_left replay fst vapply].
      apply freeze_ref. apply (i_wf _ _ _ Hi).
  - destruct (n_count st) as [|c] eqn:Ec; cbn [live1 other] in *; [|apply Hold; [exact Hs|exact I]].
    apply filter_In in Hs as [Hs Hk]. apply Hold; [exact Hs|]. intros ->.
    rewrite key_eqb_refl in Hk. discriminate.
Qed.

Lemma run_cons st o r : run st (o :: r) =
  (fst (run (fst (step st o)) r), snd (step st o) ++ snd (run (fst (step st o)) r)).
Proof. cbn [run]. destruct (step st o) as [s1 o1]. cbn [fst snd]. destruct (run s1 r). reflexivity. Qed.
Lemma run_app st a b : run st (a ++ b) =
  (fst (run (fst (run st a)) b), snd (run st a) ++ snd (run (fst (run st a)) b)).
Proof.
  revert st. induction a as [|o a IH]; intros st; cbn [app].
  - cbn [run fst snd app]. destruct (run st b); reflexivity.
  - rewrite !run_cons, IH. cbn [fst snd]. now rewrite app_assoc.
Qed.

Lemma history os : forall st L t0 outs, inv st L t0 -> copies L t0 outs ->
  Forall whole os -> distinct os (n_count st) L ->
  exists t1, inv (fst (run st os)) (live os (n_count st) L) t1 /\ copies (live os (n_count st) L) t1 (outs ++ snd (run st os)).
Proof.
  induction os as [|o r IH]; intros st L t0 outs Hi Hc Hw Hd.
  - exists t0. cbn [run fst snd live]. rewrite app_nil_r. auto.
  - inversion Hw as [|x y Hw1 Hw2]; subst. apply distinct_cons in Hd as [Hd1 Hd2].
    destruct (inv_step st L t0 o Hi Hw1 Hd1) as (t1 & Hi1 & Ht1).
    pose proof (copies_step st L t0 o outs t1 Hi Hw1 Hd1 Hc Hi1 Ht1) as Hc1.
    rewrite run_cons, live_cons. cbn [fst snd]. rewrite app_assoc. rewrite <- step_count in *.
    now apply (IH _ _ t1).
Qed.

Theorem reach root limbo os : unique root limbo -> Forall whole os -> distinct os 0 [] ->
  exists t0, inv (fst (run (init root limbo) os)) (live os 0 []) t0 /\ copies (live os 0 []) t0 (snd (run (init root limbo) os)).
Proof.
  intros Hu Hw Hd. apply (history os (init root limbo) [] root []); auto.
  - now apply inv_init.
  - intros s [].
Qed.

(* ---------------- groups ---------------- *)
Lemma step_open st o c : n_count st = S c -> (o = Exit -> c <> 0) -> snd (step st o) = [].
Proof.
  intros Hc He. destruct o as [| |m|s|k]; cbn [step]; rewrite ?Hc; try reflexivity.
  - destruct c; [destruct (He eq_refl eq_refl)|reflexivity].
  - destruct (mutate _ _) as [[? ?]|]; reflexivity.
Qed.
Lemma quiet body : forall st c, n_count st = S c -> inside body (S c) ->
  snd (run st body) = [] /\ n_count (fst (run st body)) = 1 /\
  (forall L, live body (S c) L = L) /\ (forall L, distinct body (S c) L).
Proof.
  induction body as [|o r IH]; intros st c Hc Hin.
  - cbn [inside] in Hin. cbn [run fst snd live distinct]. repeat split; congruence.
  - assert (Hd : exists d, open1 o (S c) = S d /\ inside r (S d) /\ (o = Exit -> c <> 0)).
    { destruct o; cbn [inside open1 pred] in *; try (eexists; repeat split; [exact Hin|discriminate]).
      destruct c; [destruct Hin|]. eexists; repeat split; [exact Hin|discriminate]. }
    destruct Hd as (d & Hd & Hin' & Hex).
    assert (Hc' : n_count (fst (step st o)) = S d) by (rewrite step_count, Hc; exact Hd).
    destruct (IH _ _ Hc' Hin') as (I1 & I2 & I3 & I4).
    rewrite run_cons. cbn [fst snd]. rewrite I1, (step_open st o c Hc Hex).
    split; [reflexivity|]. split; [exact I2|]. split; intros L.
    + rewrite live_cons, Hd. destruct o; cbn [live1]; apply I3.
    + apply distinct_cons. rewrite Hd. destruct o; cbn [distinct1 live1]; auto.
Qed.

Lemma changed_ok body : forall st c, n_count st = S c -> inside body (S c) -> Forall whole body ->
  map fst (n_changes (fst (run st body))) = changed st body (map fst (n_changes st)).
Proof.
  induction body as [|o r IH]; intros st c Hc Hin Hw; [reflexivity|].
  inversion Hw as [|x y Hw1 Hw2]; subst.
  assert (Hd : exists d, open1 o (S c) = S d /\ inside r (S d) /\ (o = Exit -> c <> 0)).
  { destruct o; cbn [inside open1 pred] in *; try (eexists; repeat split; [exact Hin|discriminate]).
    destruct c; [destruct Hin|]. eexists; repeat split; [exact Hin|discriminate]. }
  destruct Hd as (d & Hd & Hin' & Hex).
  assert (Hc' : n_count (fst (step st o)) = S d) by (rewrite step_count, Hc; exact Hd).
  rewrite run_cons. cbn [fst changed]. rewrite (IH _ _ Hc' Hin' Hw2). f_equal.
  rewrite Hc. destruct o as [| |m|s|k]; cbn [step]; rewrite ?Hc; try reflexivity.
  - destruct c; [destruct (Hex eq_refl eq_refl)|reflexivity].
  - destruct (mutate (n_w st) m) as [[w cs]|] eqn:Em; cbn [fst n_changes]; [|reflexivity].
    rewrite map_app. destruct m as [p n v|p n|p n v ks|ts]; cbn [mutate place] in *.
    + destruct (is_model _); [|discriminate]. destruct (new_tree _ _) as [[t l]|]; [|discriminate].
      injection Em as <- <-. reflexivity.
    + destruct (is_model _); [|discriminate]. destruct (tget _ (p ++ [n])); [|discriminate].
      injection Em as <- <-. reflexivity.
    + destruct Hw1.
    + destruct (nodup_b _); [|discriminate]. injection Em as <- <-. apply app_nil_r.
Qed.

Lemma residual_view w p cs : map fst (view w p cs) = flat_map (residual p) (map fst cs).
Proof.
  induction cs as [|[q r] cs IH]; [now rewrite view_nil|].
  change ((q, r) :: cs) with ([(q, r)] ++ cs). rewrite view_app, map_app, IH. cbn [map fst flat_map app].
  f_equal. clear. revert q r. induction p as [|a p IH]; intros q r; [reflexivity|].
  destruct q as [|b q]; cbn [view view1 flat_map fst snd residual app].
  - clear IH. generalize (geta w r a). induction p as [|c p IH]; intros x; [reflexivity|].
    cbn [view view1 flat_map fst snd app]. apply IH.
  - rewrite String.eqb_sym. destruct (String.eqb a b); cbn [app]; [apply IH|]. now rewrite view_nil.
Qed.

(* the state when a group of changes is about to close *)
Lemma group_inv root limbo os body : unique root limbo -> Forall whole (os ++ Enter :: body) ->
  distinct os 0 [] -> n_count (fst (run (init root limbo) os)) = 0 -> inside body 1 ->
  let st0 := fst (run (init root limbo) os) in
  let st1 := fst (run st0 (Enter :: body)) in
  exists t0, inv st1 (live os 0 []) t0 /\ n_count st1 = 1 /\
    map fst (n_changes st1) = changed st0 (Enter :: body) [] /\
    snd (run st0 (Enter :: body)) = [] /\
    run st0 (Enter :: body ++ [Exit]) = step st1 Exit.
Proof.
  intros Hu Hw Hd H0 Hin st0 st1. apply Forall_app in Hw as [Hw1 Hw2].
  inversion Hw2 as [|x y _ Hwb]; subst x y.
  destruct (reach root limbo os Hu Hw1 Hd) as (t & Hi & Hc). fold st0 in Hi, H0.
  set (sE := fst (step st0 Enter)).
  assert (HcE : n_count sE = 1) by (unfold sE; cbn [step fst n_count]; now rewrite H0).
  assert (Hz : n_changes sE = []) by (unfold sE; cbn [step fst n_changes]; now apply (i_zero _ _ _ Hi)).
  destruct (inv_step st0 _ t Enter Hi I I) as (tE & HiE & ->). fold sE in HiE. cbn [live1] in HiE.
  destruct (quiet body sE 0 HcE Hin) as (Q1 & Q2 & Q3 & Q4).
  assert (HE : st1 = fst (run sE body)) by (unfold st1; rewrite run_cons; reflexivity).
  assert (Hcp : copies (live os 0 []) t (snd (run (init root limbo) os))) by exact Hc.
  destruct (history body sE (live os 0 []) t _ HiE Hcp Hwb) as (t1 & Hi1 & _).
  { rewrite HcE. apply Q4. }
  rewrite HcE, Q3, <- HE in Hi1.
  exists t1. split; [exact Hi1|]. split; [now rewrite HE|]. split; [|split].
  - rewrite HE, (changed_ok body sE 0 HcE Hin Hwb), Hz. cbn [map changed]. rewrite H0. reflexivity.
  - rewrite run_cons. cbn [step fst snd app]. exact Q1.
  - change (Enter :: body ++ [Exit]) with ((Enter :: body) ++ [Exit]). rewrite run_app. fold st1.
    assert (Hq : snd (run st0 (Enter :: body)) = []) by (rewrite run_cons; exact Q1).
    rewrite Hq, run_cons. cbn [run fst snd app]. rewrite app_nil_r. now destruct (step st1 Exit).
Qed.

Lemma is_nil_spec {A} (l : list A) : is_nil l = true <-> l = [].
Proof. destruct l; cbn; split; congruence. Qed.

(* who is called, as in the specification *)
Lemma called_spec w p cs :
  is_nil p || negb (is_nil (view w p cs)) = true <->
  p = [] \/ exists q, In q (map fst cs) /\ related q p.
Proof.
  rewrite orb_true_iff, is_nil_spec, negb_true_iff. apply or_iff_compat_l. split.
  - intros H. destruct (view w p cs) as [|c v] eqn:E; [discriminate|].
    assert (Hn : ~ (forall c, In c cs -> ~ related (fst c) p)).
    { intros Hall. apply (view_empty w p cs) in Hall. congruence. }
    clear - Hn. induction cs as [|[q r] cs IH]; [exfalso; apply Hn; intros c []|].
    destruct (prefix_dec q p) as [H|H]; [exists q; split; [now left|now left]|].
    destruct (prefix_dec p q) as [H'|H']; [exists q; split; [now left|now right]|].
    destruct IH as (x & Hx & Hr); [|exists x; split; [now right|exact Hr]].
    intros Hall. apply Hn. intros c [<-|Hc]; [intros [A|A]; auto|now apply Hall].
  - intros (q & Hq & Hr). destruct (view w p cs) as [|c v] eqn:E; [|reflexivity].
    apply in_map_iff in Hq as (c & <- & Hc). exfalso.
    exact (proj1 (view_empty w p cs) E c Hc Hr).
Qed.

(* ---------------- what a key is sent depends only on its own subscriptions ---------------- *)
Lemma live1_incl o open L1 L2 : incl L2 L1 -> incl (live1 o open L2) (live1 o open L1).
Proof.
  intros H. destruct o as [| |m|s|k], open; cbn [live1]; auto.
  - intros x Hx. apply in_app_or in Hx as [Hx|Hx]; apply in_or_app; auto.
  - intros x Hx. apply filter_In in Hx as [A B]. apply filter_In. auto.
Qed.
Lemma distinct_incl os : forall open L1 L2, distinct os open L1 -> incl L2 L1 -> distinct os open L2.
Proof.
  induction os as [|o r IH]; intros open L1 L2 Hd Hi; [exact I|].
  apply distinct_cons in Hd as [Hd1 Hd2]. apply distinct_cons. split.
  - destruct o, open; cbn [distinct1] in *; auto. intros Hx. apply Hd1.
    apply in_map_iff in Hx as (y & <- & Hy). apply in_map. auto.
  - apply (IH _ (live1 o open L1)); [exact Hd2|]. now apply live1_incl.
Qed.
Lemma live_incl_k os k : forall open L1 L2,
  (forall s, s_key s = k -> In s L2 -> In s L1) ->
  forall s, s_key s = k -> In s (live os open L2) -> In s (live os open L1).
Proof.
  induction os as [|o r IH]; intros open L1 L2 H s Hk Hs; [now apply H|].
  rewrite live_cons in *. apply (IH _ _ (live1 o open L2)); auto.
  intros x Hx Hi. destruct o as [| |m|y|k'], open; cbn [live1] in *; auto.
  - apply in_app_or in Hi as [Hi|Hi]; apply in_or_app; auto.
  - apply filter_In in Hi as [A B]. apply filter_In. auto.
Qed.

Record alike (st1 st2 : nst) (L1 L2 : list sub) (k : key) : Prop := mkAlike {
  a_w : n_w st1 = n_w st2; a_c : n_count st1 = n_count st2; a_ch : n_changes st1 = n_changes st2;
  a_L : forall s, s_key s = k -> (In s L1 <-> In s L2) }.

Lemma step_frame st o : n_w (fst (step st o)) =
  match o with
  | Mut m => match n_count st, m with
             | 0, MLimbo _ | S _, _ => match mutate (n_w st) m with Some (w, _) => w | None => n_w st end
             | _, _ => n_w st
             end
  | _ => n_w st
  end /\
  n_changes (fst (step st o)) =
  match o with
  | Mut m => match n_count st with
             | 0 => n_changes st
             | S _ => match mutate (n_w st) m with Some (_, cs) => n_changes st ++ cs | None => n_changes st end
             end
  | Exit => match n_count st with 1 => [] | _ => n_changes st end
  | _ => n_changes st
  end.
Proof.
  destruct o as [| |m|s|k]; cbn [step].
  - auto.
  - destruct (n_count st) as [|[|c]]; auto. destruct (notify _ _ _); auto.
  - destruct (n_count st) as [|c].
    + destruct m; auto. destruct (mutate _ _) as [[? ?]|]; auto.
    + destruct (mutate _ _) as [[? ?]|]; auto.
  - destruct (n_count st); auto. destruct (subscribe_at _ _ _ _); auto.
  - destruct (n_count st); auto. destruct (kget _ _); auto. destruct (unsubscribe_at _ _ _); auto.
Qed.

Lemma alike_step st1 st2 L1 L2 t1 t2 k o :
  alike st1 st2 L1 L2 k -> inv st1 L1 t1 -> inv st2 L2 t2 ->
  distinct1 o (n_count st1) L1 -> distinct1 o (n_count st2) L2 ->
  (forall s, s_key s = k -> In s L1 -> clear (w_root (n_w st1)) (s_path s)) ->
  (forall s, s_key s = k -> In s (live1 o (n_count st1) L1) ->
             clear (w_root (n_w (fst (step st1 o)))) (s_path s)) ->
  alike (fst (step st1 o)) (fst (step st2 o)) (live1 o (n_count st1) L1) (live1 o (n_count st2) L2) k /\
  to_key k (snd (step st1 o)) = to_key k (snd (step st2 o)).
Proof.
  intros [Aw Ac Ach AL] Hi1 Hi2 Hd1 Hd2 Hcl0 Hcl. split.
  { constructor.
    - rewrite !(proj1 (step_frame _ _)), Aw, Ac. reflexivity.
    - rewrite !step_count, Ac. reflexivity.
    - rewrite !(proj2 (step_frame _ _)), Aw, Ac, Ach. reflexivity.
    - intros s Hs. rewrite <- Ac. destruct o as [| |m|y|k'], (n_count st1); cbn [live1]; auto.
      + rewrite !in_app_iff, (AL s Hs). reflexivity.
      + rewrite !filter_In, (AL s Hs). reflexivity. }
  assert (Hdec : other o (n_count st1) k \/ ~ other o (n_count st1) k).
  { destruct o as [| |m|y|k'], (n_count st1); cbn [other]; try (left; exact I).
    - destruct (key_eqb (s_key y) k) eqn:E; [right|left]; intros H.
      + apply H. now apply key_eqb_spec.
      + rewrite H, key_eqb_refl in E. discriminate.
    - destruct (key_eqb k' k) eqn:E; [right|left]; intros H.
      + apply H. now apply key_eqb_spec.
      + rewrite H, key_eqb_refl in E. discriminate. }
  destruct Hdec as [Ho|Ho].
  - pose proof (find_sub k L1) as Hf. destruct (List.find _ L1) as [s|].
    + destruct Hf as [Hs Hk]. assert (Hs2 : In s L2) by now apply (AL s Hk).
      subst k. pose proof (step_sends st1 L1 t1 o s Hi1 Hs Ho) as S1.
      rewrite Ac in Ho. pose proof (step_sends st2 L2 t2 o s Hi2 Hs2 Ho) as S2.
      unfold sends in *. rewrite <- Ac in S2.
      destruct o as [| |m|y|k']; try congruence. destruct (n_count st1) as [|[|c]]; try congruence.
      destruct S1 as (d1 & -> & E1), S2 as (d2 & -> & E2).
      rewrite <- Aw, <- Ach. rewrite <- Aw in E2. pose proof (Hcl0 s eq_refl Hs) as Hc.
      now rewrite (E1 Hc), (E2 Hc).
    + assert (Hf2 : ~ In k (map s_key L2)).
      { intros Hi. apply in_map_iff in Hi as (s & Hk & Hs). apply Hf.
        apply (AL s Hk) in Hs. rewrite <- Hk. now apply in_map. }
      rewrite (step_silent _ _ _ _ _ Hi1 Hf Ho). rewrite Ac in Ho.
      now rewrite (step_silent _ _ _ _ _ Hi2 Hf2 Ho).
  - destruct o as [| |m|y|k']; try (exfalso; apply Ho; exact I).
    + (* Subscribe of k *)
      destruct (n_count st1) eqn:Ec; [|exfalso; apply Ho; exact I]. symmetry in Ac.
      cbn [other distinct1 live1] in *. rewrite Ac in Hd2.
      assert (Hk : s_key y = k).
      { destruct (key_eqb (s_key y) k) eqn:E; [now apply key_eqb_spec|].
        exfalso. apply Ho. intros H. rewrite H, key_eqb_refl in E. discriminate. }
      destruct (i_zero _ _ _ Hi1 Ec) as [-> _], (i_zero _ _ _ Hi2 Ac) as [-> _].
      assert (N1 : ~ In y L1) by (intros H; apply Hd1; now apply in_map).
      assert (N2 : ~ In y L2) by (intros H; apply Hd2; now apply in_map).
      destruct (subscribe_at_ok (n_w st1) L1 y (s_path y) (n_tree st1) [] (i_wf _ _ _ Hi1) eq_refl N1
                  (i_tree _ _ _ Hi1)) as (_ & _ & r1 & E1 & C1).
      destruct (subscribe_at_ok (n_w st2) L2 y (s_path y) (n_tree st2) [] (i_wf _ _ _ Hi2) eq_refl N2
                  (i_tree _ _ _ Hi2)) as (_ & _ & r2 & E2 & C2).
      assert (Hc : clear (w_root (n_w st1)) (s_path y)).
      { specialize (Hcl y Hk). rewrite (proj1 (step_frame _ _)) in Hcl. apply Hcl.
        apply in_or_app. right. now left. }
      cbn [app] in *. rewrite <- Aw in *. rewrite (C1 Hc) in E1. rewrite (C2 Hc) in E2.
      cbn [step]. rewrite Ec, Ac, <- Aw. destruct (subscribe_at (n_w st1) (n_tree st1) _ _),
        (subscribe_at (n_w st1) (n_tree st2) _ _). cbn [snd] in *. now rewrite E1, E2.
    + destruct (n_count st1) eqn:Ec; [|exfalso; apply Ho; exact I]. symmetry in Ac. cbn [other] in Ho.
      assert (Hk : k' = k).
      { destruct (key_eqb k' k) eqn:E; [now apply key_eqb_spec|].
        exfalso. apply Ho. intros H. rewrite H, key_eqb_refl in E. discriminate. }
      subst k'. cbn [step]. rewrite Ec, Ac, (i_keys _ _ _ Hi1), (i_keys _ _ _ Hi2), !kget_keyed.
      pose proof (find_sub k L1) as F1. pose proof (find_sub k L2) as F2.
      destruct (List.find _ L1) as [s1|], (List.find _ L2) as [s2|].
      * destruct F1 as [F1 K1], F2 as [F2 K2].
        destruct (unsubscribe_at_ok t1 L1 s1 (s_path s1) (i_nodup _ _ _ Hi1) F1 (n_tree st1) [] eq_refl
                    (i_tree _ _ _ Hi1)) as (x1 & X1 & _).
        destruct (unsubscribe_at_ok t2 L2 s2 (s_path s2) (i_nodup _ _ _ Hi2) F2 (n_tree st2) [] eq_refl
                    (i_tree _ _ _ Hi2)) as (x2 & X2 & _).
        rewrite X1, X2. reflexivity.
      * destruct F1 as [F1 K1]. exfalso. apply F2. rewrite <- K1. apply in_map. now apply (AL s1 K1).
      * destruct F2 as [F2 K2]. exfalso. apply F1. rewrite <- K2. apply in_map. now apply (AL s2 K2).
      * reflexivity.
Qed.

Lemma alike_run os k : forall st1 st2 L1 L2 t1 t2,
  alike st1 st2 L1 L2 k -> inv st1 L1 t1 -> inv st2 L2 t2 -> Forall whole os ->
  distinct os (n_count st1) L1 -> distinct os (n_count st2) L2 ->
  clear_along st1 os L1 k ->
  to_key k (snd (run st1 os)) = to_key k (snd (run st2 os)).
Proof.
  induction os as [|o r IH]; intros st1 st2 L1 L2 t1 t2 Ha Hi1 Hi2 Hw Hd1 Hd2 Hcl; [reflexivity|].
  inversion Hw as [|x y Hw1 Hw2]; subst.
  apply distinct_cons in Hd1 as [D1 D1'], Hd2 as [D2 D2'].
  destruct (alike_step _ _ _ _ _ _ k o Ha Hi1 Hi2 D1 D2) as [Ha' Hs].
  { intros s Hk Hs. apply (Hcl [] (o :: r) s eq_refl Hs Hk). }
  { intros s Hk Hs. specialize (Hcl [o] r s eq_refl). rewrite live_cons in Hcl. cbn [live] in Hcl.
    rewrite run_cons in Hcl. cbn [run fst] in Hcl. now apply Hcl. }
  destruct (inv_step _ _ _ o Hi1 Hw1 D1) as (u1 & J1 & _).
  destruct (inv_step _ _ _ o Hi2 Hw1 D2) as (u2 & J2 & _).
  rewrite !run_cons. cbn [snd]. rewrite !to_key_app, Hs. f_equal.
  rewrite <- step_count in D1', D2'.
  apply (IH _ _ _ _ _ _ Ha' J1 J2 Hw2 D1' D2').
  intros a b s He Hin Hk. specialize (Hcl (o :: a) b s). rewrite run_cons, live_cons in Hcl.
  cbn [fst] in Hcl. rewrite <- step_count in Hcl. apply Hcl; [now rewrite He|exact Hin|exact Hk].
Qed.
