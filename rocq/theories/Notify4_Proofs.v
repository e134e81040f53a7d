From Coq Require Import String Bool ZArith Lia List Permutation.
From Verif Require Import Base Notify_Model Notify_Spec Notify_Proofs Notify2_Proofs Notify3_Proofs.
Import ListNotations.
Local Open Scope list_scope.
Local Open Scope nat_scope.

(* ---------------- the subscription tree holds the live subscriptions ---------------- *)

(* one node, at path p from the block *)
Record good (t : tree) (L : list sub) (p : path) (m : nnode) : Prop := mkGood {
  g_nodup : NoDup (dkeys (n_children m));
  g_data : clear t p -> n_data m = ref_at t p;
  g_us : forall s, In s (n_updates m) <-> In s L /\ s_path s = p /\ s_delta s = false;
  g_ds : forall s, In s (n_deltas m) <-> In s L /\ s_path s = p /\ s_delta s = true;
  g_nus : NoDup (n_updates m);
  g_nds : NoDup (n_deltas m) }.

(* the tree below nd, which is at path base *)
Record okt (t : tree) (L : list sub) (base : path) (nd : nnode) : Prop := mkOk {
  o_good : forall q m, nget nd q = Some m -> good t L (base ++ q) m;
  o_has : forall s q, In s L -> s_path s = base ++ q -> nget nd q <> None;
  o_full : forall n q m, nget nd (n :: q) = Some m -> node_empty m = false }.

Lemma okt_child t L base d us ds ch n c :
  okt t L base (NN d us ds ch) -> dget n ch = Some c ->
  okt t L (base ++ [n]) c /\ (forall q m, nget c q = Some m -> node_empty m = false).
Proof.
  intros [H1 H2 H3] Hc.
  assert (Hg : forall q, nget (NN d us ds ch) (n :: q) = nget c q)
    by (intros q; cbn [nget n_children]; now rewrite Hc).
  split.
  - constructor.
    + intros q m Hq. rewrite <- app_assoc. apply H1. cbn [app]. now rewrite Hg.
    + intros s q Hs Hp. rewrite <- app_assoc in Hp. specialize (H2 s (n :: q) Hs Hp).
      now rewrite Hg in H2.
    + intros a q m Hq. apply (H3 n (a :: q)). now rewrite Hg.
  - intros q m Hq. apply (H3 n q). now rewrite Hg.
Qed.

Lemma okt_intro t L base d us ds ch :
  good t L base (NN d us ds ch) ->
  (forall n c, dget n ch = Some c ->
     okt t L (base ++ [n]) c /\ (forall q m, nget c q = Some m -> node_empty m = false)) ->
  (forall s n q, In s L -> s_path s = base ++ n :: q -> dget n ch <> None) ->
  okt t L base (NN d us ds ch).
Proof.
  intros Hg Hc Hh. constructor.
  - intros [|n q] m Hq; cbn [nget n_children] in Hq.
    + injection Hq as <-. now rewrite app_nil_r.
    + destruct (dget n ch) as [c|] eqn:Ec; [|discriminate].
      destruct (Hc n c Ec) as [Ho _]. apply (o_good _ _ _ _ Ho) in Hq.
      now rewrite <- app_assoc in Hq.
  - intros s [|n q] Hs Hp; [discriminate|]. cbn [nget n_children].
    destruct (dget n ch) as [c|] eqn:Ec; [|now apply (Hh s n q Hs Hp) in Ec].
    destruct (Hc n c Ec) as [Ho _]. apply (o_has _ _ _ _ Ho s q Hs).
    now rewrite <- app_assoc.
  - intros n q m Hq. cbn [nget n_children] in Hq.
    destruct (dget n ch) as [c|] eqn:Ec; [|discriminate].
    destruct (Hc n c Ec) as [_ Hf]. eauto.
Qed.

Lemma okt_nwf t L base nd : okt t L base nd -> nwf nd.
Proof. intros H p m Hp. apply (g_nodup _ _ _ _ (o_good _ _ _ _ H p m Hp)). Qed.

(* another subscription elsewhere changes nothing *)
Lemma good_other t L s p m : good t L p m -> s_path s <> p -> good t (L ++ [s]) p m.
Proof.
  intros [H1 H2 H3 H4 H5 H6] Hne. constructor; auto.
  - intros x. rewrite H3, in_app_iff. cbn [In]. split.
    + intros (A & B & C); auto.
    + intros ([A|[A|[]]] & B & C); [auto|congruence].
  - intros x. rewrite H4, in_app_iff. cbn [In]. split.
    + intros (A & B & C); auto.
    + intros ([A|[A|[]]] & B & C); [auto|congruence].
Qed.
Lemma okt_other t L s base nd : okt t L base nd -> ~ prefix base (s_path s) ->
  okt t (L ++ [s]) base nd.
Proof.
  intros [H1 H2 H3] Hne. constructor; auto.
  - intros q m Hq. apply good_other; [now apply H1|]. intros He. apply Hne. rewrite He.
    apply prefix_app.
  - intros x q Hx Hp. apply in_app_or in Hx as [Hx|[<-|[]]]; [eauto|].
    exfalso. apply Hne. rewrite Hp. apply prefix_app.
Qed.

Lemma clear_app_l t p q : clear t (p ++ q) -> clear t p.
Proof. apply clear_prefix. Qed.

Lemma good_snoc t L s p d us ds ch : good t L p (NN d us ds ch) -> ~ In s L -> s_path s = p ->
  good t (L ++ [s]) p (if s_delta s then NN d us (ds ++ [s]) ch else NN d (us ++ [s]) ds ch).
Proof.
  intros [H1 H2 H3 H4 H5 H6] Hn Hp. cbn [n_children n_data n_updates n_deltas] in *.
  assert (Hnd : forall l, NoDup l -> (forall x, In x l -> In x L) -> NoDup (l ++ [s])).
  { intros l Hl Hi. apply NoDup_Add with (a := s) (l := l).
    - rewrite <- (app_nil_r l) at 1. apply Add_app.
    - split; [exact Hl|]. intros Hx. apply Hn. auto. }
  destruct (s_delta s) eqn:Ed; constructor; cbn [n_children n_data n_updates n_deltas]; auto.
  - intros x. rewrite H3, in_app_iff. cbn [In]. split; [intros (A & B & C); auto|].
    intros ([A|[A|[]]] & B & C); [auto|]. subst x. congruence.
  - intros x. rewrite !in_app_iff, H4. cbn [In]. split.
    + intros [(A & B & C)|[A|[]]]; [auto|]. subst x. auto.
    + intros ([A|[A|[]]] & B & C); auto.
  - apply Hnd; [exact H6|]. intros x Hx. now apply H4 in Hx.
  - intros x. rewrite !in_app_iff, H3. cbn [In]. split.
    + intros [(A & B & C)|[A|[]]]; [auto|]. subst x. auto.
    + intros ([A|[A|[]]] & B & C); auto.
  - intros x. rewrite H4, in_app_iff. cbn [In]. split; [intros (A & B & C); auto|].
    intros ([A|[A|[]]] & B & C); [auto|]. subst x. congruence.
  - apply Hnd; [exact H5|]. intros x Hx. now apply H3 in Hx.
Qed.

(* a new branch *)
Lemma subscribe_new_ok w L s p : forall d base, wf w -> s_path s = base ++ p -> ~ In s L ->
  (forall x, In x L -> ~ prefix base (s_path x)) ->
  (clear (w_root w) base -> d = ref_at (w_root w) base) ->
  okt (w_root w) (L ++ [s]) base (fst (subscribe_new w d s p)) /\
  (forall q m, nget (fst (subscribe_new w d s p)) q = Some m -> node_empty m = false) /\
  snd (subscribe_new w d s p)
  = [(s_key s, let r := getas w d p in
               if s_delta s then Delta [([], Some (freeze w r))] else Update (freeze w r))].
Proof.
  induction p as [|n p IH]; intros d base Hw Hp Hn Hno Hd.
  - rewrite app_nil_r in Hp. cbn [subscribe_new].
    assert (Hg0 : good (w_root w) L base (NN d [] [] [])).
    { constructor; cbn [n_children n_data n_updates n_deltas dkeys map];
        [constructor|exact Hd| | |constructor|constructor].
      - intros x. split; [intros []|]. intros (A & B & _). apply (Hno x A). rewrite B. apply prefix_refl.
      - intros x. split; [intros []|]. intros (A & B & _). apply (Hno x A). rewrite B. apply prefix_refl. }
    pose proof (good_snoc _ _ s _ _ _ _ _ Hg0 Hn Hp) as Hg. cbn [app] in Hg.
    assert (Hh : forall x n q, In x (L ++ [s]) -> s_path x = base ++ n :: q ->
               dget n (@nil (string * nnode)) <> None).
    { intros x n q Hx Hq. exfalso. apply in_app_or in Hx as [Hx|[<-|[]]].
      - apply (Hno x Hx). rewrite Hq. apply prefix_app.
      - rewrite Hp in Hq. rewrite <- (app_nil_r base) in Hq at 1. apply app_inv_head in Hq. discriminate. }
    destruct (s_delta s); cbn [fst snd getas]; (split; [|split; [|reflexivity]]).
    + apply okt_intro; [exact Hg|discriminate|exact Hh].
    + intros [|a q] m Hq; cbn [nget n_children dget] in Hq; [injection Hq as <-; reflexivity|discriminate].
    + apply okt_intro; [exact Hg|discriminate|exact Hh].
    + intros [|a q] m Hq; cbn [nget n_children dget] in Hq; [injection Hq as <-; reflexivity|discriminate].
  - cbn [subscribe_new getas].
    assert (Hp' : s_path s = (base ++ [n]) ++ p) by (rewrite Hp, <- app_assoc; reflexivity).
    assert (Hno' : forall x, In x L -> ~ prefix (base ++ [n]) (s_path x)).
    { intros x Hx Hpx. apply (Hno x Hx). apply (prefix_trans _ (base ++ [n])); [apply prefix_app|exact Hpx]. }
    assert (Hd' : clear (w_root w) (base ++ [n]) -> geta w d n = ref_at (w_root w) (base ++ [n])).
    { intros Hc. rewrite (Hd (clear_prefix _ _ _ Hc)). apply geta_ref; [exact Hw|].
      apply (Hc base n []). reflexivity. }
    destruct (IH (geta w d n) (base ++ [n]) Hw Hp' Hn Hno' Hd') as (Ho & Hf & Hs).
    destruct (subscribe_new w (geta w d n) s p) as [c o]. cbn [fst snd] in *.
    split; [|split; [|exact Hs]].
    + apply okt_intro.
      * constructor; cbn [n_children n_data n_updates n_deltas dkeys map fst];
          [repeat constructor; intros []|exact Hd| | |constructor|constructor].
        -- intros x. split; [intros []|]. intros (A & B & _). apply in_app_or in A as [A|[<-|[]]].
           ++ apply (Hno x A). rewrite B. apply prefix_refl.
           ++ rewrite Hp in B. rewrite <- (app_nil_r base) in B at 2. apply app_inv_head in B. discriminate.
        -- intros x. split; [intros []|]. intros (A & B & _). apply in_app_or in A as [A|[<-|[]]].
           ++ apply (Hno x A). rewrite B. apply prefix_refl.
           ++ rewrite Hp in B. rewrite <- (app_nil_r base) in B at 2. apply app_inv_head in B. discriminate.
      * intros m c' Hc. cbn [dget] in Hc. destruct (String.eqb_spec m n) as [->|Hne]; [|discriminate].
        injection Hc as <-. now split.
      * intros x m q Hx Hq. cbn [dget]. apply in_app_or in Hx as [Hx|[<-|[]]].
        -- exfalso. apply (Hno x Hx). rewrite Hq. apply prefix_app.
        -- rewrite Hp in Hq. apply app_inv_head in Hq. injection Hq as <- <-.
           rewrite String.eqb_refl. discriminate.
    + intros [|a q] m Hq; cbn [nget n_children dget] in Hq; [injection Hq as <-; reflexivity|].
      destruct (String.eqb a n); [eauto|discriminate].
Qed.

(* a subscription at p below nd *)
Lemma subscribe_at_ok w L s p : forall nd base, wf w -> s_path s = base ++ p -> ~ In s L ->
  okt (w_root w) L base nd ->
  okt (w_root w) (L ++ [s]) base (fst (subscribe_at w nd s p)) /\
  ((forall q m, nget nd q = Some m -> node_empty m = false) ->
   forall q m, nget (fst (subscribe_at w nd s p)) q = Some m -> node_empty m = false) /\
  exists r, snd (subscribe_at w nd s p)
  = [(s_key s, if s_delta s then Delta [([], Some (freeze w r))] else Update (freeze w r))] /\
    (clear (w_root w) (base ++ p) -> r = ref_at (w_root w) (base ++ p)).
Proof.
  induction p as [|n p IH]; intros [d us ds ch] base Hw Hp Hn Ho.
  - rewrite app_nil_r in *. cbn [subscribe_at].
    pose proof (o_good _ _ _ _ Ho [] _ eq_refl) as Hg. rewrite app_nil_r in Hg.
    pose proof (good_snoc _ _ s _ _ _ _ _ Hg Hn Hp) as Hg'.
    assert (Hc : forall n c, dget n ch = Some c -> okt (w_root w) (L ++ [s]) (base ++ [n]) c /\
                  (forall q m, nget c q = Some m -> node_empty m = false)).
    { intros n c Hc. destruct (okt_child _ _ _ _ _ _ _ _ _ Ho Hc) as [Hoc Hf].
      split; [|exact Hf]. apply okt_other; [exact Hoc|]. rewrite Hp. intros (y & Hy).
      rewrite <- app_assoc in Hy. rewrite <- (app_nil_r base) in Hy at 1.
      apply app_inv_head in Hy. discriminate. }
    assert (Hh : forall x n q, In x (L ++ [s]) -> s_path x = base ++ n :: q -> dget n ch <> None).
    { intros x n q Hx Hq. apply in_app_or in Hx as [Hx|[<-|[]]].
      - pose proof (o_has _ _ _ _ Ho x (n :: q) Hx Hq) as H. cbn [nget n_children] in H.
        destruct (dget n ch); [discriminate|congruence].
      - exfalso. rewrite Hp in Hq. rewrite <- (app_nil_r base) in Hq at 1.
        apply app_inv_head in Hq. discriminate. }
    destruct (s_delta s); cbn [fst snd].
    + split; [now apply okt_intro|]. split.
      * intros Hf [|a q] m Hq; cbn [nget n_children] in Hq.
        -- injection Hq as <-. cbn [node_empty]. destruct us; [destruct ds|]; reflexivity.
        -- apply (Hf (a :: q)). exact Hq.
      * exists d. split; [reflexivity|]. apply (g_data _ _ _ _ Hg).
    + split; [now apply okt_intro|]. split.
      * intros Hf [|a q] m Hq; cbn [nget n_children] in Hq.
        -- injection Hq as <-. cbn [node_empty]. destruct us; reflexivity.
        -- apply (Hf (a :: q)). exact Hq.
      * exists d. split; [reflexivity|]. apply (g_data _ _ _ _ Hg).
  - cbn [subscribe_at].
    assert (Hp' : s_path s = (base ++ [n]) ++ p) by (rewrite Hp, <- app_assoc; reflexivity).
    pose proof (o_good _ _ _ _ Ho [] _ eq_refl) as Hg. rewrite app_nil_r in Hg.
    assert (Hgt : forall ch', NoDup (dkeys ch') -> good (w_root w) (L ++ [s]) base (NN d us ds ch')).
    { intros ch' Hnd. assert (Hs : s_path s <> base).
      { rewrite Hp. intros He. rewrite <- (app_nil_r base) in He at 2. apply app_inv_head in He. discriminate. }
      pose proof (good_other _ _ s _ _ Hg Hs) as [G1 G2 G3 G4 G5 G6]. now constructor. }
    (* whatever the new child is *)
    assert (Hgen : forall c', okt (w_root w) (L ++ [s]) (base ++ [n]) c' ->
              (forall q m, nget c' q = Some m -> node_empty m = false) ->
              okt (w_root w) (L ++ [s]) base (NN d us ds (dset n c' ch)) /\
              forall q m, nget (NN d us ds (dset n c' ch)) q = Some m -> node_empty m = false).
    { intros c' Hc' Hf'. split.
      - apply okt_intro.
        + apply Hgt. apply dset_nodup. apply (g_nodup _ _ _ _ Hg).
        + intros m x Hx. rewrite dget_dset in Hx. destruct (String.eqb_spec m n) as [->|Hne].
          * injection Hx as <-. now split.
          * destruct (okt_child _ _ _ _ _ _ _ _ _ Ho Hx) as [Hox Hfx]. split; [|exact Hfx].
            apply okt_other; [exact Hox|]. rewrite Hp. intros (y & Hy).
            rewrite <- app_assoc in Hy. apply app_inv_head in Hy. cbn [app] in Hy. injection Hy as -> _.
            congruence.
        + intros x m q Hx Hq. rewrite dget_dset. destruct (String.eqb_spec m n) as [->|Hne]; [discriminate|].
          apply in_app_or in Hx as [Hx|[<-|[]]].
          * pose proof (o_has _ _ _ _ Ho x (m :: q) Hx Hq) as H. cbn [nget n_children] in H.
            destruct (dget m ch); [discriminate|congruence].
          * rewrite Hp in Hq. apply app_inv_head in Hq. injection Hq as -> _. congruence.
      - intros [|a q] m Hq; cbn [nget n_children] in Hq.
        + injection Hq as <-. cbn [node_empty].
          destruct us; [destruct ds; [|reflexivity]|reflexivity].
          destruct (dset n c' ch) eqn:E; [|reflexivity].
          assert (Hx : dget n (dset n c' ch) = Some c') by apply dget_dset_same.
          rewrite E in Hx. discriminate.
        + rewrite dget_dset in Hq. destruct (String.eqb_spec a n) as [->|Hne]; [eauto|].
          apply (o_full _ _ _ _ Ho a q). cbn [nget n_children]. exact Hq. }
    destruct (dget n ch) as [c|] eqn:Ec.
    + destruct (okt_child _ _ _ _ _ _ _ _ _ Ho Ec) as [Hoc Hfc].
      destruct (IH c (base ++ [n]) Hw Hp' Hn Hoc) as (H1 & H2 & r & H3 & H4).
      destruct (subscribe_at w c s p) as [c' o]. cbn [fst snd] in *.
      destruct (Hgen c' H1 (H2 Hfc)) as [Ha Hb]. split; [exact Ha|]. split; [intros _; exact Hb|].
      exists r. split; [exact H3|]. now rewrite <- app_assoc in H4.
    + assert (Hno' : forall x, In x L -> ~ prefix (base ++ [n]) (s_path x)).
      { intros x Hx (y & Hy). rewrite <- app_assoc in Hy. cbn [app] in Hy.
        pose proof (o_has _ _ _ _ Ho x (n :: y) Hx Hy) as H. cbn [nget n_children] in H.
        rewrite Ec in H. congruence. }
      assert (Hd' : clear (w_root w) (base ++ [n]) -> geta w d n = ref_at (w_root w) (base ++ [n])).
      { intros Hc. pose proof (g_data _ _ _ _ Hg (clear_prefix _ _ _ Hc)) as E. cbn [n_data] in E.
        rewrite E. apply geta_ref; [exact Hw|]. apply (Hc base n []). reflexivity. }
      destruct (subscribe_new_ok w L s p (geta w d n) (base ++ [n]) Hw Hp' Hn Hno' Hd') as (H1 & H2 & H3).
      destruct (subscribe_new w (geta w d n) s p) as [c' o]. cbn [fst snd] in *.
      destruct (Hgen c' H1 H2) as [Ha Hb]. split; [exact Ha|]. split; [intros _; exact Hb|].
      exists (getas w (geta w d n) p). split; [exact H3|]. intros Hc.
      replace (base ++ n :: p) with ((base ++ [n]) ++ p) in * by (rewrite <- app_assoc; reflexivity).
      rewrite Hd' by now apply clear_prefix in Hc. now apply getas_ref.
Qed.

(* ---------------- unsubscribing ---------------- *)
Lemma sub_eqb_spec a b : sub_eqb a b = true <-> a = b.
Proof.
  destruct a as [k p d], b as [k' p' d']. unfold sub_eqb. cbn [s_key s_path s_delta].
  rewrite !andb_true_iff, key_eqb_spec, Bool.eqb_true_iff.
  destruct (list_eq_dec string_dec p p') as [->|Hne]; split.
  - intros [[-> ->] _]. reflexivity.
  - intros H. injection H as -> ->. auto.
  - intros [_ H]. discriminate.
  - intros H. injection H as -> -> ->. congruence.
Qed.
Lemma remove_sub_spec s l : NoDup l ->
  match remove_sub s l with
  | None => ~ In s l
  | Some r => In s l /\ NoDup r /\ forall x, In x r <-> In x l /\ x <> s
  end.
Proof.
  induction l as [|y l IH]; intros Hn; cbn [remove_sub]; [intros []|].
  inversion Hn as [|a b Ha Hb]; subst. destruct (sub_eqb s y) eqn:E.
  - apply sub_eqb_spec in E. subst y. split; [now left|]. split; [exact Hb|].
    intros x. cbn [In]. split.
    + intros Hx. split; [now right|]. intros ->. contradiction.
    + intros [[He|Hx] Hne]; [congruence|exact Hx].
  - assert (Hne : s <> y) by (intros ->; assert (sub_eqb y y = true) by (now apply sub_eqb_spec); congruence).
    specialize (IH Hb). destruct (remove_sub s l) as [r|].
    + destruct IH as (H1 & H2 & H3). split; [now right|]. split.
      * constructor; [|exact H2]. intros Hy. apply H3 in Hy. tauto.
      * intros x. cbn [In]. rewrite H3. split.
        -- intros [<-|[A B]]; [split; [now left|congruence]|tauto].
        -- intros [[A|A] B]; auto.
    + intros [He|Hx]; [congruence|contradiction].
Qed.

Definition minus (L : list sub) (s : sub) : list sub :=
  filter (fun x => negb (key_eqb (s_key s) (s_key x))) L.
Lemma minus_in L s x : NoDup (map s_key L) -> In s L -> (In x (minus L s) <-> In x L /\ x <> s).
Proof.
  intros Hn Hs. unfold minus. rewrite filter_In, negb_true_iff. split.
  - intros [A B]. split; [exact A|]. intros ->. now rewrite key_eqb_refl in B.
  - intros [A B]. split; [exact A|]. apply key_eqb_neq. intros He. apply B.
    clear - Hn Hs A He. induction L as [|y L IH]; [destruct A|]. cbn [map] in Hn.
    inversion Hn as [|u v Hu Hv]; subst. destruct A as [<-|A], Hs as [<-|Hs]; auto.
    + exfalso. apply Hu. rewrite <- He. now apply in_map.
    + exfalso. apply Hu. rewrite He. now apply in_map.
Qed.

Lemma good_minus t L s p m : NoDup (map s_key L) -> In s L -> good t L p m -> s_path s <> p ->
  good t (minus L s) p m.
Proof.
  intros Hn Hs [H1 H2 H3 H4 H5 H6] Hne. constructor; auto.
  - intros x. rewrite H3, minus_in by auto. split; [|tauto].
    intros (A & B & C). repeat split; auto. congruence.
  - intros x. rewrite H4, minus_in by auto. split; [|tauto].
    intros (A & B & C). repeat split; auto. congruence.
Qed.
Lemma okt_minus t L s base nd : NoDup (map s_key L) -> In s L -> okt t L base nd ->
  ~ prefix base (s_path s) -> okt t (minus L s) base nd.
Proof.
  intros Hn Hs [H1 H2 H3] Hne. constructor; auto.
  - intros q m Hq. apply good_minus; auto. intros He. apply Hne. rewrite He. apply prefix_app.
  - intros x q Hx Hp. apply minus_in in Hx; auto. destruct Hx. eauto.
Qed.

Lemma unsubscribe_at_ok t L s p : NoDup (map s_key L) -> In s L -> forall nd base,
  s_path s = base ++ p -> okt t L base nd ->
  exists nd', unsubscribe_at nd s p = Some nd' /\ okt t (minus L s) base nd'.
Proof.
  intros Hn Hs. induction p as [|n p IH]; intros [d us ds ch] base Hp Ho.
  - rewrite app_nil_r in Hp. cbn [unsubscribe_at].
    pose proof (o_good _ _ _ _ Ho [] _ eq_refl) as Hg. rewrite app_nil_r in Hg.
    assert (Hfin : forall us' ds', good t (minus L s) base (NN d us' ds' ch) ->
              okt t (minus L s) base (NN d us' ds' ch)).
    { intros us' ds' Hg'. apply okt_intro; [exact Hg'| |].
      - intros n c Hc. destruct (okt_child _ _ _ _ _ _ _ _ _ Ho Hc) as [Hoc Hf]. split; [|exact Hf].
        apply okt_minus; auto. rewrite Hp. intros (y & Hy). rewrite <- app_assoc in Hy.
        rewrite <- (app_nil_r base) in Hy at 1. apply app_inv_head in Hy. discriminate.
      - intros x n q Hx Hq. apply minus_in in Hx; auto. destruct Hx as [Hx _].
        pose proof (o_has _ _ _ _ Ho x (n :: q) Hx Hq) as H. cbn [nget n_children] in H.
        destruct (dget n ch); [discriminate|congruence]. }
    destruct Hg as [G1 G2 G3 G4 G5 G6]. cbn [n_children n_data n_updates n_deltas] in *.
    pose proof (remove_sub_spec s us G5) as R1. destruct (remove_sub s us) as [us'|].
    + destruct R1 as (R1 & R2 & R3). eexists. split; [reflexivity|]. apply Hfin.
      apply G3 in R1. constructor; cbn [n_children n_data n_updates n_deltas]; auto.
      * intros x. rewrite R3, G3, minus_in by auto. tauto.
      * intros x. rewrite G4, minus_in by auto. split; [|tauto].
        intros (A & B & C). repeat split; auto. intros ->. destruct R1 as (_ & _ & R1). congruence.
    + pose proof (remove_sub_spec s ds G6) as R2. destruct (remove_sub s ds) as [ds'|].
      * destruct R2 as (R4 & R5 & R6). eexists. split; [reflexivity|]. apply Hfin.
        constructor; cbn [n_children n_data n_updates n_deltas]; auto.
        -- intros x. rewrite G3, minus_in by auto. split; [|tauto].
           intros (A & B & C). repeat split; auto. intros ->. apply R1. apply G3. auto.
        -- intros x. rewrite R6, G4, minus_in by auto. tauto.
      * exfalso. destruct (s_delta s) eqn:Ed; [apply R2, G4|apply R1, G3]; auto.
  - cbn [unsubscribe_at].
    pose proof (o_has _ _ _ _ Ho s (n :: p) Hs Hp) as Hh. cbn [nget n_children] in Hh.
    destruct (dget n ch) as [c|] eqn:Ec; [clear Hh|congruence].
    destruct (okt_child _ _ _ _ _ _ _ _ _ Ho Ec) as [Hoc Hfc].
    assert (Hp' : s_path s = (base ++ [n]) ++ p) by (rewrite Hp, <- app_assoc; reflexivity).
    destruct (IH c (base ++ [n]) Hp' Hoc) as (c' & Hu & Hoc'). rewrite Hu.
    eexists. split; [reflexivity|].
    pose proof (o_good _ _ _ _ Ho [] _ eq_refl) as Hg. rewrite app_nil_r in Hg.
    assert (Hsb : s_path s <> base).
    { rewrite Hp. intros He. rewrite <- (app_nil_r base) in He at 2. apply app_inv_head in He. discriminate. }
    pose proof (good_minus _ _ s _ _ Hn Hs Hg Hsb) as [G1 G2 G3 G4 G5 G6].
    cbn [n_children n_data n_updates n_deltas] in *.
    assert (Hoth : forall m x, m <> n -> dget m ch = Some x -> okt t (minus L s) (base ++ [m]) x /\
              (forall q m, nget x q = Some m -> node_empty m = false)).
    { intros m x Hne Hx. destruct (okt_child _ _ _ _ _ _ _ _ _ Ho Hx) as [Hox Hfx]. split; [|exact Hfx].
      apply okt_minus; auto. rewrite Hp. intros (y & Hy). rewrite <- app_assoc in Hy.
      apply app_inv_head in Hy. cbn [app] in Hy. injection Hy as Hmn _. congruence. }
    assert (Hhas : forall x m q, In x (minus L s) -> s_path x = base ++ m :: q -> dget m ch <> None).
    { intros x m q Hx Hq. apply minus_in in Hx; auto. destruct Hx as [Hx _].
      pose proof (o_has _ _ _ _ Ho x (m :: q) Hx Hq) as H. cbn [nget n_children] in H.
      destruct (dget m ch); [discriminate|congruence]. }
    destruct (node_empty c') eqn:Ee.
    + apply okt_intro.
      * constructor; cbn [n_children n_data n_updates n_deltas]; auto.
        unfold dpop, dkeys. clear - G1. induction ch as [|[a x] r IH]; cbn [filter map fst] in *; [constructor|].
        inversion G1 as [|u v Hu Hv]; subst. destruct (negb (String.eqb n a)); [|auto].
        cbn [map fst]. constructor; [|auto]. intros Hi. apply Hu. apply in_map_iff in Hi.
        destruct Hi as (z & Hz & Hi). apply filter_In in Hi as [Hi _]. rewrite <- Hz. now apply in_map.
      * intros m x Hx. rewrite dget_dpop in Hx. destruct (String.eqb_spec m n) as [->|Hne]; [discriminate|].
        now apply Hoth.
      * intros x m q Hx Hq. rewrite dget_dpop. destruct (String.eqb_spec m n) as [->|Hne]; [|eauto].
        exfalso. pose proof (o_has _ _ _ _ Hoc' x q Hx) as H. rewrite <- app_assoc in H.
        specialize (H Hq). destruct c' as [d' us' ds' ch']. cbn [node_empty] in Ee.
        destruct us', ds', ch'; try discriminate. destruct q as [|a q].
        -- pose proof (o_good _ _ _ _ Hoc' [] _ eq_refl) as [_ _ K3 K4 _ _]. cbn [n_updates n_deltas] in *.
           rewrite app_nil_r in *. destruct (s_delta x) eqn:Ed; [apply (K4 x)|apply (K3 x)]; auto.
        -- cbn [nget n_children dget] in H. congruence.
    + apply okt_intro.
      * constructor; cbn [n_children n_data n_updates n_deltas]; auto. now apply dset_nodup.
      * intros m x Hx. rewrite dget_dset in Hx. destruct (String.eqb_spec m n) as [->|Hne]; [|now apply Hoth].
        injection Hx as <-. split; [exact Hoc'|].
        intros [|a q] m Hq; [injection Hq as <-; exact Ee|]. apply (o_full _ _ _ _ Hoc' a q m Hq).
      * intros x m q Hx Hq. rewrite dget_dset. destruct (String.eqb_spec m n); [discriminate|eauto].
Qed.

(* ---------------- notifying ---------------- *)
Lemma notify_shallow w d us ds ch cs : exists ch',
  fst (notify w (NN d us ds ch) cs) = NN (new_data d cs) us ds ch' /\ dkeys ch' = dkeys ch.
Proof.
  rewrite notify_eq. cbn [fst]. eexists. split; [reflexivity|].
  unfold dkeys. now rewrite map_map.
Qed.
Lemma notify_ok t0 cs w L nd : tracks t0 cs (w_root w) -> wf w -> okt t0 L [] nd ->
  okt (w_root w) L [] (fst (notify w nd cs)).
Proof.
  intros Ht Hw Ho. pose proof (okt_nwf _ _ _ _ Ho) as Hnw. constructor.
  - intros q m Hq. rewrite notify_nget in Hq by exact Hnw.
    destruct (nget nd q) as [m0|] eqn:E; [|discriminate]. cbn [option_map] in Hq.
    injection Hq as <-. cbn [app]. pose proof (o_good _ _ _ _ Ho q m0 E) as [G1 G2 G3 G4 G5 G6].
    destruct m0 as [d us ds ch]. destruct (notify_shallow w d us ds ch (view w q cs)) as (ch' & He & Hk).
    rewrite He. cbn [n_children n_data n_updates n_deltas app] in *.
    constructor; cbn [n_children n_data n_updates n_deltas]; auto.
    + now rewrite Hk.
    + intros Hc. now apply (data_ok t0).
  - intros s q Hs Hp. rewrite notify_nget by exact Hnw.
    pose proof (o_has _ _ _ _ Ho s q Hs Hp) as H. destruct (nget nd q); [discriminate|congruence].
  - intros n q m Hq. rewrite notify_nget in Hq by exact Hnw.
    destruct (nget nd (n :: q)) as [m0|] eqn:E; [|discriminate]. cbn [option_map] in Hq.
    assert (Hm : m = fst (notify w m0 (view w (n :: q) cs))) by congruence. rewrite Hm. clear Hm Hq. pose proof (o_full _ _ _ _ Ho n q m0 E) as Hf.
    destruct m0 as [d us ds ch].
    destruct (notify_shallow w d us ds ch (view w (n :: q) cs)) as (ch' & He & Hk). rewrite He.
    cbn [node_empty] in *. destruct us; [destruct ds; [|reflexivity]|reflexivity].
    destruct ch; [discriminate|]. destruct ch'; [discriminate|reflexivity].
Qed.

(* what a live subscription is sent when a group closes *)
Lemma notify_msgs t0 cs w L nd s : tracks t0 cs (w_root w) -> wf w -> okt t0 L [] nd ->
  NoDup (map s_key L) -> In s L -> exists d,
  to_key (s_key s) (snd (notify w nd cs))
  = (if is_nil (s_path s) || negb (is_nil (view w (s_path s) cs))
     then [if s_delta s then Delta (map (freeze_change w) (view w (s_path s) cs))
           else Update (freeze w d)]
     else []) /\
  (clear (w_root w) (s_path s) -> d = ref_at (w_root w) (s_path s)).
Proof.
  intros Ht Hw Ho Hn Hs. pose proof (okt_nwf _ _ _ _ Ho) as Hnw.
  pose proof (o_has _ _ _ _ Ho s (s_path s) Hs eq_refl) as Hh.
  destruct (nget nd (s_path s)) as [m|] eqn:Em; [clear Hh|congruence].
  assert (Huniq : forall x, In x L -> s_key x = s_key s -> x = s).
  { intros x Hx He. destruct (sub_eqb x s) eqn:E; [now apply sub_eqb_spec|].
    assert (Hne : x <> s) by (intros ->; assert (sub_eqb s s = true) by (now apply sub_eqb_spec); congruence).
    pose proof (proj2 (minus_in L s x Hn Hs) (conj Hx Hne)) as H. unfold minus in H.
    apply filter_In in H as [_ H]. rewrite He, key_eqb_refl in H. discriminate. }
  assert (Hno : forall q m', nget nd q = Some m' -> q <> s_path s -> ~ In (s_key s) (keys_at m')).
  { intros q m' Hq Hne Hi. pose proof (o_good _ _ _ _ Ho q m' Hq) as [_ _ G3 G4 _ _]. cbn [app] in *.
    unfold keys_at in Hi. apply in_app_or in Hi. destruct Hi as [Hi|Hi];
      apply in_map_iff in Hi; destruct Hi as (x & Hx & Hi).
    - apply G3 in Hi as (A & B & _). apply Huniq in Hx; [subst; congruence|exact A].
    - apply G4 in Hi as (A & B & _). apply Huniq in Hx; [subst; congruence|exact A]. }
  rewrite (notify_out w (s_key s) (s_path s) nd cs m Hnw Em Hno).
  exists (new_data (n_data m) (view w (s_path s) cs)).
  pose proof (o_good _ _ _ _ Ho (s_path s) m Em) as [_ G2 G3 G4 G5 G6]. cbn [app] in *. split.
  - destruct (is_nil (s_path s) || negb (is_nil (view w (s_path s) cs))); [|reflexivity].
    assert (Hkeys : forall l, (forall x, In x l -> In x L) -> NoDup l -> NoDup (map s_key l)).
    { intros l Hl Hnd. clear - Hl Hnd Hn. induction l as [|x l IH]; cbn [map]; [constructor|].
      inversion Hnd as [|u v Hu Hv]; subst. constructor.
      - intros Hi. apply in_map_iff in Hi as (y & Hy & Hi). apply Hu.
        replace x with y; [exact Hi|].
        assert (HL : In y L /\ In x L) by (split; apply Hl; [now right|now left]). destruct HL as [Ly Lx].
        clear - Hn Hy Ly Lx. induction L as [|z L IH]; [destruct Ly|]. cbn [map] in Hn.
        inversion Hn as [|a b Ha Hb]; subst. destruct Ly as [<-|Ly], Lx as [<-|Lx]; auto.
        + exfalso. apply Ha. rewrite Hy. now apply in_map.
        + exfalso. apply Ha. rewrite <- Hy. now apply in_map.
      - apply IH; [|exact Hv]. intros y Hy. apply Hl. now right. }
    unfold own. rewrite to_key_app. destruct (s_delta s) eqn:Ed.
    + rewrite to_key_none, (to_key_one _ _ _ s); [reflexivity| | |reflexivity|].
      * apply Hkeys; [|exact G6]. intros x Hx. now apply G4 in Hx.
      * apply G4. auto.
      * intros Hi. apply in_map_iff in Hi as (x & Hx & Hi). apply G3 in Hi as (A & B & C).
        apply Huniq in Hx; [subst; congruence|exact A].
    + rewrite (to_key_one _ _ _ s), to_key_none; [reflexivity| | | |reflexivity].
      * intros Hi. apply in_map_iff in Hi as (x & Hx & Hi). apply G4 in Hi as (A & B & C).
        apply Huniq in Hx; [subst; congruence|exact A].
      * apply Hkeys; [|exact G5]. intros x Hx. now apply G3 in Hx.
      * apply G3. auto.
  - intros Hc. now apply (data_ok t0).
Qed.

Lemma notify_silent t0 cs w L nd k : wf w -> okt t0 L [] nd -> ~ In k (map s_key L) ->
  to_key k (snd (notify w nd cs)) = [].
Proof.
  intros Hw Ho Hk. apply notify_nokey; [now apply okt_nwf in Ho|].
  intros p m Hp Hi. pose proof (o_good _ _ _ _ Ho p m Hp) as [_ _ G3 G4 _ _].
  unfold keys_at in Hi. apply Hk. apply in_app_or in Hi.
  destruct Hi as [Hi|Hi]; apply in_map_iff in Hi; destruct Hi as (x & <- & Hi); apply in_map.
  - now apply G3 in Hi.
  - now apply G4 in Hi.
Qed.

(* nothing is left when nobody subscribes *)
Lemma full_has_sub nd : (forall q m, nget nd q = Some m -> node_empty m = false) ->
  exists q m s, nget nd q = Some m /\ (In s (n_updates m) \/ In s (n_deltas m)).
Proof.
  induction nd as [d us ds ch IH] using nnode_ind'. intros Hf.
  pose proof (Hf [] _ eq_refl) as H0. cbn [node_empty] in H0.
  destruct us as [|s us].
  - destruct ds as [|s ds].
    + destruct ch as [|[n c] ch]; [discriminate|]. inversion IH as [|a b Ha Hb]; subst.
      destruct Ha as (q & m & s & Hq & Hs).
      { intros q m Hq. apply (Hf (n :: q)). cbn [nget n_children dget]. now rewrite String.eqb_refl. }
      exists (n :: q), m, s. split; [|exact Hs]. cbn [nget n_children dget]. now rewrite String.eqb_refl.
    + exists [], (NN d [] (s :: ds) ch), s. split; [reflexivity|]. right. now left.
  - exists [], (NN d (s :: us) ds ch), s. split; [reflexivity|]. left. now left.
Qed.
Lemma okt_none t nd : okt t [] [] nd -> exists d, nd = NN d [] [] [].
Proof.
  intros Ho. destruct nd as [d us ds ch].
  pose proof (o_good _ _ _ _ Ho [] _ eq_refl) as [_ _ G3 G4 _ _]. cbn [n_updates n_deltas] in *.
  destruct us as [|s us]; [|exfalso; apply (proj1 (G3 s)); now left].
  destruct ds as [|s ds]; [|exfalso; apply (proj1 (G4 s)); now left].
  destruct ch as [|[n c] ch]; [now exists d|]. exfalso.
  destruct (full_has_sub c) as (q & m & s & Hq & Hs).
  { intros q m Hq. apply (o_full _ _ _ _ Ho n q). cbn [nget n_children dget]. now rewrite String.eqb_refl. }
  assert (Hq' : nget (NN d [] [] ((n, c) :: ch)) (n :: q) = Some m)
    by (cbn [nget n_children dget]; now rewrite String.eqb_refl).
  pose proof (o_good _ _ _ _ Ho _ _ Hq') as [_ _ K3 K4 _ _].
  destruct Hs as [Hs|Hs]; [apply K3 in Hs|apply K4 in Hs]; tauto.
Qed.
