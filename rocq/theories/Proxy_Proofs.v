From Coq Require Import String Bool ZArith Lia List.
From Verif Require Import Base Notify_Model Notify_Spec Notify_Proofs Notify2_Proofs
  Proxy_Model Proxy_Spec.
Import ListNotations.
Local Open Scope string_scope.
Local Open Scope list_scope.

Lemma eqb_neq a b : a <> b -> String.eqb a b = false.
Proof. apply String.eqb_neq. Qed.

(* a settable place: apply_change does what vapply does *)
Lemma settable_apply p : forall v x, settable v p ->
  apply_change p (Some x) v = Some (vapply p (Some x) v).
Proof.
  induction p as [|n r IH]; intros v x (Hn & Hs & Hp); [congruence|].
  destruct (Hp [] (n :: r) eq_refl ltac:(discriminate)) as (t & Ht & Hb).
  destruct v as [|z|k fs]; [discriminate|discriminate|]. injection Ht as ->.
  cbn [apply_change vapply]. cbn [vsee] in Hs. destruct (dget n fs) as [c|] eqn:D; [|congruence].
  destruct r as [|m r].
  - assert (E : dmem n fs = true) by (unfold dmem; rewrite D; reflexivity).
    rewrite E, eqb_neq by assumption. reflexivity.
  - assert (S : settable c (m :: r)).
    { split; [discriminate|]. split; [exact Hs|]. intros q s E Hs0.
      destruct (Hp (n :: q) s ltac:(now rewrite E) Hs0) as (t' & Ht' & Hb').
      cbn [vsee] in Ht'. rewrite D in Ht'. eauto. }
    rewrite (IH c x S). reflexivity.
Qed.

(* the shape of a proxy block *)
Definition shape (b : list (string * val)) : Prop :=
  NoDup (dkeys b) /\
  (exists th hs, dget "health" b = Some (VObj (KModel th) hs) /\ th <> "malcolm:core/Block:1.0" /\
                 forall n, In n health_names -> In n (dkeys hs)) /\
  (exists tm ms, dget "meta" b = Some (VObj (KModel tm) ms) /\ tm <> "malcolm:core/Block:1.0" /\
                 NoDup (dkeys ms) /\
                 forall n, In n (dkeys ms) <-> In n ("fields" :: meta_names)).
Definition sub2 (b : list (string * val)) (n m : string) : option val :=
  match dget n b with Some c => field c m | None => None end.

Lemma In_dset_keep {A} n k (x : A) d : In n (dkeys d) -> In n (dkeys (dset k x d)).
Proof. intros H. apply In_dkeys_dset. now right. Qed.

Section names.
Variable names : list string -> val.

Lemma update_fields_shape b : shape b ->
  shape (update_fields names b) /\
  (forall f, f <> "meta" -> dget f (update_fields names b) = dget f b) /\
  (forall n, n <> "fields" -> sub2 (update_fields names b) "meta" n = sub2 b "meta" n) /\
  dkeys (update_fields names b) = dkeys b.
Proof.
  intros (N & (th & hs & H1 & H2 & H3) & (tm & ms & M1 & M2 & M3 & M4)).
  unfold update_fields. rewrite M1.
  assert (K : In "meta" (dkeys b)) by (eapply dget_Some_key; eauto).
  repeat split.
  - rewrite dkeys_dset_in; auto.
  - exists th, hs. rewrite dget_dset_other by discriminate. auto.
  - eexists tm, _. rewrite dget_dset_same. split; [reflexivity|]. split; [exact M2|].
    split; [now apply dset_nodup|]. intros n. rewrite In_dkeys_dset, M4. cbn [In].
    split; [intros [->|X]; auto|auto].
  - intros f Hf. now rewrite dget_dset_other by congruence.
  - intros n Hn. unfold sub2. rewrite dget_dset_same, M1. cbn [field].
    now rewrite dget_dset_other by congruence.
  - now rewrite dkeys_dset_in.
Qed.

Lemma shape_dset n v b : n <> "health" -> n <> "meta" -> shape b -> shape (dset n v b).
Proof.
  intros A B (N & (th & hs & H1 & H2) & (tm & ms & M1 & M2)).
  split; [now apply dset_nodup|]. split.
  - exists th, hs. now rewrite dget_dset_other by congruence.
  - exists tm, ms. now rewrite dget_dset_other by congruence.
Qed.
Lemma shape_ddel n b : n <> "health" -> n <> "meta" -> shape b -> shape (ddel n b).
Proof.
  intros A B (N & (th & hs & H1 & H2) & (tm & ms & M1 & M2)).
  split; [now apply ddel_nodup|]. split.
  - exists th, hs. rewrite dget_ddel by assumption. now rewrite eqb_neq by congruence.
  - exists tm, ms. rewrite dget_ddel by assumption. now rewrite eqb_neq by congruence.
Qed.

(* what stays the same apart from the fields that are not health or meta *)
Definition kept (b b' : list (string * val)) : Prop :=
  (forall n, sub2 b' "health" n = sub2 b "health" n) /\
  (forall n, n <> "fields" -> sub2 b' "meta" n = sub2 b "meta" n).
Lemma kept_refl b : kept b b. Proof. split; auto. Qed.
Lemma kept_trans a b c : kept a b -> kept b c -> kept a c.
Proof. intros [A1 A2] [B1 B2]. split; intros; rewrite ?B1, ?B2, ?A1, ?A2 by assumption; auto. Qed.

Lemma set_endpoint_spec n t gs b : n <> "health" -> n <> "meta" -> shape b ->
  exists b', set_endpoint_data names n (VObj (KModel t) gs) b = Some b' /\ shape b' /\ kept b b' /\
    forall f, f <> "meta" -> dget f b' = if String.eqb f n then Some (VObj (KModel t) gs) else dget f b.
Proof.
  intros A B S. eexists. split; [reflexivity|].
  destruct (update_fields_shape _ (shape_dset n (VObj (KModel t) gs) b A B S)) as (U1 & U2 & U3 & _).
  split; [exact U1|]. split.
  - split.
    + intros m. unfold sub2. rewrite U2 by discriminate. now rewrite dget_dset_other by congruence.
    + intros m Hm. rewrite U3 by assumption. unfold sub2. now rewrite dget_dset_other by congruence.
  - intros f Hf. rewrite U2 by assumption. rewrite dget_dset. reflexivity.
Qed.
Lemma remove_endpoint_spec n b : n <> "health" -> n <> "meta" -> shape b -> In n (dkeys b) ->
  exists b', remove_endpoint names n b = Some b' /\ shape b' /\ kept b b' /\
    dkeys b' = dkeys (ddel n b) /\
    forall f, f <> "meta" -> dget f b' = if String.eqb f n then None else dget f b.
Proof.
  intros A B S I. unfold remove_endpoint.
  assert (E : dmem n b = true) by now apply dmem_In. rewrite E.
  eexists. split; [reflexivity|]. pose proof (proj1 S) as N.
  destruct (update_fields_shape _ (shape_ddel n b A B S)) as (U1 & U2 & U3 & U4).
  split; [exact U1|]. split; [|split; [exact U4|]].
  - split.
    + intros m. unfold sub2. rewrite U2 by discriminate. rewrite dget_ddel by assumption.
      now rewrite eqb_neq by congruence.
    + intros m Hm. rewrite U3 by assumption. unfold sub2. rewrite dget_ddel by assumption.
      now rewrite eqb_neq by congruence.
  - intros f Hf. rewrite U2 by assumption. now rewrite dget_ddel by assumption.
Qed.

Lemma clear_fields_spec_aux l : forall b, shape b ->
  let b' := fold_left (fun b n => if String.eqb n "health" || String.eqb n "meta" then b
                        else match remove_endpoint names n b with Some b' => b' | None => b end) l b in
  shape b' /\ kept b b' /\
  forall f, f <> "health" -> f <> "meta" -> dget f b' = if smem f l then None else dget f b.
Proof.
  induction l as [|n l IH]; intros b S.
  - cbn. split; [exact S|]. split; [apply kept_refl|auto].
  - cbn [fold_left]. destruct (String.eqb n "health" || String.eqb n "meta") eqn:E.
    + destruct (IH b S) as (I1 & I2 & I3). split; [exact I1|]. split; [exact I2|].
      intros f F1 F2. rewrite I3 by assumption. cbn [smem existsb].
      assert (String.eqb f n = false) as ->; [|reflexivity].
      apply String.eqb_neq. intros ->. apply orb_true_iff in E as [E|E];
        apply String.eqb_eq in E; congruence.
    + apply orb_false_iff in E as [E1 E2]. apply String.eqb_neq in E1, E2.
      destruct (in_dec string_dec n (dkeys b)) as [I|I].
      * destruct (remove_endpoint_spec n b E1 E2 S I) as (b' & R & S' & K & _ & D). rewrite R.
        destruct (IH b' S') as (I1 & I2 & I3). split; [exact I1|].
        split; [eapply kept_trans; eauto|]. intros f F1 F2. rewrite I3 by assumption.
        cbn [smem existsb]. rewrite D by assumption.
        fold (smem f l). destruct (String.eqb f n), (smem f l); reflexivity.
      * assert (M : dmem n b = false) by now apply dmem_false.
        assert (R : remove_endpoint names n b = None) by (unfold remove_endpoint; now rewrite M).
        rewrite R.
        destruct (IH b S) as (I1 & I2 & I3). split; [exact I1|]. split; [exact I2|].
        intros f F1 F2. rewrite I3 by assumption. cbn [smem existsb].
        fold (smem f l). destruct (String.eqb f n) eqn:E3; [|reflexivity].
        apply String.eqb_eq in E3. subst. apply dget_None_notin in I. rewrite I.
        now destruct (smem n l).
Qed.
Lemma clear_fields_spec b : shape b ->
  shape (clear_fields names b) /\ kept b (clear_fields names b) /\
  forall f, f <> "health" -> f <> "meta" -> dget f (clear_fields names b) = None.
Proof.
  intros S. destruct (clear_fields_spec_aux (dkeys b) b S) as (A & B & C).
  split; [exact A|]. split; [exact B|]. intros f F1 F2. unfold clear_fields. rewrite C by assumption.
  destruct (smem f (dkeys b)) eqn:E; [reflexivity|]. apply smem_false in E.
  now apply dget_None_notin.
Qed.

Lemma set_health_spec k fs b : shape b ->
  (forall n, In n health_names -> dget n fs <> None) ->
  exists b', set_health (VObj k fs) b = Some b' /\ shape b' /\
    (forall n, In n health_names -> sub2 b' "health" n = dget n fs) /\
    (forall f, f <> "health" -> dget f b' = dget f b).
Proof.
  intros (N & (th & hs & H1 & H2 & H3) & M) Hn.
  unfold set_health. rewrite H1.
  destruct (dget "value" fs) as [x|] eqn:D1; [|exfalso; apply (Hn "value"); cbn; auto].
  destruct (dget "alarm" fs) as [a|] eqn:D2; [|exfalso; apply (Hn "alarm"); cbn; auto].
  destruct (dget "timeStamp" fs) as [t|] eqn:D3; [|exfalso; apply (Hn "timeStamp"); cbn; auto].
  eexists. split; [reflexivity|]. split; [|split].
  - split; [now apply dset_nodup|]. split.
    + exists th, (dset "timeStamp" t (dset "alarm" a (dset "value" x hs))).
      rewrite dget_dset_same. split; [reflexivity|]. split; [exact H2|].
      intros n Hi. now repeat apply In_dset_keep; apply H3.
    + destruct M as (tm & ms & M1 & M2). exists tm, ms. now rewrite dget_dset_other by discriminate.
  - intros n Hi. unfold sub2. rewrite dget_dset_same. cbn [field].
    cbn [In health_names] in Hi. destruct Hi as [<-|[<-|[<-|[]]]];
      rewrite ?dget_dset_same, ?dget_dset_other, ?dget_dset_same, ?dget_dset_other, ?dget_dset_same
        by discriminate; auto.
  - intros f Hf. now rewrite dget_dset_other by congruence.
Qed.

Lemma meta_fold (fs : list (string * val)) l : forall ms : list (string * val), (forall n, In n l -> dget n fs <> None) ->
  exists ms', fold_left (fun acc n => match acc, dget n fs with
                                  | Some ms', Some x => Some (dset n x ms')
                                  | _, _ => None
                                  end) l (Some ms) = Some ms' /\
    (forall n, dget n ms' = if smem n l then dget n fs else dget n ms) /\
    (NoDup (dkeys ms) -> NoDup (dkeys ms')).
Proof.
  induction l as [|n l IH]; intros ms H; [exists ms; cbn; auto|]. cbn [fold_left].
  destruct (dget n fs) as [x|] eqn:D; [|exfalso; apply (H n); cbn; auto].
  destruct (IH (dset n x ms) ltac:(intros; apply H; cbn; auto)) as (ms' & F & G & N).
  exists ms'. split; [exact F|]. split; [|intros X; apply N; now apply dset_nodup].
  intros m. rewrite G. cbn [smem existsb]. fold (smem m l). rewrite dget_dset.
  destruct (String.eqb m n) eqn:E; [|reflexivity]. apply String.eqb_eq in E; subst.
  rewrite D. now destruct (smem n l).
Qed.
Lemma set_meta_spec k fs b : shape b ->
  (forall n, In n ("fields" :: meta_names) -> dget n fs <> None) ->
  exists b', set_meta (VObj k fs) b = Some b' /\ shape b' /\
    (forall n, In n meta_names -> sub2 b' "meta" n = dget n fs) /\
    (forall f, f <> "meta" -> dget f b' = dget f b).
Proof.
  intros (N & H & (tm & ms & M1 & M2 & M3 & M4)) Hn.
  unfold set_meta. rewrite M1.
  destruct (meta_fold fs (dkeys ms) ms) as (ms' & F & G & NN).
  { intros n Hi. apply Hn. now apply M4. }
  rewrite F. eexists. split; [reflexivity|].
  assert (KK : forall n, In n (dkeys ms') <-> In n (dkeys ms)).
  { intros n. split; intros I.
    - destruct (dget n ms') eqn:D; [|apply dget_None_notin in D; contradiction].
      rewrite G in D. destruct (smem n (dkeys ms)) eqn:E; [now apply smem_In|].
      apply dget_Some_key in D. exact D.
    - destruct (dget n ms') eqn:D; [now apply dget_Some_key in D|]. rewrite G in D.
      apply smem_In in I as E. rewrite E in D. exfalso. apply (Hn n); [now apply M4|exact D]. }
  split; [|split].
  - split; [now apply dset_nodup|]. split.
    + destruct H as (th & hs & H1 & H2). exists th, hs. now rewrite dget_dset_other by discriminate.
    + exists tm, ms'. rewrite dget_dset_same. split; [reflexivity|]. split; [exact M2|].
      split; [auto|]. intros n. rewrite KK. apply M4.
  - intros n Hi. unfold sub2. rewrite dget_dset_same. cbn [field]. rewrite G.
    assert (smem n (dkeys ms) = true) as ->; [|reflexivity]. apply smem_In, M4. now right.
  - intros f Hf. now rewrite dget_dset_other by congruence.
Qed.

(* the second loop *)
Lemma set_fields_spec fs : forall b, shape b -> NoDup (dkeys fs) ->
  (forall c n, dget "health" fs = Some c -> In n health_names -> field c n <> None) ->
  (forall c n, dget "meta" fs = Some c -> In n ("fields" :: meta_names) -> field c n <> None) ->
  (forall n, n <> "health" -> n <> "meta" -> In n (dkeys fs) ->
       exists t gs, dget n fs = Some (VObj (KModel t) gs)) ->
  exists b', loop (set_field names) fs b = Fine b' /\ shape b' /\
    (forall f, f <> "health" -> f <> "meta" ->
       dget f b' = match dget f fs with Some v => Some v | None => dget f b end) /\
    (forall n, In n health_names ->
       sub2 b' "health" n = match dget "health" fs with Some c => field c n | None => sub2 b "health" n end) /\
    (forall n, In n meta_names ->
       sub2 b' "meta" n = match dget "meta" fs with Some c => field c n | None => sub2 b "meta" n end).
Proof.
  induction fs as [|[n v] fs IH]; intros b S ND Hh Hm Ho.
  { exists b. cbn. auto. }
  cbn [dkeys map fst] in ND. inversion ND as [|? ? Hx Hy]; subst.
  assert (X : exists b1, set_field names b (n, v) = Fine b1 /\ shape b1 /\
    (forall f, f <> "health" -> f <> "meta" -> dget f b1 = if String.eqb f n then Some v else dget f b) /\
    (forall m, In m health_names -> sub2 b1 "health" m = if String.eqb n "health" then field v m else sub2 b "health" m) /\
    (forall m, In m meta_names -> sub2 b1 "meta" m = if String.eqb n "meta" then field v m else sub2 b "meta" m)).
  { unfold set_field. destruct (String.eqb n "health") eqn:E1.
    - apply String.eqb_eq in E1; subst n.
      assert (Y : forall m, In m health_names -> field v m <> None) by (intros; apply Hh; auto).
      destruct v as [|z|k gs]; [exfalso; apply (Y "value"); cbn; auto|exfalso; apply (Y "value"); cbn; auto|].
      destruct (set_health_spec k gs b S Y) as (b' & A & B & C & D). rewrite A.
      exists b'. split; [reflexivity|]. split; [exact B|]. split; [|split].
      + intros f F1 F2. rewrite D by assumption. now rewrite eqb_neq by assumption.
      + exact C.
      + intros m Hi. cbn. unfold sub2. now rewrite D by discriminate.
    - apply String.eqb_neq in E1. destruct (String.eqb n "meta") eqn:E2.
      + apply String.eqb_eq in E2; subst n.
        assert (Y : forall m, In m ("fields" :: meta_names) -> field v m <> None) by (intros; apply Hm; auto).
        destruct v as [|z|k gs]; [exfalso; apply (Y "fields"); cbn; auto|exfalso; apply (Y "fields"); cbn; auto|].
        destruct (set_meta_spec k gs b S Y) as (b' & A & B & C & D). rewrite A.
        exists b'. split; [reflexivity|]. split; [exact B|]. split; [|split].
        * intros f F1 F2. rewrite D by assumption. now rewrite eqb_neq by assumption.
        * intros m Hi. unfold sub2. now rewrite D by discriminate.
        * exact C.
      + apply String.eqb_neq in E2.
        destruct (Ho n E1 E2) as (t & gs & G); [cbn; auto|]. cbn [dget] in G.
        rewrite String.eqb_refl in G. injection G as ->.
        destruct (set_endpoint_spec n t gs b E1 E2 S) as (b' & A & B & [C1 C2] & D). rewrite A.
        exists b'. split; [reflexivity|]. split; [exact B|]. split; [|split].
        * intros f F1 F2. now apply D.
        * intros m Hi. apply C1.
        * intros m Hi. apply C2. intros ->. cbn in Hi. intuition discriminate. }
  destruct X as (b1 & X1 & X2 & X3 & X4 & X5). cbn [loop]. rewrite X1.
  assert (NH : forall f, f = n -> dget f fs = None) by (intros f ->; now apply dget_None_notin).
  destruct (IH b1 X2 Hy) as (b' & A & B & C & D & E).
  - intros c m Hc. apply Hh. cbn [dget]. destruct (String.eqb "health" n) eqn:Q; [|exact Hc].
    apply String.eqb_eq in Q. rewrite (NH _ Q) in Hc. discriminate.
  - intros c m Hc. apply Hm. cbn [dget]. destruct (String.eqb "meta" n) eqn:Q; [|exact Hc].
    apply String.eqb_eq in Q. rewrite (NH _ Q) in Hc. discriminate.
  - intros m M1 M2 Hi. destruct (Ho m M1 M2) as (t & gs & G); [cbn; auto|]. cbn [dget] in G.
    destruct (String.eqb m n) eqn:Q; [|eauto]. apply String.eqb_eq in Q. subst. contradiction.
  - exists b'. split; [exact A|]. split; [exact B|]. split; [|split].
    + intros f F1 F2. rewrite C by assumption. rewrite X3 by assumption. cbn [dget].
      destruct (String.eqb f n) eqn:Q; [|reflexivity]. apply String.eqb_eq in Q.
      now rewrite (NH _ Q).
    + intros m Hi. rewrite D by assumption. rewrite X4 by assumption. cbn [dget].
      rewrite (String.eqb_sym "health" n). destruct (String.eqb n "health") eqn:Q; [|reflexivity].
      apply String.eqb_eq in Q. now rewrite (NH "health") by congruence.
    + intros m Hi. rewrite E by assumption. rewrite X5 by assumption. cbn [dget].
      rewrite (String.eqb_sym "meta" n). destruct (String.eqb n "meta") eqn:Q; [|reflexivity].
      apply String.eqb_eq in Q. now rewrite (NH "meta") by congruence.
Qed.

(* the proxy shows what the copy holds *)
Record in_step (v : val) (b : list (string * val)) : Prop := {
  st_shape : shape b;
  st_v : exists k fs kh hs km ms, v = VObj k fs /\ dget "health" fs = Some (VObj kh hs) /\
                                  dget "meta" fs = Some (VObj km ms);
  st_field : forall f, f <> "health" -> f <> "meta" -> dget f b = field v f;
  st_health : forall n, In n health_names -> sub2 b "health" n = field2 v "health" n;
  st_meta : forall n, In n meta_names -> sub2 b "meta" n = field2 v "meta" n }.

Lemma regenerate_spec v b : shape b -> block_like v ->
  exists b', regenerate names b v = Fine b' /\ in_step v b'.
Proof.
  intros S (k & fs & -> & N & Hh & Hm & Ho). unfold field2 in Hh, Hm. cbn [field] in Hh, Hm.
  destruct (clear_fields_spec b S) as (C1 & _ & C3). unfold regenerate.
  destruct (set_fields_spec fs (clear_fields names b) C1 N) as (b' & A & B & C & D & E).
  - intros c n Hc Hi. specialize (Hh n Hi). now rewrite Hc in Hh.
  - intros c n Hc Hi. specialize (Hm n Hi). now rewrite Hc in Hm.
  - exact Ho.
  - exists b'. split; [exact A|]. split.
    + exact B.
    + specialize (Hh "value" ltac:(cbn; auto)). specialize (Hm "fields" ltac:(cbn; auto)).
      destruct (dget "health" fs) as [[|?|kh hs]|] eqn:D1; cbn in Hh; try congruence.
      destruct (dget "meta" fs) as [[|?|km ms]|] eqn:D2; cbn in Hm; try congruence.
      eexists k, fs, _, _, _, _; eauto.
    + intros f F1 F2. rewrite C by assumption. cbn [field].
      destruct (dget f fs) eqn:Q; [reflexivity|]. now apply C3.
    + intros n Hi. rewrite D by assumption. unfold field2. cbn [field]. specialize (Hh n Hi).
      destruct (dget "health" fs); [reflexivity|congruence].
    + intros n Hi. rewrite E by assumption. unfold field2. cbn [field].
      specialize (Hm n (or_intror Hi)). destruct (dget "meta" fs); [reflexivity|congruence].
Qed.

Lemma keys_sub k d n : In n (dkeys d) -> forall x : val, field (VObj k (dset n x d)) n = Some x.
Proof. intros _ x. cbn [field]. now rewrite dget_dset_same. Qed.

Lemma change_spec v b c : in_step v b -> followed v c ->
  exists b', handle_change names b c = Fine b' /\ in_step (vapply (fst c) (snd c) v) b'.
Proof.
  intros [S (k & fs & kh & hs & km & ms & -> & V1 & V2) F H M] Hf.
  destruct c as [[|f r] [x|]]; cbn [followed] in Hf; [| contradiction | | contradiction].
  { cbn [fst snd vapply handle_change]. now apply regenerate_spec. }
  cbn [fst snd]. destruct (String.eqb f "health") eqn:E1.
  - apply String.eqb_eq in E1; subst f. destruct Hf as (n & -> & Hi).
    destruct S as (N & (th & gs & H1 & H2 & H3) & MM).
    cbn [handle_change]. rewrite H1. cbn [apply_change].
    assert (dmem n gs = true) as -> by (apply dmem_In; auto). rewrite eqb_neq by assumption.
    cbn [andb negb attempt vapply]. rewrite V1. eexists. split; [reflexivity|]. split.
    + split; [now apply dset_nodup|]. split.
      * eexists th, _. rewrite dget_dset_same. split; [reflexivity|]. split; [exact H2|].
        intros m Hm. apply In_dset_keep. auto.
      * destruct MM as (tm & ms' & M1 & M2). exists tm, ms'. now rewrite dget_dset_other by discriminate.
    + eexists k, _, kh, _, km, ms. split; [reflexivity|]. split; [apply dget_dset_same|].
      now rewrite dget_dset_other by discriminate.
    + intros g G1 G2. cbn [field]. rewrite !dget_dset_other by congruence. now apply F.
    + intros m Hm. unfold sub2, field2. cbn [field]. rewrite !dget_dset_same. cbn [field].
      rewrite !dget_dset. destruct (String.eqb m n); [reflexivity|]. specialize (H m Hm).
      unfold sub2, field2 in H. cbn [field] in H. rewrite H1, V1 in H. exact H.
    + intros m Hm. unfold sub2, field2. cbn [field]. rewrite !dget_dset_other by discriminate.
      apply M; assumption.
  - apply String.eqb_neq in E1. destruct (String.eqb f "meta") eqn:E2.
    + apply String.eqb_eq in E2; subst f. destruct Hf as (n & -> & Hi).
      destruct S as (N & HH & (tm & ns & M1 & M2 & M3 & M4)).
      cbn [handle_change]. rewrite M1. cbn [apply_change].
      assert (dmem n ns = true) as -> by (apply dmem_In, M4; now right). rewrite eqb_neq by assumption.
      cbn [andb negb attempt vapply]. rewrite V2. eexists. split; [reflexivity|]. split.
      * split; [now apply dset_nodup|]. split.
        { destruct HH as (th & gs & H1 & H2). exists th, gs. now rewrite dget_dset_other by discriminate. }
        eexists tm, _. rewrite dget_dset_same. split; [reflexivity|]. split; [exact M2|].
        split; [now apply dset_nodup|]. intros m. rewrite In_dkeys_dset, M4.
        split; [intros [->|X]; [now right|exact X]|auto].
      * eexists k, _, kh, hs, km, _. split; [reflexivity|].
        split; [now rewrite dget_dset_other by discriminate|apply dget_dset_same].
      * intros g G1 G2. cbn [field]. rewrite !dget_dset_other by congruence. now apply F.
      * intros m Hm. unfold sub2, field2. cbn [field]. rewrite !dget_dset_other by discriminate.
        apply H; assumption.
      * intros m Hm. unfold sub2, field2. cbn [field]. rewrite !dget_dset_same. cbn [field].
        rewrite !dget_dset. destruct (String.eqb m n); [reflexivity|]. specialize (M m Hm).
        unfold sub2, field2 in M. cbn [field] in M. rewrite M1, V2 in M. exact M.
    + apply String.eqb_neq in E2. destruct Hf as (c & Hc & Hs). cbn [field] in Hc.
      destruct r as [|n r]; [destruct Hs as [Hs _]; congruence|].
      assert (D : dget f b = Some c) by (rewrite F by assumption; exact Hc).
      cbn [handle_change]. rewrite D, (settable_apply _ _ x Hs). cbn [attempt].
      eexists. split; [reflexivity|]. cbn [vapply]. rewrite Hc. split.
      * now apply shape_dset.
      * eexists k, _, kh, hs, km, ms. split; [reflexivity|].
        split; now rewrite dget_dset_other by congruence.
      * intros g G1 G2. cbn [field]. rewrite !dget_dset. destruct (String.eqb g f); [reflexivity|].
        now apply F.
      * intros m Hm. unfold sub2, field2. cbn [field]. rewrite !dget_dset_other by congruence.
        apply H; assumption.
      * intros m Hm. unfold sub2, field2. cbn [field]. rewrite !dget_dset_other by congruence.
        apply M; assumption.
Qed.

Lemma changes_spec cs : forall v b, in_step v b -> all_followed v cs ->
  exists b', loop (handle_change names) cs b = Fine b' /\
             in_step (fold_left (fun c pd => vapply (fst pd) (snd pd) c) cs v) b'.
Proof.
  induction cs as [|c cs IH]; intros v b I A.
  - exists b. split; [reflexivity|exact I].
  - destruct A as [A1 A2]. destruct (change_spec v b c I A1) as (b1 & E & I1).
    destruct (IH _ _ I1 A2) as (b' & E' & I'). exists b'. cbn [loop]. rewrite E. split; assumption.
Qed.
Lemma msgs_spec ms : forall v b, in_step v b -> msgs_followed v ms ->
  in_step (fold_left replay ms v) (proxy_after names b ms).
Proof.
  induction ms as [|m ms IH]; intros v b I A; [exact I|].
  destruct A as [A1 A2]. change (proxy_after names b (m :: ms))
    with (proxy_after names (handle_response names b m) ms). cbn [fold_left]. apply IH; [|exact A2].
  destruct m as [u|cs| |]; try exact I. cbn [handle_response replay].
  destruct (changes_spec cs v b I A1) as (b' & E & I'). now rewrite E.
Qed.

Lemma new_proxy_shape b : new_proxy b -> shape b.
Proof.
  intros (tm & ms & th & hs & -> & A & B & C & D & E). split.
  - cbn. constructor; [intros [|[]]; discriminate|]. constructor; [intros []|constructor].
  - split; [exists th, hs; auto|exists tm, ms; auto].
Qed.

(* the shape stays whatever comes *)
Lemma apply_keys r d t fs c : apply_change r d (VObj (KModel t) fs) = Some c ->
  exists gs, c = VObj (KModel t) gs /\ dkeys gs = dkeys fs.
Proof.
  destruct r as [|n [|m r]]; cbn [apply_change]; [discriminate| |].
  - destruct d as [x|]; [|discriminate]. destruct (dmem n fs) eqn:D; [|discriminate].
    destruct (String.eqb t _); [discriminate|]. intros H. injection H as <-.
    eexists. split; [reflexivity|]. apply dkeys_dset_in. now apply dmem_In.
  - destruct (dget n fs) as [v|] eqn:D; [|discriminate].
    match goal with |- match ?a with _ => _ end = _ -> _ => destruct a; [|discriminate] end.
    intros H. injection H as <-. eexists. split; [reflexivity|]. apply dkeys_dset_in.
    eapply dget_Some_key; eauto.
Qed.
Lemma shape_apply f r d c c' b : shape b -> dget f b = Some c -> apply_change r d c = Some c' ->
  shape (dset f c' b).
Proof.
  intros S D E. destruct (string_dec f "health") as [->|N1].
  { destruct S as (N & (th & hs & H1 & H2 & H3) & M). rewrite H1 in D. injection D as <-.
    destruct (apply_keys _ _ _ _ _ E) as (gs & -> & K).
    split; [now apply dset_nodup|]. split.
    - exists th, gs. rewrite dget_dset_same. split; [reflexivity|]. split; [exact H2|].
      intros n Hn. rewrite K. auto.
    - destruct M as (tm & ms & M1 & M2). exists tm, ms. now rewrite dget_dset_other by discriminate. }
  destruct (string_dec f "meta") as [->|N2]; [|now apply shape_dset].
  destruct S as (N & H & (tm & ms & M1 & M2 & M3 & M4)). rewrite M1 in D. injection D as <-.
  destruct (apply_keys _ _ _ _ _ E) as (gs & -> & K).
  split; [now apply dset_nodup|]. split.
  - destruct H as (th & hs & H1 & H2). exists th, hs. now rewrite dget_dset_other by discriminate.
  - exists tm, gs. rewrite dget_dset_same. rewrite K. auto.
Qed.
Lemma loop_keeps {A B} (P : A -> Prop) (f : A -> B -> upto A) :
  (forall a x, P a -> P (after (f a x))) -> forall l a, P a -> P (after (loop f l a)).
Proof.
  intros H l. induction l as [|x l IH]; intros a Ha; [exact Ha|]. cbn [loop].
  specialize (H a x Ha). destruct (f a x); [now apply IH|exact H].
Qed.
Lemma meta_fold_keys (fs : list (string * val)) l : forall (ms : list (string * val)) ms',
  incl l (dkeys ms) ->
  fold_left (fun acc n => match acc, dget n fs with
                                  | Some ms', Some x => Some (dset n x ms')
                                  | _, _ => None
                                  end) l (Some ms) = Some ms' -> dkeys ms' = dkeys ms.
Proof.
  induction l as [|n l IH]; intros ms ms' I H; [injection H as <-; reflexivity|]. cbn [fold_left] in H.
  destruct (dget n fs) as [x|].
  - assert (K : dkeys (dset n x ms) = dkeys ms) by (apply dkeys_dset_in, I; cbn; auto).
    rewrite <- K. apply IH; [|exact H]. rewrite K. intros a Ha. apply I. cbn; auto.
  - assert (X : forall l', fold_left (fun acc n => match acc, dget n fs with
                                  | Some ms', Some x => Some (dset n x ms')
                                  | _, _ => None
                                  end) l' None = None :> option (list (string * val)))
      by (induction l'; auto). rewrite X in H. discriminate.
Qed.
Lemma set_field_shape b nv : shape b -> shape (after (set_field names b nv)).
Proof.
  intros S. destruct nv as [n v]. unfold set_field, attempt.
  destruct (String.eqb n "health") eqn:E1; [|destruct (String.eqb n "meta") eqn:E2].
  - destruct (set_health v b) as [b'|] eqn:E; [|exact S]. cbn [after].
    destruct S as (N & (th & hs & H1 & H2 & H3) & M). unfold set_health in E. rewrite H1 in E.
    destruct v as [|z|k fs]; try discriminate.
    destruct (dget "value" fs), (dget "alarm" fs), (dget "timeStamp" fs); try discriminate.
    injection E as <-. split; [now apply dset_nodup|]. split.
    + eexists th, _. rewrite dget_dset_same. split; [reflexivity|]. split; [exact H2|].
      intros m Hm. now repeat apply In_dset_keep; apply H3.
    + destruct M as (tm & ms & M1 & M2). exists tm, ms. now rewrite dget_dset_other by discriminate.
  - destruct (set_meta v b) as [b'|] eqn:E; [|exact S]. cbn [after].
    destruct S as (N & H & (tm & ms & M1 & M2 & M3 & M4)). unfold set_meta in E. rewrite M1 in E.
    destruct v as [|z|k fs]; try discriminate.
    match type of E with match ?f with _ => _ end = _ => destruct f as [ms'|] eqn:F end; [|discriminate].
    apply meta_fold_keys in F; [|intros a; auto]. injection E as <-.
    split; [now apply dset_nodup|]. split.
    + destruct H as (th & hs & H1 & H2). exists th, hs. now rewrite dget_dset_other by discriminate.
    + exists tm, ms'. rewrite dget_dset_same, F. auto.
  - apply String.eqb_neq in E1, E2. destruct v as [|z|[t|t|] gs]; try exact S.
    destruct (set_endpoint_spec n t gs b E1 E2 S) as (b' & A & B & _). now rewrite A.
Qed.
Lemma change_shape b c : shape b -> shape (after (handle_change names b c)).
Proof.
  intros S. destruct c as [[|f [|n r]] d]; cbn [handle_change].
  - destruct d as [v|]; [|exact S]. unfold regenerate.
    destruct (clear_fields_spec b S) as (C & _).
    destruct v as [|z|k fs]; try exact C. apply loop_keeps; [|exact C]. intros; now apply set_field_shape.
  - exact S.
  - destruct (dget f b) as [c|] eqn:D; [|exact S].
    destruct (apply_change (n :: r) d c) as [c'|] eqn:E; [|exact S]. cbn [attempt after].
    eapply shape_apply; eauto.
Qed.
Lemma shape_any ms b : shape b -> shape (proxy_after names b ms).
Proof.
  revert b. induction ms as [|m ms IH]; intros b S; [exact S|].
  change (shape (proxy_after names (handle_response names b m) ms)). apply IH.
  destruct m; try exact S. cbn [handle_response]. apply loop_keeps; [|exact S].
  intros; now apply change_shape.
Qed.

Lemma proxy_in_step b ms : new_proxy b -> starts ms -> msgs_followed VNone ms ->
  in_step (fold_left replay ms VNone) (proxy_after names b ms).
Proof.
  intros Hb (v & r & cs & ->) [[A1 A2] A3]. apply new_proxy_shape in Hb.
  cbn [followed] in A1. destruct (regenerate_spec v b Hb A1) as (b1 & R & I1).
  destruct (changes_spec cs v b1 I1 A2) as (b2 & E & I2).
  change (proxy_after names b (Delta (([], Some v) :: cs) :: r))
    with (proxy_after names (handle_response names b (Delta (([], Some v) :: cs))) r).
  cbn [fold_left handle_response]. apply msgs_spec; [|exact A3].
  cbn [loop handle_change]. rewrite R, E. exact I2.
Qed.

Lemma in_step_see v b k p : in_step v b -> shown p -> vsee (VObj k b) p = vsee v p.
Proof.
  intros [S (k' & fs & kh & hs & km & ms & -> & V1 & V2) F H M] Hp.
  destruct p as [|f r]; [contradiction|]. cbn [shown] in Hp. cbn [vsee].
  destruct (String.eqb f "health") eqn:E1.
  - apply String.eqb_eq in E1; subst f. destruct Hp as (n & q & -> & Hi). specialize (H n Hi).
    unfold sub2, field2 in H. cbn [field] in H. rewrite V1 in *.
    destruct (dget "health" b) as [[|z|k2 gs]|]; cbn [vsee field] in *; rewrite <- ?H; auto.
  - destruct (String.eqb f "meta") eqn:E2.
    + apply String.eqb_eq in E2; subst f. destruct Hp as (n & q & -> & Hi). specialize (M n Hi).
      unfold sub2, field2 in M. cbn [field] in M. rewrite V2 in *.
      destruct (dget "meta" b) as [[|z|k2 gs]|]; cbn [vsee field] in *; rewrite <- ?M; auto.
    + apply String.eqb_neq in E1, E2. rewrite F by assumption. reflexivity.
Qed.
End names.

(* ---------------- exports ---------------- *)
Lemma vsee_prefix_none v p r : vsee v p = None -> vsee v (p ++ r) = None.
Proof.
  revert v. induction p as [|n p IH]; intros v H.
  - destruct v; [destruct r; reflexivity|discriminate|discriminate].
  - destruct v as [|z|k fs]; [reflexivity|reflexivity|]. cbn [vsee app] in *.
    destruct (dget n fs); [now apply IH|reflexivity].
Qed.

(* looks the same except at and below the two places *)
Definition alike (a b : val) : Prop :=
  forall p, ~ prefix ["meta"; "tags"] p -> ~ prefix ["meta"; "label"] p -> vsee a p = vsee b p.

Lemma prefix_cons_inv n a p : prefix (n :: a) (n :: p) -> prefix a p.
Proof. intros (r & E). injection E as ->. now exists r. Qed.

Lemma settable_alike a b p : alike a b -> settable a p ->
  apart ["meta"; "tags"] p -> apart ["meta"; "label"] p -> settable b p.
Proof.
  intros A (S1 & S2 & S3) [P1 P1'] [P2 P2']. split; [exact S1|]. split.
  - rewrite <- A; assumption.
  - intros q s E Hs. destruct (S3 q s E Hs) as (t & Ht & Hb). exists t. split; [|exact Hb].
    rewrite <- A; [exact Ht| |].
    + intros (r & ->). apply P1. exists (r ++ s). now rewrite E, app_assoc.
    + intros (r & ->). apply P2. exists (r ++ s). now rewrite E, app_assoc.
Qed.

Lemma prefix_dec' (q p : path) : {prefix q p} + {~ prefix q p}.
Proof.
  revert p. induction q as [|a q IH]; intros p.
  - left. now exists p.
  - destruct p as [|b p]; [right; intros (r & E); discriminate|].
    destruct (string_dec a b) as [->|N].
    + destruct (IH p) as [H|H].
      * left. destruct H as (r & ->). now exists r.
      * right. intros H'. apply H. now apply prefix_cons_inv in H'.
    + right. intros (r & E). cbn in E. congruence.
Qed.

Lemma settable_see v x p r : settable v p -> vsee (vapply p (Some x) v) (p ++ r) = vsee x r.
Proof.
  intros (S1 & S2 & S3). destruct (exists_last S1) as (s & n & E). subst p.
  destruct (S3 s [n] eq_refl ltac:(discriminate)) as (t & Ht & _).
  eapply vsee_apply_set. exact Ht.
Qed.

Lemma set_in_see n m f v p : ~ prefix [n; m] p -> vsee (set_in n m f v) p = vsee v p.
Proof.
  intros H. unfold set_in. destruct v as [|z|k fs]; [reflexivity|reflexivity|].
  destruct (dget n fs) as [[|z|k' gs]|] eqn:D; try reflexivity.
  destruct (dget m gs) as [x|] eqn:D2; [|reflexivity].
  destruct p as [|a p]; [reflexivity|]. cbn [vsee]. rewrite dget_dset.
  destruct (String.eqb a n) eqn:E; [|reflexivity]. apply String.eqb_eq in E; subst a. rewrite D.
  destruct p as [|b p]; [reflexivity|]. cbn [vsee]. rewrite dget_dset.
  destruct (String.eqb b m) eqn:E; [|reflexivity]. apply String.eqb_eq in E; subst b.
  exfalso. apply H. now exists p.
Qed.
Lemma set_in_at n m f v x r : field2 v n m = Some x ->
  vsee (set_in n m f v) (n :: m :: r) = vsee (f x) r.
Proof.
  unfold field2, set_in. destruct v as [|z|k fs]; cbn [field]; try discriminate.
  destruct (dget n fs) as [[|z|k' gs]|] eqn:D; cbn [field]; try discriminate.
  intros ->. cbn [vsee]. rewrite dget_dset_same. cbn [vsee]. now rewrite dget_dset_same.
Qed.
Lemma set_in_field2 n m f v m' : m' <> m -> field2 (set_in n m f v) n m' = field2 v n m'.
Proof.
  intros H. unfold field2, set_in. destruct v as [|z|k fs]; try reflexivity. cbn [field].
  destruct (dget n fs) as [[|z|k' gs]|] eqn:D; cbn [field]; rewrite ?D; cbn [field]; try reflexivity.
  destruct (dget m gs) as [x|] eqn:D2; cbn [field]; rewrite ?D; cbn [field]; [|reflexivity].
  rewrite dget_dset_same. cbn [field]. now rewrite dget_dset_other by congruence.
Qed.

Section exports.
Variables (strip : val -> val) (label : val).

(* what the export looks like where it differs *)
Definition marked (tags lab : path -> option seen) (e : val) : Prop :=
  (forall r, vsee e ("meta" :: "tags" :: r) = tags r) /\
  (forall r, vsee e ("meta" :: "label" :: r) = lab r).

Lemma not_prefix_ext q p r : apart q p -> ~ prefix p (q ++ r).
Proof.
  intros [A B] (s & E). revert p A B s E. induction q as [|a q IH]; intros p A B s E.
  - apply A. now exists p.
  - destruct p as [|b p]; [apply B; now exists (a :: q)|]. cbn in E. injection E as -> E.
    apply (IH p) with (s := s).
    + intros (u & ->). apply A. now exists u.
    + intros (u & U). apply B. exists u. cbn. now rewrite U.
    + exact E.
Qed.

Lemma export_changes cs tags lab : forall v e, alike v e -> marked tags lab e -> all_exportable v cs ->
  exists e', loop (fun x c => attempt x (apply_change (fst c) (snd c) x)) cs e = Fine e' /\
    alike (fold_left (fun c pd => vapply (fst pd) (snd pd) c) cs v) e' /\ marked tags lab e'.
Proof.
  induction cs as [|[p [x|]] cs IH]; intros v e A M H.
  - exists e. cbn. auto.
  - destruct H as [(S & P1 & P2) H]. cbn [loop fst snd fold_left].
    pose proof (settable_alike _ _ _ A S P1 P2) as S'.
    rewrite (settable_apply _ _ x S'). cbn [attempt]. apply IH; [| |exact H].
    + intros q Q1 Q2. destruct (prefix_dec' p q) as [(r & ->)|N].
      * now rewrite !settable_see.
      * rewrite !vsee_apply_other by assumption. now apply A.
    + destruct M as [M1 M2]. split; intros r.
      * rewrite vsee_apply_other; [apply M1|]. exact (not_prefix_ext _ _ r P1).
      * rewrite vsee_apply_other; [apply M2|]. exact (not_prefix_ext _ _ r P2).
  - destruct H as [[] _].
Qed.

Lemma export_msgs ms tags lab : forall v e, alike v e -> marked tags lab e -> msgs_exportable v ms ->
  exists e', fold_left (update_field strip label) ms (Some e) = Some e' /\
    alike (fold_left replay ms v) e' /\ marked tags lab e'.
Proof.
  induction ms as [|m ms IH]; intros v e A M H.
  - exists e. cbn. auto.
  - destruct H as [H1 H2]. cbn [fold_left]. destruct m as [u|cs| |]; try (now apply IH).
    destruct (export_changes cs tags lab v e A M H1) as (e' & E & A' & M').
    cbn [update_field]. rewrite E. cbn [after]. now apply IH.
Qed.

Lemma new_export_spec v t fs tg lb : v = VObj (KModel t) fs ->
  field2 v "meta" "tags" = Some tg -> field2 v "meta" "label" = Some lb ->
  alike v (new_export strip label v) /\
  marked (fun r => vsee (if String.eqb t "malcolm:core/Method:1.1" then tg else strip tg) r)
         (fun r => vsee label r) (new_export strip label v).
Proof.
  intros Hv T L. unfold new_export. rewrite Hv. rewrite <- Hv.
  set (v' := if String.eqb t "malcolm:core/Method:1.1" then v else set_in "meta" "tags" strip v).
  assert (X : alike v v' /\ (forall r, vsee v' ("meta" :: "tags" :: r) =
     vsee (if String.eqb t "malcolm:core/Method:1.1" then tg else strip tg) r) /\
     field2 v' "meta" "label" = Some lb).
  { unfold v'. destruct (String.eqb t "malcolm:core/Method:1.1").
    - split; [intros p _ _; reflexivity|]. split; [|exact L]. intros r.
      unfold field2 in T. destruct v as [|z|k gs]; cbn [field] in T; try discriminate. cbn [vsee].
      destruct (dget "meta" gs) as [[|z|k' hs]|]; cbn [field] in T; try discriminate.
      cbn [vsee]. now rewrite T.
    - split; [intros p P _; now rewrite set_in_see|]. split; [intros r; now apply set_in_at|].
      rewrite set_in_field2 by discriminate. exact L. }
  clearbody v'. destruct X as (X1 & X2 & X3). split.
  - intros p P1 P2. rewrite set_in_see by assumption. now apply X1.
  - split; intros r.
    + rewrite set_in_see by (intros (s & E); discriminate). apply X2.
    + rewrite (set_in_at _ _ _ _ lb) by exact X3. reflexivity.
Qed.
End exports.
