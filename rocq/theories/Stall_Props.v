(* C101: when the HDF writer gives up on a run. *)
From Coq Require Import Bool ZArith Lia List.
From Verif Require Import Stall_Model.
Import ListNotations.
Local Open Scope Z_scope.

(* ---- specification ---- *)
(* When the number of frames was last heard of. *)
Definition heard (es : list event) (u : Z) : Prop :=
  exists a v b, es = a ++ Update u v :: b /\ (forall t w, ~ In (Update t w) b).
(* In events [es] nothing ends the wait for [target] frames: it is not reached, the capture does not fail, and
   no check comes more than [timeout] after the last that was heard. *)
Definition goes_on (timeout target : Z) (es : list event) : Prop :=
  (forall t, ~ In (Update t target) es) /\ (forall t, ~ In (Second t Errored) es) /\
  (forall a t c b u, es = a ++ Second t c :: b -> heard a u -> t <= u + timeout).
(* Clock times: never zero. *)
Definition clock (es : list event) : Prop := forall t v, In (Update t v) es -> 0 < t.
Definition ticks (es : list event) : nat :=
  length (filter (fun e => match e with Second _ Capturing => true | _ => false end) es).

(* ---- proofs ---- *)
Lemma stuck es : forall o p, o <> Waiting -> o <> Writing -> fold_left step es (o, p) = (o, p).
Proof.
  induction es as [|e es IH]; intros o p A B; [reflexivity|].
  cbn [fold_left]. replace (step (o, p) e) with (o, p) by (destruct o, e; congruence || reflexivity).
  apply IH; assumption.
Qed.

Definition start (p : part) : outcome * part :=
  (Writing, mkPart (p_timeout p) (p_done p) (p_offset p) None true (p_flushes p) (p_reports p)).
Definition go (p : part) (es : list event) := fold_left step es (start p).
Lemma go_snoc p es e : go p (es ++ [e]) = step (go p es) e.
Proof. unfold go. apply fold_left_app. Qed.
Lemma go_app p a b : go p (a ++ b) = fold_left step b (go p a).
Proof. unfold go. apply fold_left_app. Qed.

Lemma step_keeps o p e : p_timeout (snd (step (o, p) e)) = p_timeout p /\
  p_done (snd (step (o, p) e)) = p_done p /\ p_offset (snd (step (o, p) e)) = p_offset p.
Proof. destruct o, e as [|t v|t []]; cbn; auto. Qed.
Lemma go_keeps p es : p_timeout (snd (go p es)) = p_timeout p /\ p_done (snd (go p es)) = p_done p /\
  p_offset (snd (go p es)) = p_offset p.
Proof.
  induction es as [|e es IH] using rev_ind; [auto|]. rewrite go_snoc.
  destruct (go p es) as [o q]. cbn [snd] in IH. destruct (step_keeps o q e) as (A & B & C).
  rewrite A, B, C. exact IH.
Qed.

Lemma snoc_split {A} (es : list A) e a x b : es ++ [e] = a ++ x :: b ->
  (b = [] /\ es = a /\ e = x) \/ exists b', b = b' ++ [e] /\ es = a ++ x :: b'.
Proof.
  destruct b as [|y b _] using rev_ind; intros H.
  - left. apply app_inj_tail in H as [-> ->]. auto.
  - right. change (a ++ x :: b ++ [y]) with (a ++ (x :: b) ++ [y]) in H. rewrite app_assoc in H.
    apply app_inj_tail in H as [-> ->]. eauto.
Qed.

Lemma heard_snoc es e u : heard (es ++ [e]) u <->
  (exists v, e = Update u v) \/ ((forall t v, e <> Update t v) /\ heard es u).
Proof.
  split.
  - intros (a & v & b & E & N). apply snoc_split in E as [(-> & -> & ->)|(b' & -> & ->)]; [left; eauto|].
    right. split.
    + intros t w ->. apply (N t w). apply in_or_app. right; left; reflexivity.
    + exists a, v, b'. split; [reflexivity|]. intros t w K. apply (N t w). apply in_or_app. left; exact K.
  - intros [(v & ->)|(N & a & v & b & -> & M)].
    + exists es, v, []. split; [reflexivity|]. intros t w [].
    + exists a, v, (b ++ [e]). split; [rewrite <- app_assoc; reflexivity|].
      intros t w K. apply in_app_iff in K as [K|[K|[]]]; [exact (M t w K)|exact (N t w K)].
Qed.

Lemma goes_on_snoc T D es e : goes_on T D (es ++ [e]) <-> goes_on T D es /\
  match e with
  | First => True
  | Update t v => v <> D
  | Second t c => c <> Errored /\ forall u, heard es u -> t <= u + T
  end.
Proof.
  unfold goes_on. split.
  - intros (A & B & C). split; [split; [|split]|].
    + intros t K. apply (A t), in_or_app; left; exact K.
    + intros t K. apply (B t), in_or_app; left; exact K.
    + intros a t c b u -> H. apply (C a t c (b ++ [e]) u); [rewrite <- app_assoc; reflexivity|exact H].
    + destruct e as [|t v|t c]; [exact I| |].
      * intros ->. apply (A t), in_or_app; right; left; reflexivity.
      * split; [intros ->; apply (B t), in_or_app; right; left; reflexivity|].
        intros u H. apply (C es t c [] u); [reflexivity|exact H].
  - intros ((A & B & C) & E). split; [|split].
    + intros t K. apply in_app_iff in K as [K|[->|[]]]; [exact (A t K)|]. apply E; reflexivity.
    + intros t K. apply in_app_iff in K as [K|[->|[]]]; [exact (B t K)|]. destruct E as [E _]. apply E; reflexivity.
    + intros a t c b u S H. apply snoc_split in S as [(-> & <- & ->)|(b' & -> & ->)].
      * destruct E as [_ E]. apply E, H.
      * apply (C a t c b' u eq_refl H).
Qed.

Lemma go_not_waiting p l : fst (go p l) <> Waiting.
Proof.
  induction l as [|x l IHl] using rev_ind; [discriminate|]. rewrite go_snoc.
  destruct (go p l) as [o q']. cbn [fst] in IHl.
  destruct o, x as [|t v|t []]; cbn [step flush_if_still_writing fst]; try congruence.
  - destruct (_ =? _); discriminate.
  - destruct (has_file_writing_stalled t (flush_now q')); discriminate.
  - destruct (has_file_writing_stalled t q'); discriminate.
Qed.

(* The loop goes on just as long as the specification says, and remembers the last update. *)
Lemma writing p es : clock es ->
  (fst (go p es) = Writing <-> goes_on (p_timeout p) (p_done p) es) /\
  (fst (go p es) = Writing -> forall u, p_last (snd (go p es)) = Some u <-> heard es u).
Proof.
  induction es as [|e es IH] using rev_ind; intros CK.
  - split; [split; [intros _|reflexivity]|].
    + split; [|split]; [intros t []|intros t []|].
      intros a t c b u E. destruct a; discriminate.
    + intros _ u. split; [discriminate|]. intros (a & v & b & E & _). destruct a; discriminate.
  - assert (CK1 : clock es) by (intros t v K; apply (CK t v), in_or_app; left; exact K).
    specialize (IH CK1). destruct IH as [IH1 IH2]. rewrite go_snoc, goes_on_snoc.
    pose proof (go_keeps p es) as (KT & KD & _).
    assert (POS : forall u, heard es u -> u <> 0).
    { intros u (a & v & b & -> & _). assert (0 < u); [|lia]. apply (CK1 u v), in_or_app. right; left; reflexivity. }
    destruct (go p es) as [o q] eqn:EG. cbn [fst snd] in *.
    destruct o.
    + exfalso. apply (go_not_waiting p es). rewrite EG. reflexivity.
    + specialize (IH2 eq_refl). assert (G : goes_on (p_timeout p) (p_done p) es) by (apply IH1; reflexivity).
      destruct e as [|t v|t c]; cbn [step].
      * split; [split; auto|]. intros _ u. rewrite IH2, heard_snoc. split.
        -- intros H. right. split; [discriminate|exact H].
        -- intros [(v & K)|[_ H]]; [discriminate|exact H].
      * cbn [fst snd]. rewrite KD. split.
        -- destruct (Z.eqb_spec v (p_done p)) as [->|N]; split; intros H; try discriminate; try tauto.
        -- intros _ u. cbn. rewrite heard_snoc. split.
           ++ intros [= ->]. left. eauto.
           ++ intros [(w & [= -> _])|[K _]]; [reflexivity|]. exfalso. apply (K t v eq_refl).
      * assert (ST : forall q', p_last q' = p_last q -> p_timeout q' = p_timeout q ->
          (has_file_writing_stalled t q' = false <-> forall u, heard es u -> t <= u + p_timeout p)).
        { intros q' L1 L2. unfold has_file_writing_stalled. rewrite L1, L2, KT.
          destruct (p_last q) as [u|] eqn:EL.
          - assert (HU : heard es u) by (apply IH2; reflexivity).
            assert (UNI : forall u', heard es u' -> u' = u).
            { intros u' H. apply IH2 in H. congruence. }
            replace (u =? 0) with false by (symmetry; apply Z.eqb_neq, POS, HU). cbn [negb andb].
            rewrite Z.ltb_ge. split.
            + intros H u' H'. rewrite (UNI u' H'). lia.
            + intros H. specialize (H u HU). lia.
          - split; [|reflexivity]. intros _ u H. apply IH2 in H. discriminate. }
        assert (HS : forall u, heard (es ++ [Second t c]) u <-> heard es u).
        { intros u. rewrite heard_snoc. split; [intros [(v & K)|[_ H]]; [discriminate|exact H]|].
          intros H. right. split; [discriminate|exact H]. }
        destruct c; cbn [flush_if_still_writing].
        -- specialize (ST (flush_now q) eq_refl eq_refl). cbn [fst snd].
           destruct (has_file_writing_stalled t (flush_now q)) eqn:ES; split.
           ++ split; [discriminate|]. intros (_ & _ & K). apply ST in K. discriminate.
           ++ discriminate.
           ++ split; [|reflexivity]. intros _. split; [exact G|]. split; [discriminate|]. apply ST; reflexivity.
           ++ intros _ u. rewrite HS. cbn. apply IH2.
        -- specialize (ST q eq_refl eq_refl). cbn [fst snd].
           destruct (has_file_writing_stalled t q) eqn:ES; split.
           ++ split; [discriminate|]. intros (_ & _ & K). apply ST in K. discriminate.
           ++ discriminate.
           ++ split; [|reflexivity]. intros _. split; [exact G|]. split; [discriminate|]. apply ST; reflexivity.
           ++ intros _ u. rewrite HS. apply IH2.
        -- cbn [fst snd]. split; [|discriminate]. split; [discriminate|]. intros (_ & K & _). congruence.
    + change (step (Finished, q) e) with (Finished, q). split; [|discriminate].
      split; [discriminate|]. intros [K _]. apply IH1 in K. discriminate.
    + change (step (Stalled, q) e) with (Stalled, q). split; [|discriminate].
      split; [discriminate|]. intros [K _]. apply IH1 in K. discriminate.
    + change (step (Broken, q) e) with (Broken, q). split; [|discriminate].
      split; [discriminate|]. intros [K _]. apply IH1 in K. discriminate.
Qed.

(* How it ends is decided by one event. *)
Lemma decided p es o : o <> Waiting -> o <> Writing ->
  fst (go p es) = o <-> exists a e b, es = a ++ e :: b /\ fst (go p a) = Writing /\ fst (go p (a ++ [e])) = o.
Proof.
  intros N1 N2. split.
  - induction es as [|e es IH] using rev_ind; intros H; [cbn in H; congruence|].
    destruct (go p es) as [o' q] eqn:EG.
    assert (X : o' = Writing \/ o' <> Writing) by (destruct o'; auto; right; discriminate).
    destruct X as [->|X].
    + exists es, e, []. split; [reflexivity|]. split; [rewrite EG; reflexivity|exact H].
    + assert (NW : o' <> Waiting) by (pose proof (go_not_waiting p es) as K; rewrite EG in K; exact K).
      rewrite go_snoc, EG in H.
      replace (step (o', q) e) with (o', q) in H by (destruct o', e; congruence || reflexivity).
      cbn [fst] in *. destruct (IH H) as (a & x & b & -> & A & B).
      exists a, x, (b ++ [e]). split; [rewrite <- app_assoc; reflexivity|auto].
  - intros (a & e & b & -> & A & B).
    replace (a ++ e :: b) with ((a ++ [e]) ++ b) by (rewrite <- app_assoc; reflexivity).
    rewrite go_app. destruct (go p (a ++ [e])) as [o' q]. cbn [fst] in B. subst.
    rewrite stuck by assumption. reflexivity.
Qed.

Lemma clock_app a b : clock (a ++ b) -> clock a.
Proof. intros H t v K. apply (H t v), in_or_app. left; exact K. Qed.

(* ---- theorems, for a run whose first array has come ---- *)
Lemma run_go p es : p_first p = true -> on_run es p = go p es.
Proof. intros H. unfold on_run. rewrite H. reflexivity. Qed.

(* It is said to be stalled just when, at a check, more than frame_timeout has gone by since the last update, and
   nothing has ended the run before. *)
Theorem C101_stalled : forall p es, p_first p = true -> clock es ->
  fst (on_run es p) = Stalled <->
  exists a t c b u, es = a ++ Second t c :: b /\ goes_on (p_timeout p) (p_done p) a /\ c <> Errored /\
                    heard a u /\ u + p_timeout p < t.
Proof.
  intros p es F CK. rewrite run_go by exact F. rewrite decided by discriminate. split.
  - intros (a & e & b & -> & A & B). pose proof (clock_app _ _ CK) as CA.
    destruct (writing p a CA) as [W L]. specialize (L A). pose proof A as A'. apply W in A.
    rewrite go_snoc in B. pose proof (go_keeps p a) as (KT & _ & _).
    destruct (go p a) as [o q]. cbn [fst snd] in *. subst o.
    destruct e as [|t v|t c]; cbn [step fst] in B; [discriminate|destruct (_ =? _) in B; discriminate|].
    assert (X : forall q', p_last q' = p_last q -> p_timeout q' = p_timeout q ->
      has_file_writing_stalled t q' = true -> exists u, heard a u /\ u + p_timeout p < t).
    { intros q' L1 L2 H. unfold has_file_writing_stalled in H. rewrite L1, L2, KT in H.
      destruct (p_last q) as [u|] eqn:EL; [|discriminate]. apply andb_true_iff in H as [_ H].
      exists u. split; [apply L; reflexivity|]. apply Z.ltb_lt, H. }
    destruct c; cbn [flush_if_still_writing fst] in B.
    + destruct (has_file_writing_stalled t (flush_now q)) eqn:ES; [|discriminate].
      destruct (X _ eq_refl eq_refl ES) as (u & H1 & H2). exists a, t, Capturing, b, u. split; [reflexivity|]. split; [exact A|]. split; [discriminate|]. split; [exact H1|exact H2].
    + destruct (has_file_writing_stalled t q) eqn:ES; [|discriminate].
      destruct (X _ eq_refl eq_refl ES) as (u & H1 & H2). exists a, t, Ended, b, u. split; [reflexivity|]. split; [exact A|]. split; [discriminate|]. split; [exact H1|exact H2].
    + discriminate.
  - intros (a & t & c & b & u & -> & G & NE & H & LT). exists a, (Second t c), b. split; [reflexivity|].
    pose proof (clock_app _ _ CK) as CA. destruct (writing p a CA) as [W L].
    apply W in G. split; [exact G|]. specialize (L G). apply L in H as HL.
    rewrite go_snoc. pose proof (go_keeps p a) as (KT & _ & _).
    assert (U0 : u <> 0). { destruct H as (x & v & y & -> & _). assert (0 < u); [|lia]. apply (CA u v), in_or_app. right; left; reflexivity. }
    destruct (go p a) as [o q]. cbn [fst snd] in *. subst o.
    assert (X : forall q', p_last q' = p_last q -> p_timeout q' = p_timeout q -> has_file_writing_stalled t q' = true).
    { intros q' L1 L2. unfold has_file_writing_stalled. rewrite L1, L2, HL, KT.
      apply andb_true_iff. split; [apply negb_true_iff, Z.eqb_neq, U0|apply Z.ltb_lt, LT]. }
    destruct c; cbn [step flush_if_still_writing fst]; [rewrite X by reflexivity|rewrite X by reflexivity|congruence]; reflexivity.
Qed.
Print Assumptions C101_stalled.

(* It is done just when the number of frames is the awaited one, and nothing has ended the run before. *)
Theorem C101_finished : forall p es, p_first p = true -> clock es ->
  fst (on_run es p) = Finished <->
  exists a t b, es = a ++ Update t (p_done p) :: b /\ goes_on (p_timeout p) (p_done p) a.
Proof.
  intros p es F CK. rewrite run_go by exact F. rewrite decided by discriminate. split.
  - intros (a & e & b & -> & A & B). pose proof (clock_app _ _ CK) as CA.
    destruct (writing p a CA) as [W _]. pose proof A as A'. apply W in A.
    rewrite go_snoc in B. pose proof (go_keeps p a) as (_ & KD & _).
    destruct (go p a) as [o q]. cbn [fst snd] in *. subst o.
    destruct e as [|t v|t c]; cbn [step fst] in B; [discriminate| |].
    + rewrite KD in B. destruct (Z.eqb_spec v (p_done p)) as [->|]; [|discriminate]. eauto.
    + destruct (flush_if_still_writing c q) as [q'|]; [|discriminate].
      destruct (has_file_writing_stalled t q'); discriminate.
  - intros (a & t & b & -> & G). exists a, (Update t (p_done p)), b. split; [reflexivity|].
    pose proof (clock_app _ _ CK) as CA. destruct (writing p a CA) as [W _]. apply W in G. split; [exact G|].
    rewrite go_snoc. pose proof (go_keeps p a) as (_ & KD & _).
    destruct (go p a) as [o q]. cbn [fst snd] in *. subst o. cbn [step]. rewrite KD, Z.eqb_refl. reflexivity.
Qed.
Print Assumptions C101_finished.

(* It raises what start raised just when a check finds that start has raised. *)
Theorem C101_broken : forall p es, p_first p = true -> clock es ->
  fst (on_run es p) = Broken <->
  exists a t b, es = a ++ Second t Errored :: b /\ goes_on (p_timeout p) (p_done p) a.
Proof.
  intros p es F CK. rewrite run_go by exact F. rewrite decided by discriminate. split.
  - intros (a & e & b & -> & A & B). pose proof (clock_app _ _ CK) as CA.
    destruct (writing p a CA) as [W _]. pose proof A as A'. apply W in A.
    rewrite go_snoc in B. destruct (go p a) as [o q]. cbn [fst snd] in *. subst o.
    destruct e as [|t v|t c]; cbn [step fst] in B; [discriminate|destruct (_ =? _) in B; discriminate|].
    destruct c; cbn [flush_if_still_writing fst] in B.
    + destruct (has_file_writing_stalled t _); discriminate.
    + destruct (has_file_writing_stalled t _); discriminate.
    + eauto.
  - intros (a & t & b & -> & G). exists a, (Second t Errored), b. split; [reflexivity|].
    pose proof (clock_app _ _ CK) as CA. destruct (writing p a CA) as [W _]. apply W in G. split; [exact G|].
    rewrite go_snoc. destruct (go p a) as [o q]. cbn [fst snd] in *. subst o. reflexivity.
Qed.
Print Assumptions C101_broken.

(* While it waits, the file is flushed each second for as long as the plugin captures; every number of frames
   that is not below where the run started is reported, in order. *)
Theorem C101_flushes : forall p es, p_first p = true -> clock es -> goes_on (p_timeout p) (p_done p) es ->
  p_flushes (snd (on_run es p)) = (p_flushes p + ticks es)%nat /\
  p_reports (snd (on_run es p)) =
    rev (filter (fun n => 0 <=? n) (flat_map (fun e => match e with Update _ v => [v - p_offset p] | _ => [] end) es))
    ++ p_reports p.
Proof.
  intros p es F CK G. rewrite run_go by exact F.
  induction es as [|e es IH] using rev_ind.
  - cbn. split; [lia|reflexivity].
  - assert (CK1 : clock es) by (apply clock_app with [e]; exact CK).
    apply goes_on_snoc in G as [G1 G2]. specialize (IH CK1 G1).
    destruct (writing p es CK1) as [W _]. apply W in G1. pose proof (go_keeps p es) as (_ & _ & KO).
    rewrite go_snoc. unfold ticks. rewrite filter_app, flat_map_app, filter_app, rev_app_distr, app_length.
    fold (ticks es). destruct (go p es) as [o q]. cbn [fst snd] in *. subst o. destruct IH as [IH1 IH2].
    destruct e as [|t v|t c]; cbn [step snd].
    + cbn. split; [lia|exact IH2].
    + cbn [snd]. cbn [p_flushes p_reports update_completed_steps filter flat_map app length].
      rewrite KO, IH1, IH2. split; [lia|]. destruct (0 <=? v - p_offset p); reflexivity.
    + destruct G2 as [NE _]. destruct c; cbn [flush_if_still_writing snd]; [| |congruence].
      * cbn. split; [lia|exact IH2].
      * cbn. split; [lia|exact IH2].
Qed.
Print Assumptions C101_flushes.

(* Between one frame and the next a scan may take its exposure and a minute more; if points have no one exposure,
   two minutes.  A scan that keeps to this is never said to be stalled. *)
Definition steady (gap : Z) (es : list event) : Prop :=
  (* the times do not go back *)
  (forall a x b y c t u, es = a ++ x :: b ++ y :: c ->
     (x = Second t Capturing \/ x = Second t Ended \/ x = Second t Errored \/ exists v, x = Update t v) ->
     (y = Second u Capturing \/ y = Second u Ended \/ y = Second u Errored \/ exists v, y = Update u v) -> t <= u) /\
  (* after each update but the last there is another within the gap *)
  (forall a t v b, es = a ++ Update t v :: b -> b <> [] ->
     exists b1 t' v' b2, b = b1 ++ Update t' v' :: b2 /\ t' <= t + gap).
Theorem C101_steady : forall p es duration completed steps,
  let q := on_configure duration completed steps p in
  clock es ->
  steady (if 0 <? duration then duration + 60000 else 120000) es ->
  fst (on_run es (mkPart (p_timeout q) (p_done q) (p_offset q) (p_last q) true (p_flushes q) (p_reports q))) <> Stalled.
Proof.
  intros p es duration completed steps q CK [ORD GAP] H. apply C101_stalled in H; [|reflexivity|exact CK].
  destruct H as (a & t & c & b & u & -> & _ & _ & (x & v & y & -> & N) & LT).
  cbn [p_timeout] in LT. unfold q in LT. cbn [on_configure p_timeout] in LT. unfold frame_timeout, FRAME_TIMEOUT in LT.
  assert (E : (x ++ Update u v :: y) ++ Second t c :: b = x ++ Update u v :: (y ++ Second t c :: b))
    by (rewrite <- app_assoc; reflexivity).
  destruct (GAP x u v (y ++ Second t c :: b) E) as (b1 & t' & v' & b2 & E2 & LE).
  { destruct y; discriminate. }
  assert (P : exists m n, b = m ++ Update t' v' :: n).
  { assert (IN : forall l1 l2, l1 ++ Second t c :: l2 = b1 ++ Update t' v' :: b2 -> (forall s w, ~ In (Update s w) l1) ->
      exists m n, l2 = m ++ Update t' v' :: n).
    { clear. intros l1; revert b1; induction l1 as [|z l1 IH]; intros b1 l2 E M; destruct b1 as [|w b1]; cbn in E.
      - discriminate.
      - injection E as <- ->. eauto.
      - injection E as -> _. exfalso. apply (M t' v'). left; reflexivity.
      - injection E as -> E. apply (IH b1 l2 E). intros s r K. apply (M s r). right; exact K. }
    exact (IN y b E2 N). }
  destruct P as (m & n & ->).
  assert (T : t <= t').
  { apply (ORD (x ++ Update u v :: y) (Second t c) m (Update t' v') n t t').
    - reflexivity.
    - destruct c; auto.
    - right; right; right; eauto. }
  destruct (0 <? duration); lia.
Qed.
Print Assumptions C101_steady.

(* Before the first array of a scan comes, on_run waits without end: no time is too long. *)
Theorem C101_first : forall p duration completed steps es,
  ~ In First es -> on_run es (on_configure duration completed steps p) = (Waiting, on_configure duration completed steps p).
Proof.
  intros p duration completed steps es N. unfold on_run. cbn [on_configure p_first].
  generalize (on_configure duration completed steps p) as q; intros q.
  induction es as [|e es IH]; [reflexivity|]. cbn [fold_left].
  replace (step (Waiting, q) e) with (Waiting, q).
  - apply IH. intros K; apply N; right; exact K.
  - destruct e; [exfalso; apply N; left; reflexivity|reflexivity|reflexivity].
Qed.
Print Assumptions C101_first.
(* When it has come the rest is as above. *)
Theorem C101_after_first : forall p duration completed steps a b,
  ~ In First a -> let q := on_configure duration completed steps p in
  on_run (a ++ First :: b) q =
  on_run b (mkPart (p_timeout q) (p_done q) (p_offset q) (p_last q) true (p_flushes q) (p_reports q)).
Proof.
  intros p duration completed steps a b N q. unfold on_run at 1.
  change (p_first q) with false. cbv iota. rewrite fold_left_app.
  change (fold_left step a (Waiting, q)) with (on_run a (on_configure duration completed steps p)).
  rewrite C101_first by exact N. reflexivity.
Qed.
Print Assumptions C101_after_first.

(* Finding: on_seek puts arrayCounter to zero "so we can check for the first frame", but first_array_future is made
   in on_configure only: after a pause nothing waits for the first array, and a run whose first frame is late is
   said to be stalled. *)
Theorem C101_resume_refuted : ~ (forall p captured completed steps es,
  ~ In First es -> fst (on_run es (on_seek captured completed steps p)) <> Stalled).
Proof.
  intros H.
  apply (H (snd (on_run [First; Update 1000 0; Update 2000 1; Update 3000 2] (on_configure 1000 0 10 fresh)))
           2 2 8 [Update 100000 2; Second 101000 Capturing; Second 161001 Capturing]).
  - intros [K|[K|[K|[]]]]; discriminate.
  - reflexivity.
Qed.
Print Assumptions C101_resume_refuted.

(* ---- examples ---- *)
Definition ex_part := snd (on_run [First] (on_configure 500 0 3 fresh)).
Example C101_ex_finished :
  let x := on_run [Update 1000 0; Second 2000 Capturing; Update 2100 1; Update 2600 2; Second 3600 Capturing; Update 3700 3]
                  ex_part in
  fst x = Finished /\ p_flushes (snd x) = 2%nat /\ p_reports (snd x) = [3; 2; 1; 0].
Proof. repeat split. Qed.
Example C101_ex_stalled :
  fst (on_run [Update 1000 0; Second 61500 Capturing] ex_part) = Writing /\
  fst (on_run [Update 1000 0; Second 61501 Ended] ex_part) = Stalled /\
  fst (on_run [Update 1000 0; Second 2000 Errored] ex_part) = Broken.
Proof. repeat split. Qed.
Example C101_ex_steady : steady (500 + 60000) [Update 1000 0; Second 2000 Capturing; Update 61500 1].
Proof.
  split.
  - intros a x b y c t u E. 
    destruct a as [|? [|? [|? a]]]; cbn in E; try discriminate.
    + injection E as <- E. destruct b as [|? [|? b]]; cbn in E; try discriminate.
      * injection E as <- _. intros [K|[K|[K|(v & K)]]] [L|[L|[L|(w & L)]]]; try discriminate; injection K; injection L; lia.
      * injection E as _ <- _. intros [K|[K|[K|(v & K)]]] [L|[L|[L|(w & L)]]]; try discriminate; injection K; injection L; lia.
      * destruct b; discriminate.
    + injection E as _ <- E. destruct b as [|? b]; cbn in E; try discriminate.
      * injection E as <- _. intros [K|[K|[K|(v & K)]]] [L|[L|[L|(w & L)]]]; try discriminate; injection K; injection L; lia.
      * destruct b; discriminate.
    + injection E as _ _ <- E. destruct b; discriminate.
    + destruct a; discriminate.
  - intros a t v b E NB. destruct a as [|? [|? [|? a]]]; cbn in E; try discriminate.
    + injection E as <- <- <-. exists [Second 2000 Capturing], 61500, 1, []. split; [reflexivity|lia].
    + injection E as _ _ _ _ <-. congruence.
    + destruct a; discriminate.
Qed.
