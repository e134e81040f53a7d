(** Proofs for C17. *)
From Coq Require Import String Bool ZArith Lia List.
From Verif Require Import Base Validate_Model.
Import ListNotations.
Local Open Scope Z_scope.

Section ValidateProofs.
Context {V E : Type}.
Variable dur : V -> Z.
Variable with_dur : V -> Z -> V.
Variable meta : string -> V -> result E V.
Variable parts : dict V -> result E (list (string * V)).

Lemma loop_consistent : forall n p v l,
  validate_loop dur with_dur meta parts n p = (Consistent v, l) ->
  parts v = Ok [] /\ exists l', l = l' ++ [v].
Proof.
  induction n as [|n IH]; intros p v l H; simpl in H; [discriminate|].
  destruct (parts p) as [ts|e] eqn:Ep; [|discriminate].
  destruct ts as [|t ts].
  - injection H as -> <-. split; auto. exists []; auto.
  - destruct (apply_round dur with_dur meta (t :: ts) p) as [p'|]; [|discriminate].
    destruct (validate_loop dur with_dur meta parts n p') as [v' l'] eqn:El.
    injection H as -> <-. apply IH in El. destruct El as [H1 [l2 ->]]. split; auto.
    exists (p :: l2); auto.
Qed.

Lemma loop_rounds : forall n p, (length (snd (validate_loop dur with_dur meta parts n p)) <= n)%nat.
Proof.
  induction n as [|n IH]; intros p; simpl; auto.
  destruct (parts p) as [[|t ts]|e]; simpl; try lia.
  destruct (apply_round dur with_dur meta (t :: ts) p) as [p'|]; simpl; try lia.
  specialize (IH p'). destruct (validate_loop dur with_dur meta parts n p'); simpl in *. lia.
Qed.

Lemma apply_tweak_other : forall t p p' k, apply_tweak meta t p = Ok p' -> k <> fst t ->
  dget k p' = dget k p.
Proof.
  intros t p p' k H Hk. unfold apply_tweak in H. destruct (meta (fst t) (snd t)); [|discriminate].
  injection H as <-. apply dget_dset_other. auto.
Qed.

Lemma apply_tweaks_other : forall ts p p' k, apply_tweaks meta ts p = Ok p' ->
  ~ In k (map fst ts) -> dget k p' = dget k p.
Proof.
  induction ts as [|t r IH]; intros p p' k H Hk; simpl in H.
  - injection H as <-; auto.
  - destruct (apply_tweak meta t p) as [p1|] eqn:Ea; [|discriminate]. simpl in Hk.
    apply apply_tweak_other with (k := k) in Ea; [|intros ->; tauto].
    apply IH with (k := k) in H; [congruence | tauto].
Qed.

Lemma apply_round_other : forall ts p p' k, apply_round dur with_dur meta ts p = Ok p' ->
  ~ In k (map fst ts) -> dget k p' = dget k p.
Proof.
  intros ts p p' k H Hk. unfold apply_round in H.
  destruct (filter _ ts) as [|g gs] eqn:Ef.
  - eapply apply_tweaks_other; eauto.
  - assert (Hg : forall t, In t (g :: gs) -> In t ts /\ fst t = "generator"%string).
    { intros t Ht. rewrite <- Ef in Ht. apply filter_In in Ht. destruct Ht as [H1 H2].
      apply String.eqb_eq in H2. auto. }
    assert (Hk' : k <> "generator"%string).
    { intros ->. destruct (Hg g (or_introl eq_refl)) as [H1 H2]. apply Hk. rewrite <- H2.
      now apply in_map. }
    eapply apply_tweak_other; eauto. unfold resolve_generator_tweaks. destruct gs; simpl; auto.
    destruct (Hg g (or_introl eq_refl)) as [_ ->]. auto.
Qed.

(** A parameter no part ever asks to change keeps its value. *)
Lemma loop_untouched : forall n p v l k,
  validate_loop dur with_dur meta parts n p = (Consistent v, l) ->
  (forall q ts, In q l -> parts q = Ok ts -> ~ In k (map fst ts)) ->
  dget k v = dget k p.
Proof.
  induction n as [|n IH]; intros p v l k H Hk; simpl in H; [discriminate|].
  destruct (parts p) as [ts|e] eqn:Ep; [|discriminate].
  destruct ts as [|t ts].
  - injection H as -> <-; auto.
  - destruct (apply_round dur with_dur meta (t :: ts) p) as [p'|] eqn:Er; [|discriminate].
    destruct (validate_loop dur with_dur meta parts n p') as [v' l'] eqn:El.
    injection H as -> <-.
    apply IH with (k := k) in El.
    + rewrite El. eapply apply_round_other; eauto. eapply Hk; eauto. simpl; auto.
    + intros q ts' Hq. apply Hk. simpl; auto.
Qed.

Lemma fill_given : forall (defaults given : dict V) k v, dget k given = Some v ->
  dget k (fill_defaults defaults given) = Some v.
Proof.
  unfold fill_defaults. induction defaults as [|[q w] r IH]; intros given k v H; simpl; auto.
  apply IH. destruct (dmem q given) eqn:Eq; auto. rewrite dget_dset_other; auto.
  intros ->. apply dmem_false in Eq. apply Eq. eapply dget_Some_key; eauto.
Qed.

Lemma fill_missing : forall (defaults given : dict V) k, NoDup (dkeys defaults) -> dget k given = None ->
  dget k (fill_defaults defaults given) = dget k defaults.
Proof.
  unfold fill_defaults. induction defaults as [|[q w] r IH]; intros given k Hn H; simpl; auto.
  inversion Hn as [|? ? Hq Hr]; subst. simpl in *.
  destruct (String.eqb k q) eqn:Eq.
  - apply String.eqb_eq in Eq; subst q.
    replace (dmem k given) with false by (unfold dmem; now rewrite H).
    apply fill_given. apply dget_dset_same.
  - apply IH; auto. destruct (dmem q given); auto. rewrite dget_dset_other; auto.
    intros ->. now rewrite String.eqb_refl in Eq.
Qed.
End ValidateProofs.
