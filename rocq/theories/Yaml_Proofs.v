From Coq Require Import String Ascii Bool ZArith Lia List.
From Verif Require Import Base Yaml_Model Yaml_Spec.
Import ListNotations.
Local Open Scope string_scope.
Local Open Scope list_scope.
Local Open Scope nat_scope.

Lemma app_nil_s s : s +++ "" = s.
Proof. induction s as [|c s IH]; cbn; [reflexivity|now rewrite IH]. Qed.
Lemma app_assoc_s a b c : (a +++ b) +++ c = a +++ b +++ c.
Proof. induction a as [|x a IH]; cbn; [reflexivity|now rewrite IH]. Qed.
Lemma len_app a b : String.length (a +++ b) = String.length a + String.length b.
Proof. induction a as [|x a IH]; cbn; [reflexivity|now rewrite IH]. Qed.
Lemma has_app c a b : has c (a +++ b) <-> has c a \/ has c b.
Proof. induction a as [|x a IH]; cbn; [tauto|rewrite IH; tauto]. Qed.

Lemma skip_all old new a b : replace_from (String.length a) old new (a +++ b) = replace_from 0 old new b.
Proof. induction a as [|x a IH]; cbn; [now destruct b|exact IH]. Qed.

Lemma prefix_app old b : String.prefix old (old +++ b) = true.
Proof.
  induction old as [|c old IH]; cbn [String.append String.prefix]; [now destruct b|].
  destruct (ascii_dec c c); [exact IH|congruence].
Qed.
Lemma prefix_head c old d r : c <> d -> String.prefix (String c old) (String d r) = false.
Proof. intros H. cbn [String.prefix]. destruct (ascii_dec c d); [contradiction|reflexivity]. Qed.

(* names in brackets: one is at the start only if they are the same *)
Lemma prefix_names k : forall n b, ~ has rparen k -> ~ has rparen n -> k <> n ->
  String.prefix (k +++ ")") (n +++ ")" +++ b) = false.
Proof.
  induction k as [|c k IH]; intros n b Hk Hn N; destruct n as [|d n]; cbn [String.append].
  - congruence.
  - apply prefix_head. intros E. apply Hn. cbn. left. now symmetry.
  - apply prefix_head. intros E. apply Hk. cbn. now left.
  - cbn [String.prefix]. destruct (ascii_dec c d) as [->|]; [|reflexivity].
    apply IH; [intros X; apply Hk; now right|intros X; apply Hn; now right|congruence].
Qed.

Definition mark (k : string) : string := "$(" +++ k +++ ")".
Lemma mark_head k : mark k = String dollar (String lparen (k +++ ")")).
Proof. reflexivity. Qed.

Lemma no_dollar_kept k new a b : ~ has dollar a ->
  replace_from 0 (mark k) new (a +++ b) = a +++ replace_from 0 (mark k) new b.
Proof.
  induction a as [|c a IH]; intros H; cbn [String.append]; [reflexivity|].
  cbn [replace_from]. rewrite mark_head, prefix_head.
  - rewrite <- mark_head, IH; [reflexivity|]. intros X. apply H. now right.
  - intros E. apply H. left. now symmetry.
Qed.

(* replacing one name in a text *)
Definition fill1 (k v : string) (t : token) : list token :=
  match t with
  | Ref n => if String.eqb n k then map Lit (list_ascii_of_string v) else [t]
  | _ => [t]
  end.
Lemma text_app a b : text (a ++ b) = text a +++ text b.
Proof. induction a as [|t a IH]; cbn [text app]; [reflexivity|]. now rewrite IH, app_assoc_s. Qed.
Lemma text_lits v : text (map Lit (list_ascii_of_string v)) = v.
Proof. induction v as [|c v IH]; cbn; [reflexivity|]. now rewrite IH. Qed.

Lemma replace_one k v ts : ~ has rparen k -> Forall token_ok ts ->
  replace (mark k) v (text ts) = text (flat_map (fill1 k v) ts).
Proof.
  intros Hk H. unfold replace. induction H as [|t ts Ht H IH]; [reflexivity|].
  cbn [text flat_map]. rewrite text_app. destruct t as [c|c|n]; cbn [token_ok] in Ht.
  - cbn [write fill1 text]. rewrite no_dollar_kept by (cbn; intuition congruence).
    now rewrite IH.
  - destruct Ht as [H1 H2]. cbn [write fill1 text String.append].
    cbn [replace_from]. rewrite mark_head at 1. cbn [String.prefix].
    destruct (ascii_dec dollar dollar) as [_|]; [|congruence].
    destruct (ascii_dec lparen c) as [E|_]; [congruence|].
    rewrite mark_head at 1. cbn [String.prefix].
    destruct (ascii_dec dollar c) as [E|_]; [congruence|].
    now rewrite IH.
  - destruct Ht as [H1 H2]. cbn [fill1 write]. destruct (String.eqb n k) eqn:E.
    + apply String.eqb_eq in E. subst n. rewrite text_lits.
      change ("$(" +++ k +++ ")") with (mark k). rewrite mark_head.
      cbn [String.append replace_from]. rewrite <- mark_head.
      assert (P : String.prefix (mark k) (String dollar (String lparen ((k +++ ")") +++ text ts))) = true).
      { exact (prefix_app (mark k) (text ts)). }
      rewrite P. f_equal. rewrite <- IH.
      change (pred (String.length (mark k))) with (String.length (String lparen (k +++ ")"))).
      change (String lparen ((k +++ ")") +++ text ts)) with (String lparen (k +++ ")") +++ text ts).
      apply skip_all.
    + apply String.eqb_neq in E. cbn [text write]. rewrite app_nil_s.
      change ("$(" +++ n +++ ")") with (String dollar (String lparen (n +++ ")"))).
      cbn [String.append]. change (replace_from 0 (mark k) v (String dollar (String lparen ((n +++ ")") +++ text ts))))
        with (if String.prefix (mark k) (String dollar (String lparen ((n +++ ")") +++ text ts)))
              then v +++ replace_from (pred (String.length (mark k))) (mark k) v (String lparen ((n +++ ")") +++ text ts))
              else String dollar (replace_from 0 (mark k) v (String lparen ((n +++ ")") +++ text ts)))).
      assert (P : String.prefix (mark k) (String dollar (String lparen ((n +++ ")") +++ text ts))) = false).
      { rewrite mark_head. cbn [String.prefix].
        destruct (ascii_dec dollar dollar) as [_|]; [|congruence].
        destruct (ascii_dec lparen lparen) as [_|]; [|congruence].
        rewrite app_assoc_s. apply prefix_names; auto. }
      rewrite P. f_equal.
      change (String lparen ((n +++ ")") +++ text ts)) with (String lparen (n +++ ")") +++ text ts).
      rewrite no_dollar_kept; [now rewrite IH|].
      cbn. rewrite has_app. cbn. intros [X|[X|[X|[]]]]; [discriminate|contradiction|discriminate].
Qed.

Lemma fill1_ok k v ts : ~ has dollar v -> Forall token_ok ts -> Forall token_ok (flat_map (fill1 k v) ts).
Proof.
  intros Hv H. induction H as [|t ts Ht H IH]; cbn [flat_map]; [constructor|].
  apply Forall_app. split; [|exact IH]. destruct t as [c|c|n]; cbn [fill1]; try (repeat constructor; apply Ht).
  destruct (String.eqb n k); [|repeat constructor; apply Ht].
  clear -Hv. induction v as [|c v IHv]; cbn; constructor.
  - cbn. intros ->. apply Hv. now left.
  - apply IHv. intros X. apply Hv. now right.
Qed.
Lemma filled_app subs a b : filled subs (a ++ b) = filled subs a +++ filled subs b.
Proof. induction a as [|t a IH]; cbn [filled app]; [reflexivity|]. now rewrite IH, app_assoc_s. Qed.
Lemma filled_lits subs v : filled subs (map Lit (list_ascii_of_string v)) = v.
Proof. induction v as [|c v IH]; cbn; [reflexivity|]. now rewrite IH. Qed.
Lemma filled_fill1 k v subs ts : filled subs (flat_map (fill1 k v) ts) = filled ((k, v) :: subs) ts.
Proof.
  induction ts as [|t ts IH]; [reflexivity|]. cbn [flat_map]. rewrite filled_app, IH.
  cbn [filled]. f_equal. destruct t as [c|c|n]; cbn [fill1 filled]; rewrite ?app_nil_s; try reflexivity.
  cbn [dget]. destruct (String.eqb n k) eqn:E.
  - now rewrite filled_lits.
  - cbn [filled]. now rewrite app_nil_s.
Qed.
Lemma filled_nil ts : filled [] ts = text ts.
Proof. induction ts as [|t ts IH]; [reflexivity|]. cbn [filled text dget]. rewrite IH. now destruct t. Qed.

Lemma replace_filled subs : forall ts, plain_subs subs -> Forall token_ok ts ->
  replace_str subs (text ts) = filled subs ts.
Proof.
  unfold replace_str. induction subs as [|[k v] subs IH]; intros ts Hs H.
  - cbn [fold_left]. now rewrite filled_nil.
  - cbn [fold_left fst snd]. destruct (Hs k v) as [Hk Hv]; [now left|].
    change ("$(" +++ k +++ ")") with (mark k). rewrite replace_one by assumption.
    rewrite IH; [apply filled_fill1| |].
    + intros n x I. apply Hs. now right.
    + now apply fill1_ok.
Qed.

(* a text without any $ stays *)
Lemma replace_none subs s : ~ has dollar s -> replace_str subs s = s.
Proof.
  unfold replace_str. intros H. revert s H. induction subs as [|[k v] subs IH]; intros s H; [reflexivity|].
  cbn [fold_left fst snd]. change ("$(" +++ k +++ ")") with (mark k).
  assert (E : replace (mark k) v s = s); [|rewrite E; now apply IH].
  unfold replace. rewrite <- (app_nil_s s) at 1. rewrite no_dollar_kept by assumption.
  cbn. apply app_nil_s.
Qed.

(* ---------------- files ---------------- *)
Lemma section_ind2 (P : section -> Prop) :
  (forall n d, P (SParam n d)) -> (forall n v, P (SDefine n v)) -> (forall a, P (SPart a)) ->
  (forall a, P (SController a)) ->
  (forall a yn yd f, Forall P f -> P (SBlock a yn yd f)) ->
  (forall a yn yd f, Forall P f -> P (SInclude a yn yd f)) -> forall s, P s.
Proof.
  intros H1 H2 H3 H4 H5 H6. fix IH 1. intros [n d|n v|a|a|a yn yd f|a yn yd f].
  - apply H1.
  - apply H2.
  - apply H3.
  - apply H4.
  - apply H5. induction f as [|x f IHf]; constructor; [apply IH|exact IHf].
  - apply H6. induction f as [|x f IHf]; constructor; [apply IH|exact IHf].
Qed.

Lemma make_block_eq args yn yd file env : make (SBlock args yn yd file) env =
  match call_args file (substitute_params env args) with
  | None => None
  | Some kwargs =>
    let defs := create_defines file yn yd kwargs in
    match make_all file defs, controllers file with
    | Some (cs, ps), [a] => Some (cs ++ [mkC (substitute_params defs a) ps], [])
    | _, _ => None
    end
  end.
Proof. reflexivity. Qed.
Lemma make_include_eq args yn yd file env : make (SInclude args yn yd file) env =
  match call_args file (substitute_params env args) with
  | None => None
  | Some kwargs =>
    match make_all file (create_defines file yn yd kwargs), controllers file with
    | Some r, [] => Some r
    | _, _ => None
    end
  end.
Proof. reflexivity. Qed.

Lemma make_block_parts args yn yd file env cs ps : make (SBlock args yn yd file) env = Some (cs, ps) -> ps = [].
Proof.
  rewrite make_block_eq. destruct (call_args _ _); [|discriminate]. cbv zeta.
  destruct (make_all _ _) as [[? ?]|]; [|discriminate].
  destruct (controllers file) as [|? [|]]; try discriminate. intros E. now injection E as _ <-.
Qed.

Lemma make_all_in l defs cs ps : make_all l defs = Some (cs, ps) ->
  (forall p, In p ps <-> exists s c' p', In s l /\ make s defs = Some (c', p') /\ In p p') /\
  (forall c, In c cs <-> exists s c' p', In s l /\ make s defs = Some (c', p') /\ In c c').
Proof.
  revert cs ps. induction l as [|s l IH]; intros cs ps H; cbn [make_all] in H.
  - injection H as <- <-. split; intros x; (split; [intros []|intros (s & ? & ? & [] & _)]).
  - destruct (make s defs) as [[c p]|] eqn:E; [|discriminate].
    destruct (make_all l defs) as [[c' p']|] eqn:E'; [|discriminate].
    injection H as <- <-. destruct (IH _ _ eq_refl) as [A B]. split; intros x; rewrite in_app_iff.
    + rewrite A. split.
      * intros [X|(s1 & c1 & p1 & X & Y & Z)]; [exists s, c, p|exists s1, c1, p1]; cbn; auto.
      * intros (s1 & c1 & p1 & [<-|X] & Y & Z); [left; congruence|right; eauto 6].
    + rewrite B. split.
      * intros [X|(s1 & c1 & p1 & X & Y & Z)]; [exists s, c, p|exists s1, c1, p1]; cbn; auto.
      * intros (s1 & c1 & p1 & [<-|X] & Y & Z); [left; congruence|right; eauto 6].
Qed.
Lemma make_all_each l defs r : make_all l defs = Some r ->
  forall s, In s l -> exists c p, make s defs = Some (c, p).
Proof.
  revert r. induction l as [|s l IH]; intros r H x I0; [destruct I0|]; destruct I0 as [I0|I]; cbn [make_all] in H;
    destruct (make s defs) as [[c p]|] eqn:E; try discriminate;
    destruct (make_all l defs) as [[c' p']|] eqn:E'; try discriminate.
  - subst x. eauto.
  - eapply IH; eauto.
Qed.

Lemma make_counts s : forall env cs ps, make s env = Some (cs, ps) ->
  length cs = n_blocks s /\ length ps + list_sum (map (fun c => length (c_parts c)) cs) = n_parts s.
Proof.
  assert (ALL : forall l, Forall (fun s => forall env cs ps, make s env = Some (cs, ps) ->
     length cs = n_blocks s /\ length ps + list_sum (map (fun c => length (c_parts c)) cs) = n_parts s) l ->
     forall env cs ps, make_all l env = Some (cs, ps) ->
     length cs = list_sum (map n_blocks l) /\
     length ps + list_sum (map (fun c => length (c_parts c)) cs) = list_sum (map n_parts l)).
  { intros l H. induction H as [|x l Hx H IH]; intros env cs ps E; cbn [make_all] in E.
    - injection E as <- <-. auto.
    - destruct (make x env) as [[c p]|] eqn:E1; [|discriminate].
      destruct (make_all l env) as [[c' p']|] eqn:E2; [|discriminate]. injection E as <- <-.
      destruct (Hx _ _ _ E1) as [A1 A2]. destruct (IH _ _ _ E2) as [B1 B2].
      rewrite !app_length, map_app, list_sum_app. cbn [map]. cbn [list_sum fold_right]. fold (list_sum (map n_blocks l)).
      fold (list_sum (map n_parts l)). lia. }
  induction s as [n d|n v|a|a|a yn yd f IH|a yn yd f IH] using section_ind2; intros env cs ps E.
  - injection E as <- <-. auto.
  - injection E as <- <-. auto.
  - injection E as <- <-. auto.
  - injection E as <- <-. auto.
  - rewrite make_block_eq in E. destruct (call_args _ _) as [kw|]; [|discriminate]. cbv zeta in E.
    destruct (make_all f _) as [[c p]|] eqn:M; [|discriminate].
    destruct (controllers f) as [|a1 [|]]; try discriminate. injection E as <- <-.
    destruct (ALL f IH _ _ _ M) as [A B]. rewrite app_length, map_app, list_sum_app. cbn [map c_parts length].
    cbn [n_blocks n_parts]. rewrite <- A, <- B. cbn [list_sum fold_right]. lia.
  - rewrite make_include_eq in E. destruct (call_args _ _) as [kw|]; [|discriminate].
    destruct (make_all f _) as [[c p]|] eqn:M; [|discriminate].
    destruct (controllers f) as [|a1 ?]; try discriminate. injection E as <- <-.
    exact (ALL f IH _ _ _ M).
Qed.

Lemma make_parts s : forall env cs ps, make s env = Some (cs, ps) ->
  forall p, In p ps <-> exists env' args, included env s env' (SPart args) /\ p = substitute_params env' args.
Proof.
  induction s as [n d|n v|a|a|a yn yd f IH|a yn yd f IH] using section_ind2; intros env cs ps E p.
  - injection E as <- <-. split; [intros []|]. intros (e & a & I & _). inversion I.
  - injection E as <- <-. split; [intros []|]. intros (e & a & I & _). inversion I.
  - injection E as <- <-. split.
    + intros [<-|[]]. exists env, a. split; [constructor|reflexivity].
    + intros (e & a' & I & ->). inversion I; subst. now left.
  - injection E as <- <-. split; [intros []|]. intros (e & a' & I & _). inversion I.
  - rewrite make_block_eq in E. destruct (call_args _ _) as [kw|]; [|discriminate]. cbv zeta in E.
    destruct (make_all f _) as [[c p1]|] eqn:M; [|discriminate].
    destruct (controllers f) as [|a1 [|]]; try discriminate. injection E as <- <-.
    split; [intros []|]. intros (e & a' & I & _). inversion I.
  - rewrite make_include_eq in E. destruct (call_args _ _) as [kw|] eqn:C; [|discriminate].
    destruct (make_all f _) as [[c p1]|] eqn:M; [|discriminate].
    destruct (controllers f) as [|a1 ?]; try discriminate. injection E as <- <-.
    rewrite (proj1 (make_all_in _ _ _ _ M)). rewrite Forall_forall in IH. split.
    + intros (s & c' & p' & I & E' & J). apply (IH s I _ _ _ E') in J. destruct J as (e & a' & J & ->).
      exists e, a'. split; [|reflexivity]. econstructor; eauto.
    + intros (e & a' & J & ->). inversion J as [|? ? ? ? ? kw' s ? ? C' I J']; subst.
      rewrite C in C'. injection C' as <-.
      destruct (make_all_each _ _ _ M s I) as (c' & p' & E'). exists s, c', p'. split; [exact I|].
      split; [exact E'|]. apply (IH s I _ _ _ E'). eauto.
Qed.

(* the controller of a block *)
Definition block_ctrl (env : dict string) (args : dict string) (yn yd : string) (file : list section)
  (c : ctrl) : Prop :=
  exists kw a cs, call_args file (substitute_params env args) = Some kw /\ controllers file = [a] /\
    make_all file (create_defines file yn yd kw) = Some (cs, c_parts c) /\
    c_args c = substitute_params (create_defines file yn yd kw) a.

Lemma make_ctrls s : forall env cs ps, make s env = Some (cs, ps) ->
  forall c, In c cs <-> exists env' args yn yd file,
    reached env s env' (SBlock args yn yd file) /\ block_ctrl env' args yn yd file c.
Proof.
  induction s as [n d|n v|a|a|a yn yd f IH|a yn yd f IH] using section_ind2; intros env cs ps E x.
  - injection E as <- <-. split; [intros []|]. intros (e & a & ? & ? & ? & I & _). inversion I.
  - injection E as <- <-. split; [intros []|]. intros (e & a & ? & ? & ? & I & _). inversion I.
  - injection E as <- <-. split; [intros []|]. intros (e & a' & ? & ? & ? & I & _). inversion I.
  - injection E as <- <-. split; [intros []|]. intros (e & a' & ? & ? & ? & I & _). inversion I.
  - rewrite make_block_eq in E. destruct (call_args _ _) as [kw|] eqn:C; [|discriminate]. cbv zeta in E.
    destruct (make_all f _) as [[c p1]|] eqn:M; [|discriminate].
    destruct (controllers f) as [|a1 [|]] eqn:CF; try discriminate. injection E as <- <-.
    rewrite in_app_iff, (proj2 (make_all_in _ _ _ _ M)). rewrite Forall_forall in IH. split.
    + intros [(s & c' & p' & I & E' & J)|[<-|[]]].
      * apply (IH s I _ _ _ E') in J. destruct J as (e & a' & yn' & yd' & f' & J & B).
        exists e, a', yn', yd', f'. split; [|exact B]. eapply re_block; eauto.
      * exists env, a, yn, yd, f. split; [constructor|]. exists kw, a1, c. auto.
    + intros (e & a' & yn' & yd' & f' & J & B).
      inversion J as [? ? Q1 Q2|? ? ? ? ? kw' s ? ? C' I J'|? ? ? ? ? kw' s ? ? C' I J']; subst.
      * right. left. destruct B as (kw' & a2 & cs' & B1 & B2 & B3 & B4).
        rewrite C in B1. injection B1 as <-. rewrite CF in B2. injection B2 as <-.
        rewrite M in B3. injection B3 as <- E3. destruct x as [xa xp]. cbn in *. subst. reflexivity.
      * left. rewrite C in C'. injection C' as <-.
        destruct (make_all_each _ _ _ M s I) as (c' & p' & E'). exists s, c', p'. split; [exact I|].
        split; [exact E'|]. apply (IH s I _ _ _ E'). eauto 8.
  - rewrite make_include_eq in E. destruct (call_args _ _) as [kw|] eqn:C; [|discriminate].
    destruct (make_all f _) as [[c p1]|] eqn:M; [|discriminate].
    destruct (controllers f) as [|a1 ?]; try discriminate. injection E as <- <-.
    rewrite (proj2 (make_all_in _ _ _ _ M)). rewrite Forall_forall in IH. split.
    + intros (s & c' & p' & I & E' & J). apply (IH s I _ _ _ E') in J.
      destruct J as (e & a' & yn' & yd' & f' & J & B). exists e, a', yn', yd', f'. split; [|exact B].
      eapply re_include; eauto.
    + intros (e & a' & yn' & yd' & f' & J & B). inversion J as [|? ? ? ? ? kw' s ? ? C' I J'|]; subst.
      rewrite C in C'. injection C' as <-.
      destruct (make_all_each _ _ _ M s I) as (c' & p' & E'). exists s, c', p'. split; [exact I|].
      split; [exact E'|]. apply (IH s I _ _ _ E'). eauto 8.
Qed.

Lemma dget_dupdate e : forall d n, NoDup (dkeys e) ->
  dget n (dupdate d e) = match dget n e with Some v => Some v | None => dget n d end.
Proof.
  unfold dupdate. induction e as [|[k v] e IH]; intros d n H; [reflexivity|]. cbn [fold_left fst snd].
  inversion H as [|? ? H1 H2]; subst. rewrite IH by assumption. cbn [dget]. rewrite dget_dset.
  destruct (String.eqb n k) eqn:E; [|reflexivity]. apply String.eqb_eq in E. subst.
  assert (X : dget k e = None) by now apply dget_None_notin. now rewrite X.
Qed.
Lemma bind_keys takes : forall given kw, bind_args takes given = Some kw -> dkeys kw = map fst takes.
Proof.
  induction takes as [|[n d] r IH]; intros given kw H; cbn [bind_args] in H; [now injection H as <-|].
  destruct (match dget n given with Some v => Some v | None => d end); [|discriminate].
  destruct (bind_args r given) eqn:E; [|discriminate]. injection H as <-. cbn. f_equal. eapply IH; eauto.
Qed.
Lemma bind_get takes : forall given kw n d, NoDup (map fst takes) -> bind_args takes given = Some kw ->
  In (n, d) takes -> dget n kw = match dget n given with Some v => Some v | None => d end.
Proof.
  induction takes as [|[m e] r IH]; intros given kw n d N H I; [destruct I|]. cbn [bind_args] in H.
  inversion N as [|? ? N1 N2]; subst.
  destruct (match dget m given with Some v => Some v | None => e end) as [v|] eqn:E1; [|discriminate].
  destruct (bind_args r given) as [l|] eqn:E; [|discriminate]. injection H as <-. cbn [dget].
  destruct I as [I|I].
  - injection I as -> ->. rewrite String.eqb_refl. now rewrite E1.
  - assert (X : String.eqb n m = false).
    { apply String.eqb_neq. intros ->. apply N1. change m with (fst (m, d)). now apply in_map. }
    rewrite X. eapply IH; eauto.
Qed.

Lemma fold_params_get file d n : (forall v, ~ In (SParam n (Some v)) file) ->
  dget n (fold_left (fun d s => match s with
                                  | SParam n (Some v) => dset n (replace_str d v) d
                                  | _ => d
                                  end) file d) = dget n d.
Proof.
  revert d. induction file as [|s file IH]; intros d H; [reflexivity|]. cbn [fold_left].
  rewrite IH by (intros v I; apply (H v); now right).
  destruct s as [m [v|]| | | | |]; try reflexivity. rewrite dget_dset_other; [reflexivity|].
  intros ->. apply (H v). now left.
Qed.
Lemma fold_defines_get file d n : ~ defines_of file n ->
  dget n (fold_left (fun d s => match s with
                        | SDefine n v => dset n (replace_str d v) d
                        | _ => d
                        end) file d) = dget n d.
Proof.
  revert d. induction file as [|s file IH]; intros d H; [reflexivity|]. cbn [fold_left].
  rewrite IH by (intros (v & I); apply H; exists v; now right).
  destruct s as [|m v| | | |]; try reflexivity. rewrite dget_dset_other; [reflexivity|].
  intros ->. apply H. exists v. now left.
Qed.
Lemma takes_in file n d : In (n, d) (takes_arguments file) <-> In (SParam n d) file.
Proof.
  unfold takes_arguments. rewrite in_app_iff, !filter_In. unfold params. rewrite in_flat_map. split.
  - intros [[(s & I & J) _]|[(s & I & J) _]]; destruct s; try (now destruct J); destruct J as [J|[]];
      injection J as -> ->; assumption.
  - intros I. destruct d as [v|]; [right|left]; (split; [|reflexivity]);
      (eexists; split; [exact I|now left]).
Qed.
