From Coq Require Import String Bool Arith Lia List.
From Verif Require Import Base Proc_Model.
Import ListNotations.
Local Open Scope list_scope.
Local Open Scope nat_scope.

(* ---- the tree ---- *)
Definition left (cs : controllers) (tree : list string) : nat :=
  length (filter (fun k => negb (smem k tree)) (dkeys cs)).

Lemma filter_len_le {A} (f g : A -> bool) l : (forall x, In x l -> f x = true -> g x = true) ->
  length (filter f l) <= length (filter g l).
Proof.
  induction l as [|a l IH]; intros H; cbn; [lia|].
  assert (IH' : length (filter f l) <= length (filter g l)) by (apply IH; intros; apply H; cbn; auto).
  destruct (f a) eqn:F.
  - rewrite (H a) by (cbn; auto). cbn. lia.
  - destruct (g a); cbn; lia.
Qed.
Lemma filter_len_lt {A} (f g : A -> bool) l x : (forall x, In x l -> f x = true -> g x = true) ->
  In x l -> f x = false -> g x = true -> length (filter f l) < length (filter g l).
Proof.
  induction l as [|a l IH]; intros H I Fx Gx; [destruct I|].
  assert (H' : forall y, In y l -> f y = true -> g y = true) by (intros; apply H; cbn; auto).
  pose proof (filter_len_le f g l H'). cbn. destruct I as [->|I].
  - rewrite Fx, Gx. cbn. lia.
  - specialize (IH H' I Fx Gx). destruct (f a) eqn:F.
    + rewrite (H a) by (cbn; auto). cbn. lia.
    + destruct (g a); cbn; lia.
Qed.
Lemma left_mono cs t t' : incl t t' -> left cs t' <= left cs t.
Proof.
  intros I. apply filter_len_le. intros x _ H. apply negb_true_iff in H. apply negb_true_iff.
  apply smem_false in H. apply smem_false. intros X. apply H. now apply I.
Qed.
Lemma left_add cs t m : In m (dkeys cs) -> ~ In m t -> left cs (t ++ [m]) < left cs t.
Proof.
  intros I N. apply (filter_len_lt _ _ _ m); [|assumption| |].
  - intros x _ H. apply negb_true_iff in H. apply negb_true_iff. apply smem_false in H. apply smem_false.
    intros X. apply H. apply in_app_iff. auto.
  - apply negb_false_iff. apply smem_In. apply in_app_iff. cbn. auto.
  - apply negb_true_iff. now apply smem_false.
Qed.
Lemma left_le cs t : left cs t <= length cs.
Proof.
  unfold left. replace (length cs) with (length (dkeys cs)) by (apply map_length).
  generalize (dkeys cs). induction l; cbn; [lia|]. destruct (negb _); cbn; lia.
Qed.

(* what add_tree does: the tree grows by m, then by members of is_child *)
Definition grown (cs : controllers) (m : string) (acc acc' : list string * list string) : Prop :=
  exists rest, fst acc' = fst acc ++ m :: rest
    /\ incl (snd acc) (snd acc')
    /\ (forall x, In x rest -> In x (snd acc') /\ In x (dkeys cs))
    /\ (forall x parts, In x (m :: rest) -> dget x cs = Some parts ->
          (forall p, In p parts -> In p (snd acc')) /\ (forall p, In p parts -> In p (dkeys cs) -> In p (fst acc')))
    /\ (forall x, In x (snd acc') -> In x (snd acc) \/ exists y parts, In y (m :: rest) /\ dget y cs = Some parts /\ In x parts)
    /\ (NoDup (fst acc) -> ~ In m (fst acc) -> NoDup (fst acc')).

Lemma add_tree_ok cs : forall fuel m parts acc, dget m cs = Some parts -> ~ In m (fst acc) ->
  left cs (fst acc) <= fuel -> 0 < fuel ->
  exists acc', add_tree fuel cs m parts acc = Some acc' /\ grown cs m acc acc'.
Proof.
  induction fuel as [|fuel IH]; intros m parts acc D N L P; [lia|]. cbn [add_tree].
  destruct acc as [t c]. cbn [fst snd] in *.
  assert (L1 : left cs (t ++ [m]) < left cs t) by (apply left_add; [eapply dget_Some_key; eauto|assumption]).
  (* generalise over the parts done *)
  assert (G : forall todo done rest c',
    parts = done ++ todo ->
    incl c c' -> (forall x, In x rest -> In x c' /\ In x (dkeys cs)) ->
    (forall p, In p done -> In p c') -> (forall p, In p done -> In p (dkeys cs) -> In p (t ++ m :: rest)) ->
    (forall x ps, In x rest -> dget x cs = Some ps ->
       (forall p, In p ps -> In p c') /\ (forall p, In p ps -> In p (dkeys cs) -> In p (t ++ m :: rest))) ->
    (forall x, In x c' -> In x c \/ exists y ps, In y (m :: rest) /\ dget y cs = Some ps /\ In x ps) ->
    (NoDup t -> NoDup (t ++ m :: rest)) ->
    exists acc',
      fold_left (fun acc p =>
        match acc with
        | None => None
        | Some (tree, is_child) =>
          let is_child := p :: is_child in
          if smem p tree then Some (tree, is_child)
          else match dget p cs with
               | Some parts' => add_tree fuel cs p parts' (tree, is_child)
               | None => Some (tree, is_child)
               end
        end) todo (Some (t ++ m :: rest, c')) = Some acc' /\ grown cs m (t, c) acc').
  { induction todo as [|p todo IHt]; intros done rest c' E I1 I2 I3 I4 I5 I6 I7.
    - rewrite app_nil_r in E. subst done. eexists. split; [reflexivity|]. exists rest. cbn [fst snd].
      split; [reflexivity|]. split; [assumption|]. split; [assumption|]. split.
      + intros x ps [<-|X] Dx; [|now apply (I5 x ps)]. rewrite D in Dx. injection Dx as <-. auto.
      + split; [assumption|]. intros ND _. auto.
    - assert (Pp : In p parts) by (subst parts; apply in_app_iff; cbn; auto).
      assert (E' : parts = (done ++ [p]) ++ todo) by (rewrite <- app_assoc; exact E).
      cbn [fold_left]. cbv zeta. destruct (smem p (t ++ m :: rest)) eqn:S.
      + apply smem_In in S. apply (IHt (done ++ [p]) rest (p :: c')); auto.
        * intros x X. right. auto.
        * intros x X. destruct (I2 x X). cbn. auto.
        * intros q Q. apply in_app_iff in Q. cbn in *. destruct Q as [Q|[->|[]]]; auto.
        * intros q Q K. apply in_app_iff in Q. destruct Q as [Q|[->|[]]]; auto.
        * intros x ps X Dx. destruct (I5 x ps X Dx). split; [intros; cbn; auto|assumption].
        * intros x [<-|X]; [|auto]. right. exists m, parts. cbn. auto.
      + apply smem_false in S. destruct (dget p cs) as [ps|] eqn:Dp.
        * destruct (IH p ps (t ++ m :: rest, p :: c') Dp) as (acc2 & E2 & r2 & A1 & A2 & A3 & A4 & A5 & A6).
          { exact S. }
          { cbn [fst]. assert (left cs (t ++ m :: rest) <= left cs (t ++ [m])).
            { apply left_mono. intros x X. rewrite in_app_iff in *. cbn in *. tauto. } lia. }
          { assert (left cs (t ++ m :: rest ++ [p]) < left cs (t ++ m :: rest)).
            { replace (t ++ m :: rest ++ [p]) with ((t ++ m :: rest) ++ [p]) by (now rewrite <- app_assoc).
              apply left_add; [eapply dget_Some_key; eauto|assumption]. }
            assert (left cs (t ++ m :: rest) <= left cs (t ++ [m])).
            { apply left_mono. intros x X. rewrite in_app_iff in *. cbn in *. tauto. } lia. }
          cbn [fst snd] in *. rewrite E2. destruct acc2 as [t2 c2]. cbn [fst snd] in *.
          assert (T2 : t2 = t ++ m :: (rest ++ p :: r2)) by (rewrite A1, <- app_assoc; reflexivity).
          rewrite T2. apply (IHt (done ++ [p]) (rest ++ p :: r2) c2); auto.
          -- intros x X. apply A2. right. auto.
          -- intros x X. apply in_app_iff in X. destruct X as [X|[<-|X]].
             ++ destruct (I2 x X). split; [|assumption]. apply A2. right. assumption.
             ++ split; [apply A2; now left|eapply dget_Some_key; eauto].
             ++ now apply A3.
          -- intros q Q. apply in_app_iff in Q. destruct Q as [Q|[->|[]]]; apply A2; cbn; auto.
          -- intros q Q K. rewrite <- T2, A1, in_app_iff. apply in_app_iff in Q. destruct Q as [Q|[->|[]]]; [left|right; now left].
             auto.
          -- intros x qs X Dx. rewrite <- T2. apply in_app_iff in X. destruct X as [X|X].
             ++ destruct (I5 x qs X Dx) as [B1 B2]. split.
                ** intros q Q. apply A2. right. auto.
                ** intros q Q K. rewrite A1. apply in_app_iff. left. auto.
             ++ exact (A4 x qs X Dx).
          -- intros x X. destruct (A5 x X) as [[<-|Y]|(y & qs & Y & Z)].
             ++ right. exists m, parts. cbn. auto.
             ++ destruct (I6 x Y) as [W|(y & qs & W & Z)]; [auto|]. right. exists y, qs. split; [|assumption].
                destruct W as [<-|W]; [now left|right]. apply in_app_iff. auto.
             ++ right. exists y, qs. split; [|assumption]. right. apply in_app_iff. auto.
          -- intros ND. rewrite <- T2. apply A6; auto.
        * apply (IHt (done ++ [p]) rest (p :: c')); auto.
          -- intros x X. right. auto.
          -- intros x X. destruct (I2 x X). cbn. auto.
          -- intros q Q. apply in_app_iff in Q. cbn in *. destruct Q as [Q|[->|[]]]; auto.
          -- intros q Q K. apply in_app_iff in Q. destruct Q as [Q|[->|[]]]; auto.
             apply dget_None_notin in Dp. contradiction.
          -- intros x qs X Dx. destruct (I5 x qs X Dx). split; [intros; cbn; auto|assumption].
          -- intros x [<-|X]; [|auto]. right. exists m, parts. cbn. auto. }
  apply (G parts [] [] c); cbn; auto; try tauto.
  - intros x X. exact X.
  - intros ND. clear - ND N. induction t as [|y t IHt]; cbn in *; [constructor; [tauto|constructor]|].
    apply NoDup_cons_iff in ND. destruct ND as [A B]. constructor; [|apply IHt; tauto].
    rewrite in_app_iff. cbn. intros [X|[X|[]]]; [auto|]. subst. tauto.
Qed.

(* the tree that is made *)
Record tree_ok (cs : controllers) (tree is_child : list string) : Prop := {
  tr_nodup : NoDup tree;
  tr_in : incl tree (dkeys cs);
  tr_all : forall m, In m (dkeys cs) -> In m tree \/ In m is_child;
  tr_child : forall x, In x is_child -> exists y parts, In y tree /\ dget y cs = Some parts /\ In x parts;
  tr_parts : forall y parts p, In y tree -> dget y cs = Some parts -> In p parts ->
               In p is_child /\ (In p (dkeys cs) -> In p tree);
  tr_roots : filter (fun m => negb (smem m is_child)) tree = filter (fun m => negb (smem m is_child)) (dkeys cs) }.

Lemma filter_app' {A} (f : A -> bool) l1 l2 : filter f (l1 ++ l2) = filter f l1 ++ filter f l2.
Proof. apply filter_app. Qed.
Lemma filter_none {A} (f : A -> bool) l : (forall x, In x l -> f x = false) -> filter f l = [].
Proof. induction l as [|a l IH]; intros H; cbn; [reflexivity|]. rewrite (H a) by (cbn; auto). apply IH. intros; apply H; cbn; auto. Qed.

Lemma make_tree_ok cs : NoDup (dkeys cs) -> exists tree is_child, make_tree cs = Some (tree, is_child) /\ tree_ok cs tree is_child.
Proof.
  intros ND. unfold make_tree.
  set (F := fun acc c => match acc with
    | None => None
    | Some (tree, is_child) =>
      if smem (fst c) is_child then Some (tree, is_child)
      else add_tree (S (length cs)) cs (fst c) (snd c) (tree, is_child)
    end).
  assert (G : forall todo done tree c, cs = done ++ todo -> NoDup tree -> incl tree (dkeys cs) ->
    (forall m, In m tree -> In m (dkeys done) \/ In m c) ->
    (forall m, In m (dkeys done) -> In m tree \/ In m c) ->
    (forall x, In x c -> exists y parts, In y tree /\ dget y cs = Some parts /\ In x parts) ->
    (forall y parts p, In y tree -> dget y cs = Some parts -> In p parts -> In p c /\ (In p (dkeys cs) -> In p tree)) ->
    (forall f, incl c f -> filter (fun m => negb (smem m f)) tree = filter (fun m => negb (smem m f)) (dkeys done)) ->
    exists t' c', fold_left F todo (Some (tree, c)) = Some (t', c') /\ tree_ok cs t' c').
  { induction todo as [|[m parts] todo IH]; intros done tree c E N I0 I1 I2 I3 I4 I5.
    - rewrite app_nil_r in E. subst done. exists tree, c. split; [reflexivity|]. constructor; auto. apply I5. intros x X; exact X.
    - cbn [fold_left]. assert (E' : cs = (done ++ [(m, parts)]) ++ todo) by (rewrite <- app_assoc; exact E).
      assert (K : dkeys (done ++ [(m, parts)]) = dkeys done ++ [m]) by (unfold dkeys; now rewrite map_app).
      assert (D : dget m cs = Some parts).
      { apply dget_In_nodup; [assumption|]. rewrite E. apply in_app_iff. cbn. auto. }
      assert (Nd : ~ In m (dkeys done)).
      { rewrite E in ND. unfold dkeys in ND. rewrite map_app in ND. cbn in ND. apply NoDup_remove_2 in ND.
        intros X. apply ND. apply in_app_iff. auto. }
      unfold F at 2. cbn [fst snd]. destruct (smem m c) eqn:S.
      + apply smem_In in S. apply (IH (done ++ [(m, parts)]) tree c); auto.
        * intros x X. rewrite K, in_app_iff. destruct (I1 x X); auto.
        * intros x X. rewrite K, in_app_iff in X. destruct X as [X|[<-|[]]]; auto.
        * intros f If. rewrite K, filter_app'. cbn [filter]. rewrite (I5 f If).
          replace (smem m f) with true by (symmetry; apply smem_In; auto). cbn. now rewrite app_nil_r.
      + apply smem_false in S.
        assert (Nt : ~ In m tree) by (intros X; destruct (I1 m X); auto).
        destruct (add_tree_ok cs (Datatypes.S (length cs)) m parts (tree, c) D Nt) as ([t2 c2] & E2 & r & A1 & A2 & A3 & A4 & A5 & A6).
        { cbn [fst]. pose proof (left_le cs tree). lia. } { lia. }
        cbn [fst snd] in *. rewrite E2. apply (IH (done ++ [(m, parts)]) t2 c2); auto.
        * intros x X. rewrite A1 in X. apply in_app_iff in X. destruct X as [X|[<-|X]]; auto.
          -- eapply dget_Some_key; eauto.
          -- now apply A3.
        * intros x X. rewrite K, in_app_iff. cbn. rewrite A1 in X. apply in_app_iff in X. destruct X as [X|[<-|X]]; auto.
          -- destruct (I1 x X); auto.
          -- right. now apply A3.
        * intros x X. rewrite K, in_app_iff in X. rewrite A1, in_app_iff. cbn in *. destruct X as [X|[<-|[]]]; auto.
          destruct (I2 x X); auto.
        * intros x X. destruct (A5 x X) as [Y|(y & ps & Y & Z)].
          -- destruct (I3 x Y) as (y & ps & Y1 & Y2). exists y, ps. split; [|assumption]. rewrite A1. apply in_app_iff. auto.
          -- exists y, ps. split; [|assumption]. rewrite A1. apply in_app_iff. auto.
        * intros y ps p Y Dy P. rewrite A1 in Y. apply in_app_iff in Y. destruct Y as [Y|Y].
          -- destruct (I4 y ps p Y Dy P) as [B1 B2]. split; [now apply A2|]. intros Q. rewrite A1. apply in_app_iff. auto.
          -- destruct (A4 y ps Y Dy) as [B1 B2]. auto.
        * intros f If. rewrite K, A1, !filter_app'. f_equal.
          -- apply I5. intros x X. auto.
          -- cbn [filter]. rewrite (filter_none _ r); [reflexivity|].
             intros x X. apply negb_false_iff. apply smem_In. apply If. now apply A3. }
  apply (G cs [] [] []); cbn; auto; try tauto.
  - constructor.
  - intros x [].
Qed.

(* ---- kids ---- *)
Lemma dedup_spec l : forall acc, NoDup acc ->
  NoDup (fold_left (fun l p => if smem p l then l else l ++ [p]) l acc)
  /\ forall x, In x (fold_left (fun l p => if smem p l then l else l ++ [p]) l acc) <-> In x acc \/ In x l.
Proof.
  induction l as [|a l IH]; intros acc N; cbn [fold_left].
  - split; [assumption|]. cbn. tauto.
  - destruct (smem a acc) eqn:S.
    + apply smem_In in S. destruct (IH acc N) as [A B]. split; [assumption|]. intros x. rewrite B. cbn.
      split; [tauto|]. intros [X|[<-|X]]; auto.
    + apply smem_false in S. destruct (IH (acc ++ [a])) as [A B].
      { clear - N S. induction acc as [|y acc IH]; cbn; [constructor; [tauto|constructor]|].
        apply NoDup_cons_iff in N. destruct N as [N1 N2]. cbn in S. constructor; [|apply IH; tauto].
        rewrite in_app_iff. cbn. intros [X|[X|[]]]; [auto|]. apply S. auto. }
      split; [assumption|]. intros x. rewrite B, in_app_iff. cbn. tauto.
Qed.
Lemma kids_spec cs m x : In x (kids cs m) <-> exists parts, dget m cs = Some parts /\ In x parts /\ In x (dkeys cs).
Proof.
  unfold kids. destruct (dget m cs) as [parts|].
  - destruct (dedup_spec (filter (fun p => dmem p cs) parts) [] (NoDup_nil _)) as [_ B]. rewrite B, filter_In.
    assert (K : dmem x cs = true <-> In x (dkeys cs)) by apply dmem_In.
    split.
    + intros [[]|[X Y]]. exists parts. apply K in Y. auto.
    + intros (ps & E & X & Y). injection E as <-. right. apply K in Y. auto.
  - split; [intros []|]. intros (ps & E & _). discriminate.
Qed.

(* ---- the walk ---- *)
Inductive reach (cs : controllers) : string -> string -> Prop :=
| reach_here : forall k, reach cs k k
| reach_kid : forall k j m, In j (kids cs k) -> reach cs j m -> reach cs k m.

Lemma put_spec unp l : forall p, NoDup p ->
  let p' := fold_left (fun p k => if smem k p || smem k unp then p else p ++ [k]) l p in
  exists q, p' = p ++ q /\ NoDup p' /\ (forall x, In x q -> In x l /\ ~ In x unp)
    /\ forall x, In x l -> ~ In x unp -> In x p'.
Proof.
  induction l as [|a l IH]; intros p N; cbn [fold_left].
  - exists []. rewrite app_nil_r. cbn. firstorder.
  - destruct (smem a p || smem a unp) eqn:S.
    + destruct (IH p N) as (q & A & B & C & D). exists q. split; [assumption|]. split; [assumption|]. split.
      * intros x X. destruct (C x X). cbn. auto.
      * intros x [<-|X] U; [|auto]. apply orb_prop in S. destruct S as [S|S]; apply smem_In in S; [|contradiction].
        cbv zeta in A. rewrite A. apply in_app_iff. auto.
    + apply orb_false_elim in S. destruct S as [S1 S2]. apply smem_false in S1. apply smem_false in S2.
      destruct (IH (p ++ [a])) as (q & A & B & C & D).
      { clear - N S1. induction p as [|y p IH]; cbn; [constructor; [tauto|constructor]|].
        apply NoDup_cons_iff in N. destruct N as [N1 N2]. cbn in S1. constructor; [|apply IH; tauto].
        rewrite in_app_iff. cbn. intros [X|[X|[]]]; [auto|]. apply S1. auto. }
      exists (a :: q). split; [cbv zeta in *; rewrite A, <- app_assoc; reflexivity|]. split; [assumption|]. split.
      * intros x [<-|X]; [cbn; auto|]. destruct (C x X). cbn. auto.
      * intros x [<-|X] U; [|auto]. cbv zeta in A |- *. rewrite A. rewrite in_app_iff. left. apply in_app_iff. cbn. auto.
Qed.

Lemma walk_spec cs unp : forall n not_here level p p', walk n cs unp not_here level p = Some p' -> NoDup p ->
  exists q, p' = fold_left (fun p k => if smem k p || smem k unp then p else p ++ [k])
                   (filter (fun k => negb (smem k not_here)) level) p ++ q
    /\ NoDup p' /\ (forall x, In x p' -> In x p \/ exists k, In k level /\ ~ In k not_here /\ reach cs k x /\ ~ In x unp)
    /\ (forall x, In x q -> exists k j, In k level /\ ~ In k not_here /\ In j (kids cs k) /\ reach cs j x)
    /\ forall k x, In k level -> ~ In k not_here -> reach cs k x -> ~ In x unp -> In x p'.
Proof.
  induction n as [|n IH]; intros not_here level p p' H N; cbn [walk] in H; [discriminate|]. cbv zeta in H.
  set (here := filter (fun k => negb (smem k not_here)) level) in *.
  assert (Hh : forall k, In k here <-> In k level /\ ~ In k not_here).
  { intros k. unfold here. rewrite filter_In, negb_true_iff, smem_false. tauto. }
  destruct (put_spec unp here p N) as (q0 & A0 & B0 & C0 & D0). cbv zeta in *.
  set (p0 := fold_left (fun p k => if smem k p || smem k unp then p else p ++ [k]) here p) in *.
  assert (Sub : forall k, In k here -> In k here) by auto. revert Sub.
  assert (G : forall todo p1 p', (forall k, In k todo -> In k here) -> NoDup p1 ->
    fold_left (fun acc k => match acc with
      | None => None
      | Some p => match kids cs k with [] => Some p | ks => walk n cs unp [] ks p end end) todo (Some p1) = Some p' ->
    exists q, p' = p1 ++ q /\ NoDup p'
      /\ (forall x, In x q -> ~ In x unp /\ exists k j, In k here /\ In j (kids cs k) /\ reach cs j x)
      /\ forall k j x, In k todo -> In j (kids cs k) -> reach cs j x -> ~ In x unp -> In x p').
  { induction todo as [|k todo IHt]; intros p1 p2 Sub N1 H1; cbn [fold_left] in H1.
    - injection H1 as <-. exists []. rewrite app_nil_r. split; [reflexivity|]. split; [assumption|]. split; [intros x []|intros k j x []].
    - destruct (kids cs k) as [|j0 ks] eqn:K.
      + destruct (IHt p1 p2 (fun x X => Sub x (or_intror X)) N1 H1) as (q & A & B & C & D).
        exists q. split; [assumption|]. split; [assumption|]. split; [assumption|].
        intros k' j x [<-|X] J; [rewrite K in J; destruct J|]. now apply (D k').
      + destruct (walk n cs unp [] (j0 :: ks) p1) as [p3|] eqn:W.
        2:{ exfalso. clear - H1. induction todo as [|a todo IH]; cbn in H1; [discriminate|auto]. }
        destruct (IH _ _ _ _ W N1) as (q1 & A1 & B1 & C1 & D1 & E1).
        destruct (IHt p3 p2 (fun x X => Sub x (or_intror X)) B1 H1) as (q & A & B & C & D).
        assert (P3 : exists r, p3 = p1 ++ r /\ forall x, In x r -> In x p3 /\ ~ In x p1).
        { destruct (put_spec unp (filter (fun k => negb (smem k [])) (j0 :: ks)) p1 N1) as (q2 & A2 & _).
          cbv zeta in A2. rewrite A2 in A1. rewrite <- app_assoc in A1. exists (q2 ++ q1). split; [assumption|].
          intros x X. split; [rewrite A1; apply in_app_iff; auto|]. intros Y. rewrite A1 in B1. clear - B1 X Y.
          induction p1 as [|a p1 IH]; [destruct Y|]. cbn in B1. apply NoDup_cons_iff in B1. destruct B1 as [B1 B2].
          destruct Y as [->|Y]; [apply B1; apply in_app_iff; auto|auto]. }
        destruct P3 as (r & P3 & R).
        exists (r ++ q). split; [rewrite A, P3, app_assoc; reflexivity|]. split; [assumption|]. split.
        * intros x X. apply in_app_iff in X. destruct X as [X|X]; [|now apply C].
          destruct (R x X) as [R1 R2]. destruct (C1 x R1) as [Y|(j & J1 & _ & J2 & J3)]; [contradiction|].
          split; [assumption|]. exists k, j. split; [apply Sub; now left|]. rewrite K. auto.
        * intros k' j x [<-|X] J Rj U.
          -- rewrite K in J. rewrite A. apply in_app_iff. left. apply (E1 j x J); auto.
          -- now apply (D k' j). }
  intros Sub. destruct (G here p0 p' Sub B0 H) as (q & A & B & C & D).
  exists q. split; [assumption|]. split; [assumption|]. split; [|split].
  - intros x X. rewrite A, A0 in X. rewrite !in_app_iff in X. destruct X as [[X|X]|X]; auto.
    + right. destruct (C0 x X) as [Y1 Y2]. apply Hh in Y1. exists x. destruct Y1. repeat split; auto. constructor.
    + right. destruct (C x X) as (U & k & j & K1 & K2 & K3). apply Hh in K1. exists k. destruct K1. repeat split; auto.
      eapply reach_kid; eauto.
  - intros x X. destruct (C x X) as (U & k & j & K1 & K2 & K3). apply Hh in K1. destruct K1. eauto 7.
  - intros k x K1 K2 Rk U. destruct Rk as [k|k j x J Rj].
    + rewrite A. apply in_app_iff. left. apply D0; [apply Hh; auto|assumption].
    + apply (D k j); auto. apply Hh; auto.
Qed.

(* the walk ends where the ranks go down *)
Lemma walk_ends cs unp (r : string -> nat) :
  (forall m k, In k (kids cs m) -> r k < r m) ->
  forall n not_here level p, (forall k, In k level -> r k < n) -> 0 < n ->
  exists p', walk n cs unp not_here level p = Some p'.
Proof.
  intros R. induction n as [|n IH]; intros not_here level p L P; [lia|]. cbn [walk]. cbv zeta.
  set (here := filter (fun k => negb (smem k not_here)) level).
  assert (Hh : forall k, In k here -> r k < S n) by (intros k K; apply filter_In in K; apply L; tauto).
  generalize (fold_left (fun p k => if smem k p || smem k unp then p else p ++ [k]) here p). revert Hh.
  generalize here. clear here L. intros todo.
  induction todo as [|k todo IHt]; intros Hh p1; cbn [fold_left]; [eauto|].
  destruct (kids cs k) as [|j ks] eqn:K.
  - apply IHt. intros x X. apply Hh. now right.
  - destruct (IH [] (j :: ks) p1) as [p2 E].
    + intros x X. rewrite <- K in X. apply R in X. specialize (Hh k (or_introl eq_refl)). lia.
    + assert (r j < r k) by (apply R; rewrite K; now left). specialize (Hh k (or_introl eq_refl)). lia.
    + rewrite E. apply IHt. intros x X. apply Hh. now right.
Qed.

(* what is published *)
Lemma published cs unp limit (r : string -> nat) : NoDup (dkeys cs) ->
  (forall m k, In k (kids cs m) -> r k < r m) -> (forall m, In m (dkeys cs) -> r m < limit) -> 0 < limit ->
  exists l rest, publish limit cs unp = Some l /\ NoDup l
    /\ (forall m, In m l <-> In m (dkeys cs) /\ ~ In m unp)
    /\ l = filter (fun m => negb (smem m unp) && forallb (fun c => negb (smem m (snd c))) cs) (dkeys cs) ++ rest
    /\ (forall m, In m rest -> exists c parts, dget c cs = Some parts /\ In m parts).
Proof.
  intros ND R L P. unfold publish. destruct (make_tree_ok cs ND) as (tree & c & -> & T).
  destruct (walk_ends cs unp r R limit c tree [] ) as [l W]; [intros k K; apply L; now apply (tr_in _ _ _ T)|assumption|].
  rewrite W. destruct (walk_spec cs unp _ _ _ _ _ W (NoDup_nil _)) as (q & A & B & C & D & E).
  assert (Bound : forall y, In y (dkeys cs) -> r y < limit) by auto.
  assert (Up : forall d m, limit - r m <= d -> In m (dkeys cs) -> exists k, In k tree /\ ~ In k c /\ reach cs k m).
  { induction d as [|d IHd]; intros m X I; [specialize (Bound m I); lia|].
    destruct (in_dec String.string_dec m c) as [Ic|Ic].
    - destruct (tr_child _ _ _ T m Ic) as (y & parts & Y1 & Y2 & Y3).
      assert (Ky : In m (kids cs y)) by (apply kids_spec; eauto).
      assert (Iy : In y (dkeys cs)) by (eapply dget_Some_key; eauto).
      destruct (IHd y) as (k & K1 & K2 & K3); [specialize (R y m Ky); specialize (Bound y Iy); lia|assumption|].
      exists k. split; [assumption|]. split; [assumption|]. clear - K3 Ky. induction K3.
      + eapply reach_kid; [exact Ky|constructor].
      + eapply reach_kid; eauto.
    - destruct (tr_all _ _ _ T m I) as [It|It]; [|contradiction]. exists m. split; [assumption|]. split; [assumption|constructor]. }
  assert (Reach : forall k m, reach cs k m -> In k tree -> In m tree /\ (m = k \/ In m c)).
  { intros k m H. induction H as [k|k j m J H IH]; intros I; [auto|].
    apply kids_spec in J. destruct J as (parts & J1 & J2 & J3).
    destruct (tr_parts _ _ _ T k parts j I J1 J2) as [J4 J5]. destruct (IH (J5 J3)) as [X [->|Y]]; auto. }
  exists l, q. split; [reflexivity|]. split; [assumption|]. split; [|split].
  - intros m. split.
    + intros X. destruct (C m X) as [[]|(k & K1 & K2 & K3 & K4)]. split; [|assumption].
      apply (tr_in _ _ _ T). now apply (Reach k m).
    + intros [I U]. destruct (Up (limit - r m) m (le_n _) I) as (k & K1 & K2 & K3). apply (E k m); auto.
  - etransitivity; [exact A|]. f_equal. rewrite (tr_roots _ _ _ T).
    assert (Ch : forall m, In m (dkeys cs) -> smem m c = negb (forallb (fun x => negb (smem m (snd x))) cs)).
    { intros m I. destruct (smem m c) eqn:S.
      - apply smem_In in S. symmetry. apply negb_true_iff. apply not_true_iff_false. intros X.
        rewrite forallb_forall in X. destruct (tr_child _ _ _ T m S) as (y & parts & Y1 & Y2 & Y3).
        apply dget_Some_In in Y2. specialize (X _ Y2). cbn in X. apply negb_true_iff in X. apply smem_false in X. auto.
      - symmetry. apply negb_false_iff. apply forallb_forall. intros [y parts] Y. cbn. apply negb_true_iff. apply smem_false.
        intros X. apply smem_false in S. apply S.
        assert (Iy : In y (dkeys cs)) by (apply in_map with (f := fst) in Y; exact Y).
        assert (Dy : dget y cs = Some parts) by (apply dget_In_nodup; auto).
        assert (Ty : In y tree).
        { destruct (Up (limit - r y) y (le_n _) Iy) as (k & K1 & K2 & K3). now apply (Reach k y). }
        now apply (tr_parts _ _ _ T y parts m Ty Dy X). }
    assert (F : forall f : string -> bool, (forall m, In m (dkeys cs) -> f m = negb (smem m c)) ->
      filter (fun m => negb (smem m unp) && f m) (dkeys cs)
      = filter (fun m => negb (smem m unp)) (filter (fun m => negb (smem m c)) (dkeys cs))).
    { intros f Hf. revert Hf. generalize (dkeys cs). clear. induction l as [|a l IH]; intros Hf; [reflexivity|].
      cbn [filter]. rewrite IH by (intros; apply Hf; cbn; auto). rewrite (Hf a) by (cbn; auto).
      destruct (smem a c); cbn; [now rewrite andb_false_r|]. rewrite andb_true_r. reflexivity. }
    rewrite (F (fun m => forallb (fun x => negb (smem m (snd x))) cs)) by (intros m I; rewrite (Ch m I), negb_involutive; reflexivity).
    assert (NDf : NoDup (filter (fun m => negb (smem m c)) (dkeys cs))) by (now apply NoDup_filter).
    revert NDf. generalize (filter (fun m => negb (smem m c)) (dkeys cs)). clear.
    assert (H : forall l p, NoDup l -> (forall x, In x l -> ~ In x p) ->
      fold_left (fun p k => if smem k p || smem k unp then p else p ++ [k]) l p = p ++ filter (fun m => negb (smem m unp)) l).
    { induction l as [|a l IH]; intros p N X; cbn [fold_left filter]; [now rewrite app_nil_r|].
      apply NoDup_cons_iff in N. destruct N as [N1 N2].
      assert (Sa : smem a p = false) by (apply smem_false; apply X; cbn; auto). rewrite Sa. cbn [orb].
      destruct (smem a unp); cbn [negb].
      - apply IH; [assumption|]. intros x Y. apply X. cbn; auto.
      - rewrite IH; [now rewrite <- app_assoc|assumption|]. intros x Y Z. apply in_app_iff in Z. destruct Z as [Z|[<-|[]]]; [|auto].
        apply (X x); cbn; auto. }
    intros l N. apply (H l []); auto.
  - intros m X. destruct (D m X) as (k & j & K1 & K2 & K3 & K4).
    apply kids_spec in K3. destruct K3 as (parts & K5 & K6 & K7).
    destruct (tr_parts _ _ _ T k parts j K1 K5 K6) as [K8 K9].
    destruct (Reach j m K4 (K9 K7)) as [_ [->|Y]]; [eauto|].
    destruct (tr_child _ _ _ T m Y) as (y & ps & _ & Z). eauto.
Qed.
