(* C92: a scan with an UnrollingPart is validated to one in which the axes to move are in one dimension,
   and which is run in the same steps. *)
From Coq Require Import String Bool ZArith QArith Lia Lqa List Permutation.
From Verif Require Import Base Expo_Model Expo_Props Dval_Model Dmul_Props Unroll_Model.
From Verif Require Scan_Model.
Import ListNotations.
Local Open Scope string_scope.
Local Open Scope list_scope.

(* ---- specification: [dims] of Dmul_Props are the dimensions of a generator ---- *)
(* The axes are in at most one of the dimensions. *)
Definition together (axes : list string) (ds : list dim) : Prop := (length (filter (hit axes) ds) <= 1)%nat.
(* The dimensions of a generator. *)
Definition dims_of (g : cgen) : list dim := dims (g_gens g) (g_squash g).
Definition size (ds : list dim) : Z := fold_right Z.mul 1%Z (map snd ds).
(* The names in a are those in b. *)
Definition same_names (a b : list string) : Prop := forall x, In x a <-> In x b.
(* The scan as asked for, with the axes squashed if they are not already. *)
Definition unrolled (axes : list string) (g g' : cgen) : Prop :=
  g_gens g' = g_gens g
  /\ (g_squash g' = g_squash g /\ (exists ex, In ex (g_squash g) /\ same_names ex axes)
      \/ g_squash g' = g_squash g ++ [axes] /\ forall ex, In ex (g_squash g) -> ~ same_names ex axes).

(* ---- proofs ---- *)
Lemma subset_In a b : subset a b = true <-> incl a b.
Proof. unfold subset, incl. rewrite forallb_forall. split; intros H x I; [now apply smem_In, H|now apply smem_In, H]. Qed.
Lemma same_set_names a b : same_set a b = true <-> same_names a b.
Proof. unfold same_set, same_names. rewrite andb_true_iff, !subset_In. unfold incl. firstorder. Qed.
Lemma hit_spec ex d : hit ex d = true <-> exists a, In a (fst d) /\ In a ex.
Proof. unfold hit. rewrite existsb_exists. split; intros (a & I & J); exists a; split; auto; now apply smem_In. Qed.
Lemma hit_names a b d : same_names a b -> hit a d = hit b d.
Proof. intros S. apply eq_true_iff_eq. rewrite !hit_spec. split; intros (x & I & J); exists x; split; auto; now apply S. Qed.
Lemma filter_names a b ds : same_names a b -> filter (hit a) ds = filter (hit b) ds.
Proof. intros S. induction ds as [|d r IH]; [reflexivity|]. cbn [filter]. rewrite (hit_names a b d S), IH. reflexivity. Qed.

(* the three parts of a merge *)
Definition mid (ex : list string) (ds : list dim) := rev (drop_no ex (rev (drop_no ex ds))).
Definition post (ex : list string) (ds : list dim) := rev (take_no ex (rev (drop_no ex ds))).
Lemma merge_parts ex ds : merge ds ex = take_no ex ds ++ one (mid ex ds) ++ post ex ds.
Proof. reflexivity. Qed.
Lemma parts_all ex ds : ds = take_no ex ds ++ mid ex ds ++ post ex ds.
Proof. unfold mid, post. now rewrite <- rev_app_distr, take_drop, rev_involutive, take_drop. Qed.
Lemma take_no_hit ex ds : filter (hit ex) (take_no ex ds) = [].
Proof. induction ds as [|d r IH]; [reflexivity|]. cbn. destruct (hit ex d) eqn:E; [reflexivity|]. cbn. now rewrite E. Qed.
Lemma filter_rev (f : dim -> bool) l : filter f (rev l) = rev (filter f l).
Proof. induction l as [|x r IH]; [reflexivity|]. cbn. rewrite filter_app, IH. cbn. destruct (f x); cbn; [reflexivity|now rewrite app_nil_r]. Qed.
Lemma post_no_hit ex ds : filter (hit ex) (post ex ds) = [].
Proof. unfold post. now rewrite filter_rev, take_no_hit. Qed.
Lemma one_count ex ds : (length (filter (hit ex) (one ds)) <= length (filter (hit ex) ds))%nat.
Proof.
  destruct ds as [|d r] eqn:E; [reflexivity|]. rewrite <- E. assert (O : one ds = [(concat (map fst ds), fold_right Z.mul 1%Z (map snd ds))]) by (now rewrite E).
  rewrite O. cbn [filter]. destruct (hit ex (concat (map fst ds), _)) eqn:H; [|cbn; lia]. apply hit_spec in H as (a & I & J). cbn [fst] in I.
  apply in_concat in I as (l & Il & Ia). apply in_map_iff in Il as (d0 & <- & Id). cbn [length].
  assert (F : In d0 (filter (hit ex) ds)) by (apply filter_In; split; [exact Id|now apply (hit_true ex d0 a)]). destruct (filter (hit ex) ds); [destruct F|cbn; lia].
Qed.
Lemma merge_count ex ex' ds : (length (filter (hit ex) (merge ds ex')) <= length (filter (hit ex) ds))%nat.
Proof. rewrite merge_parts. rewrite (parts_all ex' ds) at 4. rewrite !filter_app, !app_length. pose proof (one_count ex (mid ex' ds)). lia. Qed.
Lemma merge_together ex ds : together ex (merge ds ex).
Proof.
  unfold together. rewrite merge_parts, !filter_app, take_no_hit, post_no_hit, app_nil_r. cbn [Datatypes.app].
  destruct (mid ex ds) as [|d r]; [cbn; lia|]. unfold one. cbn [filter]. destruct (hit ex _); cbn; lia.
Qed.
Lemma dims_together axes sq : forall ds, (together axes ds \/ exists ex, In ex sq /\ same_names ex axes) -> together axes (dims ds sq).
Proof.
  unfold dims. induction sq as [|e sq IH]; intros ds H; cbn [fold_left]; [destruct H as [H|(? & [] & _)]; exact H|]. apply IH. destruct H as [H|(ex & [<-|I] & S)].
  - left. unfold together in *. pose proof (merge_count axes e ds). lia.
  - left. pose proof (merge_together e ds) as M. unfold together in *. now rewrite <- (filter_names e axes _ S).
  - eauto.
Qed.
Lemma size_app a b : size (a ++ b) = (size a * size b)%Z.
Proof. unfold size. induction a as [|d r IH]; cbn [Datatypes.app map fold_right]; [now destruct (fold_right _ _ _)|]. rewrite IH. lia. Qed.
Lemma size_one ds : size (one ds) = size ds.
Proof. destruct ds; [reflexivity|]. unfold one, size. cbn [map snd fold_right]. lia. Qed.
Lemma merge_size ex ds : size (merge ds ex) = size ds.
Proof. rewrite merge_parts. rewrite (parts_all ex ds) at 4. now rewrite !size_app, size_one. Qed.
Lemma dims_kept sq : forall ds, size (dims ds sq) = size ds /\ concat (map fst (dims ds sq)) = concat (map fst ds).
Proof.
  unfold dims. induction sq as [|e sq IH]; intros ds; cbn [fold_left]; [auto|]. destruct (IH (merge ds e)) as [A B]. rewrite A, B, merge_size, merge_concat. auto.
Qed.

(* what a round may leave *)
Lemma unroll_some axes g x : unroll true axes g = Some x -> (2 <= length axes)%nat /\ x = mkGen (g_gens g) (g_squash g ++ [axes]) (g_dur g)
  /\ forall ex, In ex (g_squash g) -> ~ same_names ex axes.
Proof.
  unfold unroll. cbn [negb]. destruct (Nat.leb_spec (length axes) 1); [discriminate|]. destruct (existsb _ _) eqn:E; [discriminate|]. intros [=<-]. split; [lia|]. split; [reflexivity|].
  intros ex I S. apply same_set_names in S. assert (X : existsb (fun ex => same_set ex axes) (g_squash g) = true) by (apply existsb_exists; eauto). congruence.
Qed.
Lemma unroll_none axes g : unroll true axes g = None -> (2 <= length axes)%nat -> exists ex, In ex (g_squash g) /\ same_names ex axes.
Proof.
  unfold unroll. cbn [negb]. intros H L. destruct (Nat.leb_spec (length axes) 1); [lia|]. destruct (existsb _ _) eqn:E; [|discriminate].
  apply existsb_exists in E as (ex & I & S). exists ex. split; [exact I|now apply same_set_names].
Qed.
Lemma answers_same os g : forall l x, answers os g = Ok l -> In x l -> exists d, x = mkGen (g_gens g) (g_squash g) d.
Proof.
  induction os as [|o r IH]; intros l x A I; cbn [answers] in A; [injection A as <-; destruct I|].
  destruct (o g) as [[d|]|e]; destruct (answers r g) as [l'|e']; try discriminate; injection A as <-; [destruct I as [<-|I]; eauto|eauto].
Qed.
Lemma resolve_body x xs : g_gens (resolve x xs) = g_gens x /\ g_squash (resolve x xs) = g_squash x.
Proof. destruct xs; split; reflexivity. Qed.
Lemma round_ok p axes det g l : round p axes det g = Ok l ->
  exists l', answers (u_others p) g = Ok l' /\ l = match unroll (u_visible p) axes g with Some x => x :: l' | None => l' end.
Proof.
  unfold round. destruct (match u_allowed p with Some al => simultaneous al axes | None => true end); [|discriminate].
  destruct (match u_double p with Some mri => double_trigger mri det | None => true end); [|discriminate].
  destruct (answers (u_others p) g) as [l'|]; [|discriminate]. intros [=<-]. eauto.
Qed.
(* either as it was, or squashed *)
Definition either (axes : list string) (g h : cgen) : Prop :=
  g_gens h = g_gens g /\ (g_squash h = g_squash g \/ g_squash h = g_squash g ++ [axes] /\ forall ex, In ex (g_squash g) -> ~ same_names ex axes).
Lemma either_next p axes det g h l x xs : u_visible p = true -> either axes g h -> round p axes det h = Ok l -> Permutation l (x :: xs) -> either axes g (resolve x xs).
Proof.
  intros V (G & S) R P. destruct (resolve_body x xs) as [Gr Sr]. unfold either. rewrite Gr, Sr. apply round_ok in R as (l' & A & E). rewrite V in E.
  assert (I : In x l) by (apply (Permutation_in x (Permutation_sym P)); now left). destruct (unroll true axes h) as [y|] eqn:U.
  - rewrite E in I. apply unroll_some in U as (L & -> & N). destruct I as [<-|I].
    + cbn [g_gens g_squash]. split; [exact G|]. destruct S as [S|[S N']].
      * right. rewrite S in N |- *. auto.
      * exfalso. apply (N axes); [rewrite S; apply in_or_app; right; now left|firstorder].
    + destruct (answers_same _ _ _ _ A I) as [d ->]. cbn [g_gens g_squash]. auto.
  - rewrite E in I. destruct (answers_same _ _ _ _ A I) as [d ->]. cbn [g_gens g_squash]. auto.
Qed.
Lemma settled_either p axes det g n h o : u_visible p = true -> (2 <= length axes)%nat -> validates p axes det n h o -> either axes g h ->
  forall r, o = Settled r -> unrolled axes g r.
Proof.
  intros V L H. induction H as [h|n h e R|n h R|n h l x xs o R P H IH]; intros E r Q; try discriminate.
  - injection Q as <-. apply round_ok in R as (l' & A & El). rewrite V in El. destruct (unroll true axes h) as [y|] eqn:U; [discriminate|].
    destruct (unroll_none axes h U L) as (ex & I & S). destruct E as (G & [Sq|[Sq N]]).
    + split; [exact G|]. left. split; [exact Sq|]. rewrite Sq in I. eauto.
    + split; [exact G|]. right. auto.
  - apply IH; [|exact Q]. eapply either_next; eassumption.
Qed.

Theorem C92_unrolled : forall p axes det n g g', u_visible p = true -> (2 <= length axes)%nat -> validates p axes det n g (Settled g') ->
  unrolled axes g g' /\ together axes (dims_of g')
  /\ size (dims_of g') = size (dims_of g) /\ concat (map fst (dims_of g')) = concat (map fst (dims_of g)).
Proof.
  intros p axes det n g g' V L H. assert (U : unrolled axes g g') by (apply (settled_either p axes det g n g _ V L H); [split; [reflexivity|now left]|reflexivity]).
  split; [exact U|]. destruct U as (G & S). unfold dims_of. rewrite G. destruct (dims_kept (g_squash g') (g_gens g)) as [-> ->], (dims_kept (g_squash g) (g_gens g)) as [-> ->].
  split; [|auto]. apply dims_together. right. destruct S as [[-> X]|[-> N]]; [exact X|]. exists axes. split; [apply in_or_app; right; now left|firstorder].
Qed.
Print Assumptions C92_unrolled.

(* ---- it settles ---- *)
(* The guards let the scan through: no axis but those that may move, and two frames for the detector. *)
Definition allowed (p : parts) (axes : list string) (det : option (list drow)) : Prop :=
  (forall al, u_allowed p = Some al -> incl axes al)
  /\ (forall mri, u_double p = Some mri -> exists rows, det = Some rows
        /\ forall r, In r rows -> r_mri r = mri -> r_enable r = true -> r_frames r = 2%Z).
Lemma double_spec mri det : double_trigger mri det = true <-> exists rows, det = Some rows /\ forall r, In r rows -> r_mri r = mri -> r_enable r = true -> r_frames r = 2%Z.
Proof.
  unfold double_trigger. destruct det as [rows|]; [|split; [discriminate|intros (? & [=] & _)]]. rewrite forallb_forall. split.
  - intros H. exists rows. split; [reflexivity|]. intros r I M E. specialize (H r I). rewrite M, String.eqb_refl, E in H. cbn in H.
    destruct (Z.eqb_spec (r_frames r) 2); [assumption|discriminate].
  - intros (rows' & [=<-] & H) r I. destruct (String.eqb_spec (r_mri r) mri) as [M|]; [|reflexivity]. destruct (r_enable r) eqn:E; [|reflexivity].
    rewrite (H r I M E). reflexivity.
Qed.
Lemma round_eq p axes det g : (allowed p axes det -> round p axes det g = match answers (u_others p) g with
    | Ok l => Ok (match unroll (u_visible p) axes g with Some x => x :: l | None => l end) | Err e => Err e end)
  /\ (~ allowed p axes det -> exists e, round p axes det g = Err e).
Proof.
  unfold round, allowed.
  assert (A : (match u_allowed p with Some al => simultaneous al axes | None => true end) = true <-> forall al, u_allowed p = Some al -> incl axes al).
  { destruct (u_allowed p) as [al|]; [|split; [intros _ ? [=]|auto]]. unfold simultaneous. rewrite subset_In. split; [intros H ? [=<-]; exact H|intros H; now apply H]. }
  assert (D : (match u_double p with Some mri => double_trigger mri det | None => true end) = true
    <-> forall mri, u_double p = Some mri -> exists rows, det = Some rows /\ forall r, In r rows -> r_mri r = mri -> r_enable r = true -> r_frames r = 2%Z).
  { destruct (u_double p) as [m|]; [|split; [intros _ ? [=]|auto]]. rewrite double_spec. split; [intros H ? [=<-]; exact H|intros H; now apply H]. }
  rewrite <- A, <- D. destruct (match u_allowed p with Some al => simultaneous al axes | None => true end).
  - destruct (match u_double p with Some mri => double_trigger mri det | None => true end); split; intros H; auto; [destruct H; auto|destruct H; discriminate|eauto].
  - split; intros H; [destruct H; discriminate|eauto].
Qed.
Theorem C92_refused : forall p axes det n g o, ~ allowed p axes det -> validates p axes det (S n) g o -> exists e, o = Refused e.
Proof.
  intros p axes det n g o N H. destruct (proj2 (round_eq p axes det g) N) as [e E]. inversion H as [|? ? ? R|? ? R|? ? ? ? ? ? R]; subst; [eauto|congruence|congruence].
Qed.
Print Assumptions C92_refused.
Theorem C92_allowed : forall p axes det n g g', validates p axes det n g (Settled g') -> allowed p axes det.
Proof.
  intros p axes det n g g' H. remember (Settled g') as o. induction H as [h|n h e R|n h R|n h l x xs o R P H IH]; try discriminate; [|auto].
  unfold round, allowed in *. destruct (u_allowed p) as [al|] eqn:A; destruct (u_double p) as [m|] eqn:D.
  - destruct (simultaneous al axes) eqn:Sm; [|discriminate]. destruct (double_trigger m det) eqn:Dt; [|discriminate]. split; [intros ? [=<-]; now apply subset_In|intros ? [=<-]; now apply double_spec].
  - destruct (simultaneous al axes) eqn:Sm; [|discriminate]. split; [intros ? [=<-]; now apply subset_In|intros ? [=]].
  - destruct (double_trigger m det) eqn:Dt; [|discriminate]. split; [intros ? [=]|intros ? [=<-]; now apply double_spec].
  - split; intros ? [=].
Qed.
Print Assumptions C92_allowed.

(* The other parts agree on a duration d: of the scan as it is given (squashed or not) each makes a new
   one, or none, with at most d, and somebody with d if it is not what was given; with d all are content. *)
Definition asked (os : list asker) (g : cgen) (q : Q) : Prop := exists o, In o os /\ o g = Ok (Some q).
Definition agree (os : list asker) (gens : list dim) (sqs : list (list (list string))) (d0 d : Q) : Prop :=
  0 <= d0 /\ d0 <= d
  /\ (forall sq, In sq sqs -> let g := mkGen gens sq d0 in
        (forall o, In o os -> exists a, o g = Ok a) /\ (forall q, asked os g q -> 0 <= q /\ q <= d) /\ (d == d0 \/ exists q, asked os g q /\ q == d))
  /\ (forall sq d' o, In sq sqs -> d' == d -> In o os -> o (mkGen gens sq d') = Ok None).
Lemma answers_asked os g : (forall o, In o os -> exists a, o g = Ok a) -> exists l, answers os g = Ok l
  /\ forall x, In x l <-> exists q, asked os g q /\ x = mkGen (g_gens g) (g_squash g) q.
Proof.
  unfold asked. induction os as [|o r IH]; intros H; cbn [answers].
  - exists []. split; [reflexivity|]. intros x. split; [intros []|intros (q & (o & [] & _) & _)].
  - destruct (H o (or_introl eq_refl)) as [a Ea]. destruct (IH (fun o' I => H o' (or_intror I))) as (l & A & Sp). rewrite Ea, A. destruct a as [d|].
    + eexists. split; [reflexivity|]. intros x. cbn [In]. rewrite Sp. split.
      * intros [<-|(q & (o' & I & E) & ->)]; [exists d; split; [exists o; split; [now left|exact Ea]|reflexivity]|]. exists q. split; [exists o'; split; [now right|exact E]|reflexivity].
      * intros (q & (o' & [<-|I] & E) & ->); [left; congruence|]. right. exists q. split; [exists o'; split; [exact I|exact E]|reflexivity].
    + eexists. split; [reflexivity|]. intros x. rewrite Sp. split.
      * intros (q & (o' & I & E) & ->). exists q. split; [exists o'; split; [now right|exact E]|reflexivity].
      * intros (q & (o' & [<-|I] & E) & ->); [congruence|]. exists q. split; [exists o'; split; [exact I|exact E]|reflexivity].
Qed.
Lemma longest_fold xs : forall m, let r := fold_left (fun m x => if qlt m (g_dur x) then g_dur x else m) xs m in
  m <= r /\ (forall x, In x xs -> g_dur x <= r) /\ (r = m \/ exists x, In x xs /\ r = g_dur x).
Proof.
  induction xs as [|x xs IH]; intros m; cbn [fold_left]; [split; [lra|]; split; [intros ? []|auto]|].
  destruct (IH (if qlt m (g_dur x) then g_dur x else m)) as (A & B & C). destruct (qlt m (g_dur x)) eqn:E.
  - apply qlt_true in E. split; [lra|]. split; [intros y [<-|I]; auto|]. right. destruct C as [->|(y & I & ->)]; [exists x; split; [now left|reflexivity]|exists y; split; [now right|reflexivity]].
  - assert (L : g_dur x <= m) by (now apply qlt_false).
    split; [lra|]. split; [intros y [<-|I]; [lra|auto]|]. destruct C as [->|(y & I & ->)]; [now left|right; exists y; split; [now right|reflexivity]].
Qed.
Lemma resolve_dur x xs : (forall y, In y (x :: xs) -> 0 <= g_dur y) ->
  (forall y, In y (x :: xs) -> g_dur y <= g_dur (resolve x xs)) /\ exists y, In y (x :: xs) /\ g_dur (resolve x xs) == g_dur y.
Proof.
  intros H. unfold resolve. destruct xs as [|x2 xs]; [split; [intros y [<-|[]]; lra|exists x; split; [now left|reflexivity]]|].
  cbn [g_dur]. destruct (longest_fold (x :: x2 :: xs) 0) as (A & B & C). split; [exact B|]. destruct C as [C|(y & I & C)].
  - exists x. split; [now left|]. specialize (B x (or_introl eq_refl)). specialize (H x (or_introl eq_refl)). rewrite C in B |- *. lra.
  - exists y. split; [exact I|]. rewrite C. reflexivity.
Qed.

Lemma content_round p axes det gens sqs d0 d sq d' : agree (u_others p) gens sqs d0 d -> allowed p axes det -> In sq sqs -> d' == d ->
  round p axes det (mkGen gens sq d') = Ok (match unroll (u_visible p) axes (mkGen gens sq d') with Some x => [x] | None => [] end).
Proof.
  intros (_ & _ & _ & C) A I D. rewrite (proj1 (round_eq p axes det _) A). assert (E : answers (u_others p) (mkGen gens sq d') = Ok []).
  { specialize (C sq d'). clear A. induction (u_others p) as [|o r IH]; [reflexivity|]. cbn [answers]. rewrite (C o I D (or_introl eq_refl)), IH; [reflexivity|]. intros o' I' D' J. apply C; auto. now right. }
  rewrite E. reflexivity.
Qed.
Lemma unroll_again axes gens sq d d' : unroll true axes (mkGen gens (sq ++ [axes]) d) = None /\ (unroll true axes (mkGen gens sq d) = None -> unroll true axes (mkGen gens sq d') = None).
Proof.
  unfold unroll. cbn [negb g_squash]. split; [|destruct (Nat.leb (length axes) 1); [auto|]; destruct (existsb _ sq); [auto|discriminate]].
  destruct (Nat.leb (length axes) 1); [reflexivity|]. rewrite existsb_app. cbn [existsb]. rewrite (proj2 (same_set_names axes axes)) by (intros x; tauto). rewrite orb_true_r. reflexivity.
Qed.
Lemma settles_content p axes det gens sq d0 d d' n o : u_visible p = true -> agree (u_others p) gens [sq; sq ++ [axes]] d0 d -> allowed p axes det -> d' == d ->
  validates p axes det (S n) (mkGen gens (sq ++ [axes]) d') o -> o = Settled (mkGen gens (sq ++ [axes]) d').
Proof.
  intros V Ag Al D H. pose proof (content_round p axes det gens _ d0 d (sq ++ [axes]) d' Ag Al (or_intror (or_introl eq_refl)) D) as R. rewrite V, (proj1 (unroll_again axes gens sq d' d')) in R.
  inversion H as [|? ? ? E|? ? E|? ? l x xs ? E P]; subst; [congruence|reflexivity|]. rewrite R in E. injection E as <-. apply Permutation_length in P. discriminate.
Qed.
Lemma settles_second p axes det gens sq sq' d0 d d' n o : u_visible p = true -> agree (u_others p) gens [sq; sq ++ [axes]] d0 d -> allowed p axes det -> d' == d ->
  In sq' [sq; sq ++ [axes]] -> validates p axes det (S (S n)) (mkGen gens sq' d') o -> exists g', o = Settled g' /\ g_dur g' == d.
Proof.
  intros V Ag Al D [<-|[<-|[]]] H.
  - pose proof (content_round p axes det gens _ d0 d sq d' Ag Al (or_introl eq_refl) D) as R. rewrite V in R.
    inversion H as [|? ? ? E|? ? E|? ? l x xs ? E P N]; subst; [congruence|eexists; split; [reflexivity|exact D]|]. rewrite R in E. injection E as <-.
    destruct (unroll true axes (mkGen gens sq d')) as [y|] eqn:U; [|apply Permutation_length in P; discriminate].
    apply Permutation_length_1_inv in P. injection P as -> ->. apply unroll_some in U as (_ & -> & _). cbn [g_gens g_squash g_dur resolve] in N.
    apply (settles_content p axes det gens sq d0 d d' n o V Ag Al D) in N as ->. eexists. split; [reflexivity|exact D].
  - apply (settles_content p axes det gens sq d0 d d' (S n) o V Ag Al D) in H as ->. eexists. split; [reflexivity|exact D].
Qed.
(* Whatever the order of the answers, the scan is unrolled and has the duration on which the others agree. *)
Theorem C92_settles : forall p axes det g d o, u_visible p = true -> (2 <= length axes)%nat -> allowed p axes det ->
  agree (u_others p) (g_gens g) [g_squash g; g_squash g ++ [axes]] (g_dur g) d ->
  validates p axes det 10 g o -> exists g', o = Settled g' /\ unrolled axes g g' /\ g_dur g' == d.
Proof.
  intros p axes det [gens sq d0] d o V L Al Ag H. cbn [g_gens g_squash g_dur] in Ag. assert (X : exists g', o = Settled g' /\ g_dur g' == d).
  { pose proof Ag as (P0 & Ld & As & _). destruct (As sq (or_introl eq_refl)) as (An & Le & Ex). destruct (answers_asked (u_others p) _ An) as (l' & A & Sp). cbn [g_gens g_squash] in Sp.
    destruct (Qeq_dec d d0) as [Q|Q]; [apply (settles_second p axes det gens sq sq d0 d d0 8 o V Ag Al (Qeq_sym _ _ Q) (or_introl eq_refl) H)|].
    destruct Ex as [Ex|(q & Aq & Eq)]; [contradiction|]. pose proof (proj1 (round_eq p axes det (mkGen gens sq d0)) Al) as R. rewrite A, V in R.
    assert (Iq : In (mkGen gens sq q) l') by (apply Sp; eauto).
    inversion H as [|? ? ? E|? ? E|? ? l x xs ? E P N]; subst; [congruence| |].
    - rewrite E in R. injection R as R. destruct (unroll true axes (mkGen gens sq d0)); [discriminate|]. subst l'. destruct Iq.
    - rewrite R in E. injection E as El. assert (B : forall y, In y (x :: xs) -> g_gens y = gens /\ In (g_squash y) [sq; sq ++ [axes]] /\ 0 <= g_dur y /\ g_dur y <= d).
      { intros y I. apply (Permutation_in y (Permutation_sym P)) in I. rewrite <- El in I. assert (J : In y l' \/ y = mkGen gens (sq ++ [axes]) d0).
        { destruct (unroll true axes (mkGen gens sq d0)) as [z|] eqn:U; [|auto]. apply unroll_some in U as (_ & -> & _). destruct I; auto. }
        destruct J as [J| ->]; [apply Sp in J as (r & Ar & ->); destruct (Le r Ar)|]; cbn [g_gens g_squash g_dur In]; auto. }
      destruct (resolve_dur x xs (fun y I => proj1 (proj2 (proj2 (B y I))))) as [Up (y & Iy & Ey)]. destruct (resolve_body x xs) as [Gr Sr].
      assert (D : g_dur (resolve x xs) == d).
      { assert (Iq' : In (mkGen gens sq q) (x :: xs)) by (apply (Permutation_in _ P); rewrite <- El; destruct (unroll true axes (mkGen gens sq d0)); [now right|assumption]).
        pose proof (Up _ Iq') as Uq. cbn [g_dur] in Uq. destruct (B y Iy) as (_ & _ & _ & Ly). lra. }
      destruct (B x (or_introl eq_refl)) as (Gx & Sx & _). rewrite Gx in Gr. rewrite <- Sr in Sx.
      assert (N' : validates p axes det 9 (mkGen gens (g_squash (resolve x xs)) (g_dur (resolve x xs))) o) by (rewrite <- Gr; now destruct (resolve x xs)).
      apply (settles_second p axes det gens sq _ d0 d _ 7 o V Ag Al D Sx N'). }
  destruct X as (g' & -> & D). exists g'. split; [reflexivity|]. split; [|exact D]. apply (C92_unrolled p axes det 10 _ g' V L H).
Qed.
Print Assumptions C92_settles.

(* ---- the steps of a run ---- *)
Definition scan_dims (ds : list dim) : list Scan_Model.dim := map (fun d => Scan_Model.mk_dim (fst d) (snd d)) ds.
Definition without (l S : list string) : list string := filter (fun b => negb (smem b l)) S.
Lemma smem_cons b a l : smem b (a :: l) = String.eqb b a || smem b l.
Proof. apply eq_true_iff_eq. rewrite orb_true_iff, !smem_In, String.eqb_eq. cbn [In]. intuition congruence. Qed.
Lemma sremove_without a l S : without l (Scan_Model.sremove a S) = without (a :: l) S.
Proof.
  unfold without, Scan_Model.sremove. induction S as [|b S IH]; [reflexivity|]. cbn [filter]. rewrite smem_cons. destruct (String.eqb b a); cbn [negb orb filter]; [exact IH|]. rewrite IH. reflexivity.
Qed.
Lemma in_without x l S : In x (without l S) <-> In x S /\ ~ In x l.
Proof. unfold without. rewrite filter_In, negb_true_iff, smem_false. tauto. Qed.
Lemma without_nil S : without [] S = S.
Proof. unfold without. induction S as [|b S IH]; [reflexivity|]. transitivity (b :: filter (fun b => negb (smem b [])) S); [reflexivity|now rewrite IH]. Qed.
Lemma consume_ok l : forall S, NoDup l -> incl l S -> Scan_Model.consume l S = Ok (without l S).
Proof.
  induction l as [|a l IH]; intros S N I; cbn [Scan_Model.consume].
  - now rewrite without_nil.
  - rewrite (proj2 (smem_In a S)) by (apply I; now left). inversion N as [|? ? N1 N2]; subst. rewrite IH; [now rewrite sremove_without|exact N2|].
    intros x J. unfold Scan_Model.sremove. apply filter_In. split; [apply I; now right|]. apply negb_true_iff, String.eqb_neq. intros ->. contradiction.
Qed.
Lemma consume_err l : forall S a, In a l -> ~ In a S -> Scan_Model.consume l S = Err Scan_Model.SAssert.
Proof.
  induction l as [|b l IH]; intros S a I N; [destruct I|]. cbn [Scan_Model.consume]. destruct (smem b S) eqn:E; [|reflexivity]. destruct I as [->|I]; [apply smem_In in E; contradiction|].
  apply (IH _ a I). unfold Scan_Model.sremove. rewrite filter_In. tauto.
Qed.
Lemma without_app l1 l2 S : without l2 (without l1 S) = without (l1 ++ l2) S.
Proof.
  unfold without. induction S as [|b S IH]; [reflexivity|]. cbn [filter]. assert (E : smem b (l1 ++ l2) = smem b l1 || smem b l2).
  { apply eq_true_iff_eq. rewrite orb_true_iff, !smem_In. apply in_app_iff. }
  rewrite E. destruct (smem b l1); cbn [negb orb filter]; [exact IH|]. destruct (smem b l2); cbn [negb]; now rewrite IH.
Qed.
Definition axes_of (ds : list dim) := concat (map fst ds).
(* the loop over dimensions with only axes to move, while some are left for each of them *)
Lemma inner_all ds : forall rest S k, (forall d, In d ds -> fst d <> []) -> NoDup (axes_of ds) -> incl (axes_of ds) S ->
  Scan_Model.inner_steps (scan_dims (rev ds) ++ rest) S k = Scan_Model.inner_steps rest (without (axes_of (rev ds)) S) (k * size ds)%Z.
Proof.
  induction ds as [|d ds IH] using rev_ind; intros rest S k Ne N I.
  - unfold size, axes_of. cbn [rev scan_dims map Datatypes.app concat fold_right]. now rewrite Z.mul_1_r, without_nil.
  - unfold axes_of in *. rewrite map_app, concat_app in N, I. cbn [map concat] in N, I. rewrite app_nil_r in N, I. rewrite rev_app_distr. cbn [rev Datatypes.app scan_dims map].
    cbn [Scan_Model.inner_steps Scan_Model.d_axes Scan_Model.d_size]. assert (Nd : fst d <> []) by (apply Ne, in_or_app; right; now left).
    assert (Id : incl (fst d) S) by (intros x J; apply I, in_or_app; now right).
    assert (ND : NoDup (fst d)) by (clear -N; induction (concat (map fst ds)) as [|y l IHl]; [exact N|]; inversion N; auto).
    assert (Sne : S <> []) by (destruct (fst d) as [|x ?]; [congruence|]; intros ->; apply (Id x); now left).
    rewrite (consume_ok (fst d) S ND Id). destruct (fst d) as [|x l] eqn:Ed; [congruence|]. destruct S as [|s S']; [congruence|]. rewrite <- Ed in *. set (S := s :: S') in *.
    fold (scan_dims (rev ds)). rewrite IH.
    + cbn [concat]. rewrite without_app, size_app. cbn [size map snd fold_right]. f_equal. unfold size. cbn [map snd fold_right]. lia.
    + intros e J. apply Ne, in_or_app. now left.
    + clear -N. induction (concat (map fst ds)) as [|y l IHl]; [constructor|]. cbn in N. inversion N as [|? ? N1 N2]; subst. constructor; [intros J; apply N1, in_or_app; now left|auto].
    + intros y J. apply in_without. split; [apply I, in_or_app; now left|]. intros K. apply in_split in J as (u1 & u2 & E). rewrite E in N. rewrite <- app_assoc in N. cbn [Datatypes.app] in N. apply NoDup_remove_2 in N. apply N. rewrite !in_app_iff. auto.
Qed.
Lemma without_ext l1 l2 S : same_names l1 l2 -> without l1 S = without l2 S.
Proof. intros H. unfold without. apply filter_ext. intros b. f_equal. apply eq_true_iff_eq. rewrite !smem_In. apply H. Qed.
Lemma axes_rev ds : same_names (axes_of (rev ds)) (axes_of ds).
Proof. intros x. unfold axes_of. rewrite !in_concat. split; intros (l & I & J); exists l; split; auto; apply in_map_iff in I as (d & <- & I); apply in_map; [now apply in_rev|apply in_rev; now rewrite rev_involutive]. Qed.
Lemma inner_err rest a0 d0 ds a : forall S k, In a0 (fst d0) -> In a0 S -> (forall d, In d ds -> fst d <> []) -> NoDup (axes_of (d0 :: ds)) ->
  In a (axes_of (d0 :: ds)) -> ~ In a S -> Scan_Model.inner_steps (scan_dims (rev (d0 :: ds)) ++ rest) S k = Err Scan_Model.SAssert.
Proof.
  induction ds as [|d ds IH] using rev_ind; intros S k I0 S0 Ne N Ia Na.
  - unfold axes_of in *. cbn [map concat] in *. rewrite app_nil_r in *. cbn [rev Datatypes.app scan_dims map Scan_Model.inner_steps Scan_Model.d_axes Scan_Model.d_size].
    rewrite (consume_err (fst d0) S a Ia Na). destruct (fst d0) as [|x l]; [destruct I0|]. destruct S; [destruct S0|]. reflexivity.
  - rewrite app_comm_cons, rev_app_distr. cbn [rev Datatypes.app scan_dims map]. cbn [Scan_Model.inner_steps Scan_Model.d_axes Scan_Model.d_size].
    assert (Nd : fst d <> []) by (apply Ne, in_or_app; right; now left). unfold axes_of in *. rewrite app_comm_cons, map_app, concat_app in N, Ia. cbn [map concat] in N, Ia. rewrite app_nil_r in N, Ia.
    assert (X : match Scan_Model.consume (fst d) S with Err e => Err e | Ok r => Scan_Model.inner_steps (scan_dims (rev (d0 :: ds)) ++ rest) r (k * snd d)%Z end = Err Scan_Model.SAssert).
    { assert (ND : NoDup (fst d)) by (clear -N; induction (fst d0 ++ concat (map fst ds)) as [|y l IHl]; [exact N|]; inversion N; auto).
      destruct (in_dec string_dec a (fst d)) as [Ad|Ad]; [now rewrite (consume_err (fst d) S a Ad Na)|].
      destruct (forallb (fun x => smem x S) (fst d)) eqn:F.
      - rewrite forallb_forall in F. rewrite (consume_ok (fst d) S ND) by (intros x J; apply smem_In, F, J). apply IH; auto.
        + apply in_without. split; [exact S0|]. intros J. apply in_split in I0 as (u1 & u2 & E). rewrite E in N. rewrite <- !app_assoc in N. cbn [Datatypes.app] in N. apply NoDup_remove_2 in N. apply N. rewrite !in_app_iff. auto.
        + intros e J. apply Ne, in_or_app. now left.
        + clear -N. cbn [map concat]. induction (fst d0 ++ concat (map fst ds)) as [|y l IHl]; [constructor|]. cbn in N. inversion N as [|? ? N1 N2]; subst. constructor; [intros J; apply N1, in_or_app; now left|auto].
        + apply in_app_or in Ia as [Ia|Ia]; [exact Ia|contradiction].
        + rewrite in_without. tauto.
      - assert (Y : exists x, In x (fst d) /\ ~ In x S).
        { clear -F. induction (fst d) as [|x l IHl]; [discriminate|]. cbn in F. apply andb_false_iff in F as [F|F]; [exists x; split; [now left|now apply smem_false]|]. destruct (IHl F) as (y & I & J). exists y. split; [now right|exact J]. }
        destruct Y as (x & I & J). now rewrite (consume_err (fst d) S x I J). }
    destruct (fst d) as [|x l] eqn:Ed; [congruence|]. destruct S as [|s0 S']; [destruct S0|]. exact X.
Qed.
Lemma drop_head ex ds : existsb (hit ex) ds = true -> exists d r, drop_no ex ds = d :: r /\ hit ex d = true.
Proof. induction ds as [|d r IH]; [discriminate|]. cbn. destruct (hit ex d) eqn:E; [eauto|]. exact IH. Qed.
Lemma take_unhit ex ds d : In d (take_no ex ds) -> hit ex d = false.
Proof. induction ds as [|e r IH]; cbn; [intros []|]. destruct (hit ex e) eqn:E; [intros []|]. intros [<-|I]; auto. Qed.
Definition outer_of (axes : list string) (ds : list dim) (k : Z) : Z :=
  fold_left (fun acc d => if existsb (fun a => smem a axes) (Scan_Model.d_axes d) then acc else (acc * Scan_Model.d_size d)%Z) (scan_dims ds) k.
Lemma outer_hits axes ds : forall k, (forall d, In d ds -> hit axes d = true) -> outer_of axes ds k = k.
Proof.
  induction ds as [|d ds IH]; intros k H; [reflexivity|]. unfold outer_of in *. cbn [scan_dims map fold_left Scan_Model.d_axes Scan_Model.d_size]. fold (hit axes d). rewrite (H d (or_introl eq_refl)). apply IH. intros e I. apply H. now right.
Qed.
Lemma outer_app axes a b k : outer_of axes (a ++ b) k = outer_of axes b (outer_of axes a k).
Proof. unfold outer_of, scan_dims. now rewrite map_app, fold_left_app. Qed.
Lemma scan_rev ds : rev (scan_dims ds) = scan_dims (rev ds).
Proof. unfold scan_dims. now rewrite map_rev. Qed.
Lemma scan_app a b : scan_dims (a ++ b) = scan_dims a ++ scan_dims b.
Proof. unfold scan_dims. now rewrite map_app. Qed.
Lemma NoDup_mid (a b c : list string) : NoDup (a ++ b ++ c) -> NoDup b.
Proof. intros N. induction a as [|x a IH]; [|cbn in N; inversion N; auto]. cbn in N. induction b as [|y b IHb]; [constructor|]. cbn in N. inversion N as [|? ? N1 N2]; subst. constructor; [intros J; apply N1, in_or_app; now left|auto]. Qed.

(* A scan, its dimensions without and with the axes squashed: the same steps in each run, or the same
   refusal. *)
Theorem C92_runs : forall axes ds bps, axes <> [] -> (forall d, In d ds -> fst d <> []) -> NoDup (axes_of ds) ->
  Scan_Model.get_steps_per_run (scan_dims (merge ds axes)) axes bps = Scan_Model.get_steps_per_run (scan_dims ds) axes bps.
Proof.
  intros axes ds bps Na Ne N. destruct (existsb (hit axes) ds) eqn:Hx.
  2:{ unfold merge. destruct (take_none axes ds Hx) as [-> ->]. cbn. now rewrite !app_nil_r. }
  pose proof (parts_all axes ds) as Pa. rewrite merge_parts. set (A := take_no axes ds) in *. destruct (post axes ds) as [|p0 pr] eqn:Ep.
  - assert (Em : mid axes ds = drop_no axes ds) by (pose proof (take_drop axes ds) as T; fold A in T; rewrite <- T in Pa at 1; rewrite app_nil_r in Pa; now apply app_inv_head in Pa).
    rewrite app_nil_r in Pa |- *. destruct (drop_head axes ds Hx) as (d0 & r & E & H0). rewrite Em, E in *. set (M := d0 :: r) in *.
    assert (Ax : axes_of ds = axes_of A ++ axes_of M) by (rewrite Pa at 1; unfold axes_of; now rewrite map_app, concat_app).
    assert (NM : NoDup (axes_of M)) by (apply (NoDup_mid (axes_of A) _ []); now rewrite app_nil_r, <- Ax).
    assert (NeM : forall d, In d M -> fst d <> []) by (intros d I; apply Ne; rewrite Pa; apply in_or_app; now right).
    assert (Om : one M = [(axes_of M, size M)]) by reflexivity. rewrite Om. pose proof H0 as H0'. apply hit_spec in H0' as (a0 & I0 & J0).
    assert (I0' : In a0 (axes_of M)) by (unfold axes_of, M; cbn [map concat]; apply in_or_app; now left).
    destruct (forallb (fun x => smem x axes) (axes_of M)) eqn:F.
    + assert (Inc : incl (axes_of M) axes) by (rewrite forallb_forall in F; intros x I; apply smem_In, F, I).
      assert (S1 : Scan_Model.inner_steps (rev (scan_dims (A ++ [(axes_of M, size M)]))) axes 1%Z = Scan_Model.inner_steps (rev (scan_dims ds)) axes 1%Z).
      { rewrite Pa at 1. rewrite !scan_rev, !rev_app_distr, !scan_app, (inner_all M _ axes 1%Z NeM NM Inc).
        rewrite (inner_all [(axes_of M, size M)] _ axes 1%Z).
        - f_equal; [apply without_ext; intros y; rewrite (axes_rev M y); unfold axes_of at 1; cbn [rev Datatypes.app map concat fst]; rewrite app_nil_r; reflexivity|unfold size at 1; cbn [map snd fold_right]; lia].
        - intros d [<-|[]]. cbn [fst]. intros X. rewrite X in I0'. destruct I0'.
        - unfold axes_of at 1. cbn [map concat fst]. now rewrite app_nil_r.
        - unfold axes_of at 1. cbn [map concat fst]. now rewrite app_nil_r. }
      assert (S2 : Scan_Model.outer_steps (scan_dims (A ++ [(axes_of M, size M)])) axes = Scan_Model.outer_steps (scan_dims ds) axes).
      { unfold Scan_Model.outer_steps. rewrite !scan_rev. change (outer_of axes (rev (A ++ [(axes_of M, size M)])) 1 = outer_of axes (rev ds) 1). rewrite Pa at 1. rewrite !rev_app_distr, !outer_app.
        rewrite (outer_hits axes (rev M)), (outer_hits axes (rev [(axes_of M, size M)])); [reflexivity| |].
        - intros d [<-|[]]. apply (hit_true _ _ a0); [exact I0'|exact J0].
        - intros d I. apply in_rev in I. specialize (NeM d I). destruct (fst d) as [|x l] eqn:Ed; [congruence|]. apply (hit_true _ _ x); [rewrite Ed; now left|]. apply Inc. unfold axes_of. apply in_concat. exists (fst d). split; [now apply in_map|rewrite Ed; now left]. }
      unfold Scan_Model.get_steps_per_run. rewrite S1, S2. reflexivity.
    + assert (Y : exists x, In x (axes_of M) /\ ~ In x axes).
      { clear -F. induction (axes_of M) as [|x l IHl]; [discriminate|]. cbn in F. apply andb_false_iff in F as [F|F]; [exists x; split; [now left|now apply smem_false]|]. destruct (IHl F) as (y & I & J). exists y. split; [now right|exact J]. }
      destruct Y as (x & Ix & Jx). assert (Ed : rev (scan_dims ds) = scan_dims (rev M) ++ scan_dims (rev A)) by (rewrite Pa at 1; now rewrite scan_rev, rev_app_distr, scan_app).
      assert (E1 : Scan_Model.inner_steps (scan_dims (rev M) ++ scan_dims (rev A)) axes 1%Z = Err Scan_Model.SAssert) by (apply (inner_err _ a0 d0 r x); auto; intros d I; apply NeM; now right).
      assert (E2 : Scan_Model.inner_steps (rev (scan_dims (A ++ [(axes_of M, size M)]))) axes 1%Z = Err Scan_Model.SAssert).
      { rewrite scan_rev, rev_app_distr, scan_app. apply (inner_err _ a0 (axes_of M, size M) [] x); auto; unfold axes_of at 1; cbn [map concat fst]; rewrite ?app_nil_r; auto. }
      unfold Scan_Model.get_steps_per_run. rewrite E2, Ed, E1. reflexivity.
  - assert (Pn : p0 :: pr <> []) by discriminate. destruct (exists_last Pn) as (pi & l & El). rewrite <- Ep in *. rewrite El in *.
    assert (Hl : hit axes l = false) by (apply (take_unhit axes (rev (drop_no axes ds))); unfold post in El; apply in_rev; rewrite El; apply in_or_app; right; now left).
    assert (Nl : fst l <> []) by (apply Ne; rewrite Pa, !in_app_iff; right; right; right; now left).
    assert (K : forall X bps, Scan_Model.get_steps_per_run (scan_dims (X ++ [l])) axes bps = Err Scan_Model.SAssert).
    { intros X b. unfold Scan_Model.get_steps_per_run. rewrite scan_rev, rev_app_distr. cbn [rev Datatypes.app scan_dims map Scan_Model.inner_steps Scan_Model.d_axes Scan_Model.d_size].
      destruct (fst l) as [|x t] eqn:Ef; [congruence|]. destruct axes as [|s0 S]; [congruence|]. rewrite (consume_err (x :: t) (s0 :: S) x); [reflexivity|now left|].
      apply (proj1 (hit_false (s0 :: S) l) Hl). rewrite Ef. now left. }
    assert (Ed : exists X, ds = X ++ [l]) by (exists (A ++ mid axes ds ++ pi); now rewrite <- !app_assoc). destruct Ed as [X Ed]. rewrite Ed at 2. rewrite !app_assoc, !K. reflexivity.
Qed.
Print Assumptions C92_runs.
Lemma in_merge ds ex d : In d (merge ds ex) -> In d ds \/ exists d', In d' ds /\ incl (fst d') (fst d).
Proof.
  rewrite merge_parts. intros I. rewrite !in_app_iff in I. pose proof (parts_all ex ds) as P. assert (Q : forall e, In e ds <-> In e (take_no ex ds) \/ In e (mid ex ds) \/ In e (post ex ds)) by (intros e; rewrite P at 1; rewrite !in_app_iff; tauto).
  destruct I as [I|[I|I]]; [left; apply Q; auto| |left; apply Q; auto]. destruct (mid ex ds) as [|m r] eqn:Em; [destruct I|]. right. exists m. split; [apply Q; right; left; now left|].
  destruct I as [<-|[]]. cbn [fst]. intros x J. apply in_or_app. now left.
Qed.
Lemma dims_nonempty sq : forall ds, (forall d, In d ds -> fst d <> []) -> forall d, In d (dims ds sq) -> fst d <> [].
Proof.
  unfold dims. induction sq as [|e sq IH]; intros ds H d I; cbn [fold_left] in I; [auto|]. apply (IH (merge ds e)); [|exact I]. clear -H. intros d I. destruct (in_merge ds e d I) as [J|(d' & J & Inc)]; [auto|].
  specialize (H d' J). destruct (fst d') as [|x l]; [congruence|]. intros E. rewrite E in Inc. apply (Inc x). now left.
Qed.
(* The validated scan is run in the steps in which the scan as asked for would have been. *)
Theorem C92_same_runs : forall p axes det n g g' bps, u_visible p = true -> (2 <= length axes)%nat -> validates p axes det n g (Settled g') ->
  (forall d, In d (g_gens g) -> fst d <> []) -> NoDup (axes_of (g_gens g)) ->
  Scan_Model.get_steps_per_run (scan_dims (dims_of g')) axes bps = Scan_Model.get_steps_per_run (scan_dims (dims_of g)) axes bps.
Proof.
  intros p axes det n g g' bps V L H Ne N. destruct (C92_unrolled p axes det n g g' V L H) as ((G & [[S _]|[S _]]) & _); unfold dims_of; rewrite G, S; [reflexivity|].
  unfold dims at 1. rewrite fold_left_app. cbn [fold_left]. fold (dims (g_gens g) (g_squash g)). apply C92_runs.
  - intros ->. cbn in L. lia.
  - apply dims_nonempty, Ne.
  - unfold axes_of. destruct (dims_kept (g_squash g) (g_gens g)) as [_ ->]. exact N.
Qed.
Print Assumptions C92_same_runs.
(* Without a visible UnrollingPart, or with at most one axis to move, the dimensions stay. *)
Theorem C92_hidden : forall p axes det n g g', u_visible p = false \/ (length axes <= 1)%nat -> validates p axes det n g (Settled g') -> g_gens g' = g_gens g /\ g_squash g' = g_squash g.
Proof.
  intros p axes det n g g' V H. remember (Settled g') as o. induction H as [h|n h e R|n h R|n h l x xs o R P H IH]; try discriminate; [injection Heqo as ->; auto|].
  destruct (IH Heqo) as [-> ->]. destruct (resolve_body x xs) as [-> ->]. apply round_ok in R as (l' & A & E).
  assert (U : unroll (u_visible p) axes h = None) by (unfold unroll; destruct V as [->|V]; [reflexivity|]; destruct (negb (u_visible p)); [reflexivity|]; destruct (Nat.leb_spec (length axes) 1); [reflexivity|lia]).
  rewrite U in E. assert (I : In x l) by (apply (Permutation_in x (Permutation_sym P)); now left). rewrite E in I. destruct (answers_same _ _ _ _ A I) as [d ->]. auto.
Qed.
Print Assumptions C92_hidden.

(* A grid, a detector that says how long a point takes, and whose tweak comes first: unrolled in the third
   round, and run in one go of the 15 points, as the grid would have been. *)
Definition wants (d : Q) : asker := fun g => Ok (if Qeq_bool (g_dur g) 0 then Some d else None).
Definition ex_parts : parts := mkParts true (Some ["x"; "y"; "z"]) (Some "DET") [wants (1 # 10); wants (1 # 20)].
Definition ex_table : option (list drow) := Some [mkRow true "det" "DET" 0 2; mkRow true "other" "OTHER" 0 1].
Definition ex_gen : cgen := mkGen [(["z"], 2); (["y"], 3); (["x"], 5)]%Z [] 0.
Example C92_ex : allowed ex_parts ["x"; "y"] ex_table /\ agree (u_others ex_parts) (g_gens ex_gen) [[]; [["x"; "y"]]] 0 (1 # 10)
  /\ validates ex_parts ["x"; "y"] ex_table 10 ex_gen (Settled (mkGen (g_gens ex_gen) [["x"; "y"]] (1 # 10)))
  /\ dims_of (mkGen (g_gens ex_gen) [["x"; "y"]] (1 # 10)) = [(["z"], 2%Z); (["y"; "x"], 15%Z)]
  /\ Scan_Model.get_steps_per_run (scan_dims (dims_of ex_gen)) ["x"; "y"] [] = Ok (Scan_Model.mk_plan [15%Z] false []).
Proof.
  split; [|split; [|split; [|split; vm_compute; reflexivity]]].
  - split; [intros al [=<-] a [<-|[<-|[]]]; cbn; auto|]. intros m [=<-]. eexists. split; [reflexivity|]. intros r [<-|[<-|[]]] M; [reflexivity|discriminate].
  - split; [lra|]. split; [lra|]. split.
    + intros sq _. cbn zeta. split; [intros o [<-|[<-|[]]]; eexists; reflexivity|]. split; [intros q (o & [<-|[<-|[]]] & E); cbn in E; injection E as <-; split; lra|].
      right. exists (1 # 10). split; [|reflexivity]. exists (wants (1 # 10)). split; [now left|reflexivity].
    + intros sq d o _ E [<-|[<-|[]]]; unfold wants; cbn [g_dur]; destruct (Qeq_bool d 0) eqn:Z; try reflexivity; apply Qeq_bool_iff in Z; lra.
  - eapply U_again with (x := mkGen (g_gens ex_gen) [] (1 # 20)) (xs := [mkGen (g_gens ex_gen) [["x"; "y"]] 0; mkGen (g_gens ex_gen) [] (1 # 10)]); [vm_compute; reflexivity| |].
    + apply perm_trans with [mkGen (g_gens ex_gen) [["x"; "y"]] 0; mkGen (g_gens ex_gen) [] (1 # 20); mkGen (g_gens ex_gen) [] (1 # 10)]; [apply perm_skip, perm_swap|apply perm_swap].
    + eapply U_again with (x := mkGen (g_gens ex_gen) [["x"; "y"]] (1 # 10)) (xs := []); [vm_compute; reflexivity|apply Permutation_refl|].
      apply U_done. vm_compute. reflexivity.
Qed.
(* The guards at work: an axis that may not move, a detector with one frame, and no table at all. *)
Example C92_ex2 : (exists e, round ex_parts ["x"; "w"] ex_table ex_gen = Err e) /\ (exists e, round ex_parts ["x"; "y"] (Some [mkRow true "det" "DET" 0 1]) ex_gen = Err e)
  /\ (exists e, round ex_parts ["x"; "y"] None ex_gen = Err e) /\ exists l, round ex_parts ["x"; "y"] (Some [mkRow false "det" "DET" 0 1]) ex_gen = Ok l.
Proof. repeat split; eexists; vm_compute; reflexivity. Qed.
