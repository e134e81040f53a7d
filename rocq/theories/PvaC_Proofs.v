(* Lemmas for C87. *)
From Coq Require Import String Bool ZArith Lia List.
From Verif Require Import Base Notify_Model Notify_Spec Notify2_Proofs Proxy_Model Proxy_Spec Proxy_Proofs Pva2_Model PvaC_Model PvaC_Spec.
Import ListNotations.
Local Open Scope string_scope.
Local Open Scope list_scope.

(* ---- terminals ---- *)
Fixpoint below (past : list string) (fs : list (string * val)) : list path :=
  match fs with
  | [] => []
  | (k, x) :: r => (if smem k past then [] else map (cons k) (terminals x)) ++ below (k :: past) r
  end.
Definition models (fs : list (string * val)) : bool := forallb (fun kv => is_model (snd kv)) fs.
Lemma terminals_model t fs : terminals (VObj (KModel t) fs) = below [] fs. Proof. reflexivity. Qed.
Lemma terminals_map fs : terminals (VObj KMap fs) = if models fs then below [] fs else [[]]. Proof. reflexivity. Qed.
Lemma below_In fs : forall past t, In t (below past fs) <-> exists n y s, t = n :: s /\ ~ In n past /\ dget n fs = Some y /\ In s (terminals y).
Proof.
  induction fs as [|[k x] fs IH]; intros past t; cbn [below]; [split; [contradiction|intros (n & y & s & _ & _ & [=] & _)]|].
  rewrite in_app_iff, IH. cbn [dget]. split.
  - intros [I|(n & y & s & -> & N & D & I)].
    + destruct (smem k past) eqn:E; [contradiction|]. apply smem_false in E. apply in_map_iff in I as (s & <- & I). exists k, x, s. rewrite String.eqb_refl. auto.
    + cbn [In] in N. exists n, y, s. destruct (String.eqb_spec n k) as [->|_]; [tauto|]. split; [reflexivity|]. split; [tauto|]. auto.
  - intros (n & y & s & -> & N & D & I). destruct (String.eqb_spec n k) as [->|Nk].
    + left. injection D as ->. destruct (smem k past) eqn:E; [apply smem_In in E; contradiction|]. now apply in_map.
    + right. exists n, y, s. cbn [In]. split; [reflexivity|]. split; [intros [->|X]; [congruence|contradiction]|auto].
Qed.
(* either a terminal itself, or all below *)
Lemma terminals_cases v : (terminals v = [[]] /\ is_model v = false) \/ exists k fs, v = VObj k fs /\ terminals v = below [] fs /\ (match k with KModel _ => True | KMap => models fs = true | _ => False end).
Proof.
  destruct v as [|z|[t|t|] fs]; auto.
  - right. exists (KModel t), fs. auto.
  - rewrite terminals_map. destruct (models fs) eqn:M; [right; exists KMap, fs; auto|auto].
Qed.
Lemma dget_models fs n x : models fs = true -> dget n fs = Some x -> is_model x = true.
Proof. intros M D. apply dget_Some_In in D. unfold models in M. rewrite forallb_forall in M. exact (M _ D). Qed.
(* what is on the way to a terminal *)
Lemma terminal_strict t : forall v q s, In t (terminals v) -> t = q ++ s -> s <> [] ->
  exists k, vsee v q = Some (SObj k) /\ (match k with KModel _ => True | KMap => forall n y, vget v (q ++ [n]) = Some y -> is_model y = true | _ => False end).
Proof.
  induction t as [|n t IH]; intros v q s H E Ns; [destruct q, s; try discriminate; congruence|].
  destruct (terminals_cases v) as [[T _]|(k & fs & -> & T & K)]; rewrite T in H; [destruct H as [H|[]]; discriminate|].
  apply below_In in H as (n' & y & r & E' & _ & D & I). injection E' as <- <-. destruct q as [|m q].
  - exists k. split; [reflexivity|]. destruct k as [u|u|]; auto. intros n' y' G. cbn [Datatypes.app vget] in G. destruct (dget n' fs) as [c|] eqn:Dn; [|discriminate]. injection G as <-. exact (dget_models _ _ _ K Dn).
  - cbn [Datatypes.app] in E. injection E as <- ->. destruct (IH y q s I eq_refl Ns) as (k' & S & K'). exists k'. cbn [vsee Datatypes.app vget]. rewrite D. auto.
Qed.
Lemma terminal_covers m : forall v z, vsee v m = Some (SLeaf z) -> exists t, In t (terminals v) /\ prefix t m.
Proof.
  induction m as [|n m IH]; intros v z S.
  - destruct v; try discriminate. exists []. split; [now left|now exists []].
  - destruct (terminals_cases v) as [[T _]|(k & fs & -> & T & _)]; rewrite T; [exists []; split; [now left|now exists (n :: m)]|].
    cbn [vsee] in S. destruct (dget n fs) as [y|] eqn:D; [|discriminate]. destruct (IH y z S) as (t & I & [r ->]). exists (n :: t). split; [|now exists r].
    apply below_In. exists n, y, t. auto.
Qed.
Lemma plain_terminals x : plain x -> terminals x = [[]].
Proof. destruct x as [|z|[t|t|] fs]; cbn; tauto. Qed.
Lemma vget_see v p x r : vget v p = Some x -> vsee v (p ++ r) = vsee x r.
Proof.
  revert v. induction p as [|n p IH]; intros v G; [injection G as ->; reflexivity|]. destruct v as [| |k fs]; try discriminate. cbn [vget Datatypes.app vsee] in *.
  destruct (dget n fs); [|discriminate]. now apply IH.
Qed.
Lemma vget_some v p : vsee v p <> None -> exists x, vget v p = Some x.
Proof.
  revert v. induction p as [|n p IH]; intros v S; [exists v; reflexivity|]. destruct v as [|z|k fs]; cbn [vsee] in S; try congruence. cbn [vget].
  destruct (dget n fs); [|congruence]. now apply IH.
Qed.
Lemma is_model_see x : is_model x = true <-> exists t, vsee x [] = Some (SObj (KModel t)).
Proof. destruct x as [|z|[t|t|] fs]; cbn; split; try discriminate; try (intros [? [=]]); eauto. Qed.

(* ---- shapes ---- *)
Lemma shape_obj a b p k : same_shape a b -> vsee a p = Some (SObj k) -> vsee b p = Some (SObj k).
Proof. intros S E. specialize (S p). rewrite E in S. cbn in S. destruct (vsee b p) as [[z|k']|]; cbn in S; congruence. Qed.
Lemma shape_none a b p : same_shape a b -> vsee a p <> None -> vsee b p <> None.
Proof. intros S E F. specialize (S p). rewrite F in S. cbn in S. destruct (vsee a p) as [[|]|]; cbn in S; congruence. Qed.
Lemma shape_sym a b : same_shape a b -> same_shape b a. Proof. intros S p. now rewrite S. Qed.
Lemma shape_trans a b c : same_shape a b -> same_shape b c -> same_shape a c. Proof. intros S T p. now rewrite S. Qed.
Lemma prefix_dec (m p : path) : prefix m p \/ ~ prefix m p.
Proof.
  revert p. induction m as [|a m IH]; intros p; [left; now exists p|]. destruct p as [|b p]; [right; intros [r [=]]|]. destruct (string_dec a b) as [->|Nab].
  - destruct (IH p) as [[r ->]|N]; [left; now exists r|right; intros [r E]; injection E as ->; apply N; now exists r].
  - right. intros [r E]. injection E. congruence.
Qed.
Lemma honest_shape v marked v' : honest v marked v' -> same_shape v v'.
Proof.
  intros [M D] p. assert (X : (exists m, In m marked /\ prefix m p) \/ forall m, In m marked -> ~ prefix m p).
  { clear. induction marked as [|m l IH]; [right; intros m []|]. destruct (IH) as [(m' & I & P)|N]; [left; exists m'; cbn; auto|].
    destruct (prefix_dec m p); [left; exists m; cbn; auto|right; intros m' [<-|I]; auto]. }
  destruct X as [(m & I & [r ->])|N]; [|now rewrite D]. destruct (M m I) as (_ & _ & [z A] & [z' B]). destruct r as [|n r].
  - rewrite app_nil_r, A, B. reflexivity.
  - assert (N : forall v z, vsee v m = Some (SLeaf z) -> vsee v (m ++ n :: r) = None).
    { clear. intros v z H. revert v H. induction m as [|a m IH]; intros v H; [destruct v; try discriminate; reflexivity|]. destruct v as [|z'|k fs]; try discriminate. cbn [vsee Datatypes.app] in *. destruct (dget a fs); [now apply IH|discriminate]. }
    rewrite (N v z A), (N v' z' B). reflexivity.
Qed.

(* ---- the fields to update ---- *)
Definition origin (v : val) (f : string) (x : val) : Prop :=
  if String.eqb f "health" then exists th hs, x = VObj (KModel th) hs /\ forall n, In n health_names -> dget n hs = field2 v "health" n
  else if String.eqb f "meta" then exists tm ms, x = VObj (KModel tm) ms /\ forall n, In n meta_names -> dget n ms = field2 v "meta" n
  else field v f = Some x /\ is_model x = true.
Definition covers (v : val) (u : list path) : Prop :=
  (forall k, In k u -> exists f t x, k = f :: t /\ origin v f x /\ In t (terminals x))
  /\ forall f, field v f <> None -> exists x, origin v f x /\ forall t, In t (terminals x) -> In (f :: t) u.

Section names.
Variable names : list string -> val.
Lemma set_fields_one b v n x k fs : shape b -> v = VObj k fs -> block_like v -> dget n fs = Some x ->
  exists b1, set_field names b (n, x) = Fine b1 /\ shape b1 /\ exists y, dget n b1 = Some y /\ origin v n y.
Proof.
  intros S -> (k' & fs' & E & ND & Hh & Hm & Ho) D. injection E as <- <-. unfold set_field, origin, field2 in *. cbn [field] in *.
  destruct (String.eqb_spec n "health") as [->|N1].
  - rewrite D in *. destruct x as [|z|kx gs]; [exfalso; apply (Hh "value"); cbn; auto|exfalso; apply (Hh "value"); cbn; auto|].
    destruct (set_health_spec kx gs b S Hh) as (b' & A & B & C & _). rewrite A. exists b'. split; [reflexivity|]. split; [exact B|].
    destruct B as (_ & (th & hs & B1 & _) & _). exists (VObj (KModel th) hs). split; [exact B1|]. exists th, hs. split; [reflexivity|]. intros n Hn. specialize (C n Hn). unfold sub2 in C. rewrite B1 in C. exact C.
  - destruct (String.eqb_spec n "meta") as [->|N2].
    + rewrite D in *. destruct x as [|z|kx gs]; [exfalso; apply (Hm "fields"); cbn; auto|exfalso; apply (Hm "fields"); cbn; auto|].
      destruct (set_meta_spec kx gs b S Hm) as (b' & A & B & C & _). rewrite A. exists b'. split; [reflexivity|]. split; [exact B|].
      destruct B as (_ & _ & (tm & ms & B1 & _)). exists (VObj (KModel tm) ms). split; [exact B1|]. exists tm, ms. split; [reflexivity|]. intros n Hn. specialize (C n Hn). unfold sub2 in C. rewrite B1 in C. exact C.
    + destruct (Ho n N1 N2 (dget_Some_key _ _ D)) as (t & gs & G). rewrite D in G. injection G as ->.
      destruct (set_endpoint_spec names n t gs b N1 N2 S) as (b' & A & B & _ & C). rewrite A. exists b'. split; [reflexivity|]. split; [exact B|].
      exists (VObj (KModel t) gs). rewrite C by assumption. rewrite String.eqb_refl. auto.
Qed.
Lemma regen_loop v k fs : v = VObj k fs -> block_like v -> forall l b u, incl l fs -> shape b ->
  exists b' u', loop (set_field names) l b = Fine b' /\ loop (regen_field names) l (b, u) = Fine (b', u')
    /\ (forall p, In p u -> In p u')
    /\ (forall p, In p u' -> In p u \/ exists f t x, p = f :: t /\ origin v f x /\ In t (terminals x))
    /\ forall f, In f (dkeys l) -> exists x, origin v f x /\ forall t, In t (terminals x) -> In (f :: t) u'.
Proof.
  intros E BL. pose proof BL as (k' & fs' & E' & ND & _). rewrite E in E'. injection E' as <- <-.
  induction l as [|[n x] l IH]; intros b u I S; [exists b, u; cbn; intuition|].
  assert (D : dget n fs = Some x) by (apply dget_In_nodup; [exact ND|apply I; now left]).
  destruct (set_fields_one b v n x k fs S E BL D) as (b1 & F & S1 & y & G & O).
  destruct (IH b1 (u ++ map (cons n) (terminals y))) as (b' & u' & A & B & C1 & C2 & C3); [intros z Hz; apply I; now right|exact S1|].
  exists b', u'. cbn [loop]. rewrite F. unfold regen_field at 1. cbn [fst snd]. rewrite F, G. split; [exact A|]. split; [exact B|]. split; [|split].
  - intros p Hp. apply C1. apply in_or_app. now left.
  - intros p Hp. destruct (C2 p Hp) as [X|X]; [|now right]. apply in_app_or in X as [X|X]; [now left|]. right. apply in_map_iff in X as (t & <- & X). exists n, t, y. auto.
  - intros f [<-|Hf]; [|now apply C3]. exists y. split; [exact O|]. intros t Ht. apply C1. apply in_or_app. right. now apply in_map.
Qed.
Lemma regen_spec v b : shape b -> block_like v -> exists b' u, regen names b v = Fine (b', u) /\ in_step v b' /\ covers v u.
Proof.
  intros S BL. destruct (regenerate_spec names v b S BL) as (b0 & R & IS). pose proof BL as (k & fs & E & _). rewrite E in R. unfold regenerate in R.
  destruct (clear_fields_spec names b S) as (C1 & _). destruct (regen_loop v k fs E BL fs (clear_fields names b) [] (fun x H => H) C1) as (b' & u & A & B & _ & D & F).
  rewrite A in R. injection R as ->. exists b0, u. rewrite E at 1. unfold regen. split; [exact B|]. split; [exact IS|]. split.
  - intros p Hp. destruct (D p Hp) as [[]|X]. exact X.
  - intros f Hf. apply F. rewrite E in Hf. cbn [field] in Hf. destruct (dget f fs) eqn:G; [exact (dget_Some_key _ _ G)|congruence].
Qed.
End names.

(* ---- an update ---- *)
Lemma field_see v f : vsee v [f] <> None -> exists k fs x, v = VObj k fs /\ dget f fs = Some x.
Proof. destruct v as [|z|k fs]; cbn [vsee]; try congruence. destruct (dget f fs) as [x|] eqn:D; [|congruence]. intros _. exists k, fs, x. auto. Qed.
Lemma see_prefix v p r : vsee v (p ++ r) <> None -> vsee v p <> None.
Proof. intros H E. apply H. now apply vsee_prefix_none. Qed.
Lemma ks_followed v0 u w k m r x : good v0 -> covers v0 u -> same_shape v0 w -> In k u -> m = k ++ r -> shown m -> ~ in_dict v0 m -> vsee v0 m <> None ->
  followed w (k, Some x).
Proof.
  intros (BL & NB & PH & PM) [C _] S I -> Sh ND Sm. destruct (C k I) as (f & t & x0 & -> & O & T). cbn [Datatypes.app] in *. cbn [shown followed] in *. unfold origin in O.
  destruct (String.eqb_spec f "health") as [->|N1]; [|destruct (String.eqb_spec f "meta") as [->|N2]].
  - destruct O as (th & hs & -> & H). destruct Sh as (n & q & E & Hn). rewrite terminals_model in T. apply below_In in T as (n' & y & s & -> & _ & D & Ts).
    cbn [Datatypes.app] in E. injection E as -> _. rewrite (H n Hn) in D. pose proof (plain_terminals y (PH n y Hn D)) as P. rewrite P in Ts. destruct Ts as [<-|[]]. eauto.
  - destruct O as (th & hs & -> & H). destruct Sh as (n & q & E & Hn). rewrite terminals_model in T. apply below_In in T as (n' & y & s & -> & _ & D & Ts).
    cbn [Datatypes.app] in E. injection E as -> _. rewrite (H n Hn) in D. pose proof (plain_terminals y (PM n y Hn D)) as P. rewrite P in Ts. destruct Ts as [<-|[]]. eauto.
  - destruct O as [Fx M0]. destruct v0 as [|z|k0 fs0]; try discriminate. cbn [field] in Fx.
    assert (V0 : forall p, vsee (VObj k0 fs0) (f :: p) = vsee x0 p) by (intros p; cbn [vsee]; now rewrite Fx).
    assert (Sk : vsee (VObj k0 fs0) (f :: t) <> None) by (apply (see_prefix _ (f :: t) r); exact Sm).
    assert (Sf : vsee w [f] <> None) by (apply (shape_none _ _ _ S); apply (see_prefix _ [f] t); exact Sk).
    destruct (field_see w f Sf) as (kw & fw & xw & -> & Dw). exists xw. split; [exact Dw|].
    assert (W : forall p, vsee (VObj kw fw) (f :: p) = vsee xw p) by (intros p; cbn [vsee]; now rewrite Dw).
    split; [|split].
    + intros ->. destruct x0 as [|z|[tt|tt|] gs]; try discriminate. rewrite terminals_model in T. apply below_In in T as (? & ? & ? & [=] & _).
    + rewrite <- W. apply (shape_none _ _ _ S). exact Sk.
    + intros q s -> Ns. destruct (terminal_strict _ x0 q s T eq_refl Ns) as (k' & Sq & K'). destruct k' as [tt|tt|]; [|contradiction|].
      * exists tt. split; [rewrite <- W; apply (shape_obj _ _ _ _ S); now rewrite V0|]. apply (NB (f :: q) tt); [discriminate|now rewrite V0].
      * exfalso. destruct s as [|n s]; [congruence|]. assert (Sn : vsee x0 (q ++ [n]) <> None).
        { apply (see_prefix x0 (q ++ [n]) s). rewrite <- app_assoc. cbn [Datatypes.app]. now rewrite <- V0. }
        destruct (vget_some x0 _ Sn) as (y & G). specialize (K' n y G). apply is_model_see in K' as [tt K']. apply ND. exists (f :: q), n, (s ++ r), tt. split; [cbn [Datatypes.app]; now rewrite <- app_assoc|].
        split; [now rewrite V0|]. cbn [Datatypes.app]. rewrite V0. rewrite <- (app_nil_r (q ++ [n])), (vget_see _ _ _ [] G). exact K'.
Qed.
Lemma block_apply_handle (names : list string -> val) b k x : k <> [] -> block_apply b k x = handle_change names b (k, Some x).
Proof. destruct k as [|n [|m r]]; [congruence|reflexivity|]. intros _. cbn [block_apply handle_change]. destruct (dget n b) as [c|]; [|reflexivity]. destruct (apply_change (m :: r) (Some x) c); reflexivity. Qed.
Lemma followed_see w b k x r : in_step w b -> followed w (k, Some x) -> k <> [] -> vsee (vapply k (Some x) w) (k ++ r) = vsee x r.
Proof.
  intros IS F Nk. assert (P : exists s n kk, k = s ++ [n] /\ vsee w s = Some (SObj kk)).
  { destruct IS as [_ (k0 & fs & kh & hs & km & ms & -> & Dh & Dm) _ _ _]. destruct k as [|f q]; [congruence|]. cbn [followed] in F.
    destruct (String.eqb_spec f "health") as [->|N1]; [destruct F as (n & -> & _); exists ["health"], n, kh; cbn [vsee]; now rewrite Dh|].
    destruct (String.eqb_spec f "meta") as [->|N2]; [destruct F as (n & -> & _); exists ["meta"], n, km; cbn [vsee]; now rewrite Dm|].
    destruct F as (y & Fy & S1 & S2 & S3). destruct (exists_last S1) as (s & n & ->). destruct (S3 s [n] eq_refl ltac:(discriminate)) as (t & Ht & _).
    exists (f :: s), n, (KModel t). split; [reflexivity|]. cbn [field] in Fy. cbn [vsee]. now rewrite Fy. }
  destruct P as (s & n & kk & -> & V). now apply vsee_apply_set with (k := kk).
Qed.
Lemma update_loop (names : list string -> val) v0 v' ks : same_shape v0 v' -> (forall k, In k ks -> k <> [] /\ exists x, vget v' k = Some x /\ forall w, same_shape v0 w -> followed w (k, Some x)) ->
  forall w b, in_step w b -> same_shape v0 w ->
  exists b' w', loop (fun b k => match vget v' k with Some v => block_apply b k v | None => Raised b end) ks b = Fine b' /\ in_step w' b' /\ same_shape v0 w'
    /\ (forall p, (exists k, In k ks /\ prefix k p) -> vsee w' p = vsee v' p) /\ (forall p, (forall k, In k ks -> ~ prefix k p) -> vsee w' p = vsee w p).
Proof.
  intros S' K. induction ks as [|k ks IH]; intros w b IS Sw.
  - exists b, w. split; [reflexivity|]. split; [exact IS|]. split; [exact Sw|]. split; [intros p (k & [] & _)|auto].
  - destruct (K k (or_introl eq_refl)) as (Nk & x & G & F). specialize (F w Sw). cbn [loop]. rewrite G, (block_apply_handle names b k x Nk).
    destruct (change_spec names w b (k, Some x) IS F) as (b1 & E & IS1). cbn [fst snd] in IS1. rewrite E.
    assert (A : forall r, vsee (vapply k (Some x) w) (k ++ r) = vsee v' (k ++ r)) by (intros r; rewrite (followed_see w b k x r IS F Nk), (vget_see _ _ _ _ G); reflexivity).
    assert (B : forall p, ~ prefix k p -> vsee (vapply k (Some x) w) p = vsee w p) by (intros p; apply vsee_apply_other).
    assert (S1 : same_shape v0 (vapply k (Some x) w)) by (intros p; destruct (prefix_dec k p) as [[r ->]|N]; [rewrite A; apply S'|rewrite (B p N); apply Sw]).
    destruct (IH (fun k' H => K k' (or_intror H)) _ b1 IS1 S1) as (b' & w' & L & IS' & S2 & P1 & P2). exists b', w'. split; [exact L|]. split; [exact IS'|]. split; [exact S2|].
    assert (Dk : forall p, (exists k', In k' ks /\ prefix k' p) \/ forall k', In k' ks -> ~ prefix k' p).
    { clear. intros p. induction ks as [|a l IH]; [right; intros ? []|]. destruct (prefix_dec a p); [left; exists a; cbn; auto|]. destruct IH as [(k' & I & P)|N]; [left; exists k'; cbn; auto|right; intros k' [<-|I]; auto]. }
    split.
    + intros p (k' & [<-|I] & P); [|apply P1; eauto]. destruct (Dk p) as [X|X]; [now apply P1|]. rewrite (P2 p X). destruct P as [r ->]. apply A.
    + intros p N. rewrite (P2 p (fun k' H => N k' (or_intror H))). apply B, N. now left.
Qed.
Lemma prefixes_In p : forall q, In q (prefixes p) <-> q <> [] /\ exists r, p = q ++ r.
Proof.
  induction p as [|x p IH]; intros q; cbn [prefixes In].
  - split; [contradiction|]. intros [N [r E]]. destruct q; [congruence|discriminate].
  - rewrite in_map_iff. split.
    + intros [<-|(q' & <- & I)]; [split; [discriminate|exists p; reflexivity]|]. apply IH in I as [_ [r ->]]. split; [discriminate|]. exists r. reflexivity.
    + intros [N [r E]]. destruct q as [|y q]; [congruence|]. injection E as -> E. destruct q as [|z q]; [now left|]. right. exists (z :: q). split; [reflexivity|]. apply IH. split; [discriminate|]. eauto.
Qed.
Lemma path_eqb_spec p : forall q, path_eqb p q = true <-> p = q.
Proof.
  induction p as [|x p IH]; intros [|y q]; cbn; try (split; congruence). rewrite andb_true_iff, IH, String.eqb_eq. split; [intros [-> ->]; reflexivity|intros H; injection H; auto].
Qed.
Lemma changed_In k marked : existsb (path_eqb k) (changed_inc_parents marked) = true <-> k <> [] /\ exists m, In m marked /\ prefix k m.
Proof.
  unfold changed_inc_parents. rewrite existsb_exists. split.
  - intros (x & I & E). apply path_eqb_spec in E as <-. apply in_flat_map in I as (m & Im & I). apply prefixes_In in I as [N [r ->]]. split; [exact N|]. exists (k ++ r). split; [exact Im|now exists r].
  - intros (N & m & Im & [r ->]). exists k. split; [|now apply path_eqb_spec]. apply in_flat_map. exists (k ++ r). split; [exact Im|]. apply prefixes_In. eauto.
Qed.
Lemma update_spec (names : list string -> val) order v0 u v marked v' w b : (forall l k, In k (order l) <-> In k l) -> good v0 -> covers v0 u -> same_shape v0 v -> honest v marked v' ->
  in_step w b -> (forall p, vsee w p = vsee v p) ->
  exists b' w', update_block order v' marked u b = Fine b' /\ in_step w' b' /\ forall p, vsee w' p = vsee v' p.
Proof.
  intros Ord Gd Cov Sv Hn IS E. pose proof (honest_shape _ _ _ Hn) as Sv'. destruct Hn as [Hm Hd].
  assert (S' : same_shape v0 v') by exact (shape_trans _ _ _ Sv Sv'). assert (Sw : same_shape v0 w) by (intros p; rewrite E; apply Sv).
  unfold update_block. set (ks := order _).
  assert (KS : forall k, In k ks <-> In k u /\ k <> [] /\ exists m, In m marked /\ prefix k m) by (intros k; unfold ks; rewrite Ord, filter_In, changed_In; reflexivity). clearbody ks.
  assert (IDm : forall m, in_dict v0 m -> in_dict v m) by (intros m (q & n & s & t & A & B & C); exists q, n, s, t; split; [exact A|]; split; eapply shape_obj; eauto).
  destruct (update_loop names v0 v' ks S') with (w := w) (b := b) as (b' & w' & L & IS' & _ & P1 & P2); auto.
  - intros k Ik. apply KS in Ik as (Iu & Nk & m & Im & [r Er]). split; [exact Nk|]. destruct (Hm m Im) as (Sh & ND & [z Lf] & [z' Lf']).
    assert (Sk : vsee v' k <> None) by (apply (see_prefix v' k r); rewrite <- Er, Lf'; discriminate). destruct (vget_some v' k Sk) as (x & G). exists x. split; [exact G|].
    intros w0 Sw0. apply (ks_followed v0 u w0 k m r x); auto. apply (shape_none v v0 m (shape_sym _ _ Sv)). rewrite Lf. discriminate.
  - exists b', w'. split; [exact L|]. split; [exact IS'|]. intros p.
    assert (Dk : (exists k, In k ks /\ prefix k p) \/ forall k, In k ks -> ~ prefix k p).
    { clear. induction ks as [|a l IH]; [right; intros ? []|]. destruct (prefix_dec a p); [left; exists a; cbn; auto|]. destruct IH as [(k' & I & P)|N]; [left; exists k'; cbn; auto|right; intros k' [<-|I]; auto]. }
    destruct Dk as [X|X]; [now apply P1|]. rewrite (P2 p X), E. apply Hd. intros m Im [r ->]. destruct (Hm m Im) as (Sh & ND & [z Lf] & _).
    assert (Cv : exists k, In k u /\ k <> [] /\ prefix k m).
    { destruct Cov as [_ Cov]. destruct m as [|f m]; [contradiction|]. assert (Lf0 : exists z, vsee v0 (f :: m) = Some (SLeaf z)).
      { specialize (Sv (f :: m)). rewrite Lf in Sv. destruct (vsee v0 (f :: m)) as [[z0|]|]; cbn in Sv; try discriminate. eauto. }
      destruct Lf0 as [z0 Lf0]. assert (Fn : field v0 f <> None) by (destruct v0 as [| |k0 fs0]; try discriminate; cbn [vsee field] in *; destruct (dget f fs0); congruence).
      destruct (Cov f Fn) as (x & O & T). unfold origin in O. cbn [shown] in Sh. destruct Gd as (_ & _ & PH & PM).
      destruct (String.eqb_spec f "health") as [->|N1]; [|destruct (String.eqb_spec f "meta") as [->|N2]].
      - destruct O as (th & hs & -> & H). destruct Sh as (n & q & -> & Hnm). exists ["health"; n]. split; [|split; [discriminate|now exists q]]. apply T. rewrite terminals_model. apply below_In.
        assert (Fy : exists y, field2 v0 "health" n = Some y). { unfold field2. destruct v0 as [| |k0 fs0]; try discriminate. cbn [vsee field] in *. destruct (dget "health" fs0) as [c|]; [|discriminate]. destruct c as [| |kc gs]; try discriminate. cbn [vsee field] in *. destruct (dget n gs); [eauto|discriminate]. }
        destruct Fy as [y Fy]. exists n, y, []. split; [reflexivity|]. split; [intros []|]. split; [now rewrite H|]. rewrite (plain_terminals y (PH n y Hnm Fy)). now left.
      - destruct O as (th & hs & -> & H). destruct Sh as (n & q & -> & Hnm). exists ["meta"; n]. split; [|split; [discriminate|now exists q]]. apply T. rewrite terminals_model. apply below_In.
        assert (Fy : exists y, field2 v0 "meta" n = Some y). { unfold field2. destruct v0 as [| |k0 fs0]; try discriminate. cbn [vsee field] in *. destruct (dget "meta" fs0) as [c|]; [|discriminate]. destruct c as [| |kc gs]; try discriminate. cbn [vsee field] in *. destruct (dget n gs); [eauto|discriminate]. }
        destruct Fy as [y Fy]. exists n, y, []. split; [reflexivity|]. split; [intros []|]. split; [now rewrite H|]. rewrite (plain_terminals y (PM n y Hnm Fy)). now left.
      - destruct O as [Fx _]. assert (Lx : vsee x m = Some (SLeaf z0)) by (destruct v0 as [| |k0 fs0]; try discriminate; cbn [vsee field] in *; now rewrite Fx in Lf0).
        destruct (terminal_covers m x z0 Lx) as (t & It & [s ->]). exists (f :: t). split; [now apply T|]. split; [discriminate|]. now exists s. }
    destruct Cv as (k & Iu & Nk & [s Es]). apply (X k); [apply KS; split; [exact Iu|]; split; [exact Nk|]; exists m; split; [exact Im|now exists s]|]. exists (s ++ r). now rewrite Es, app_assoc.
Qed.
