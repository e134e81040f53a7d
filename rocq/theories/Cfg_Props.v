(* C91: the parameters that configure and validate take, and what the parts get. *)
From Coq Require Import String Bool ZArith Lia List.
From Verif Require Import Base Cfg_Model.
Import ListNotations.
Local Open Scope string_scope.
Local Open Scope list_scope.

(* ---- specification ---- *)
(* An info is in order if its arguments have one meta each and it has one for those that are required. *)
Definition in_order (i : cinfo) : Prop := NoDup (dkeys (i_metas i)) /\ incl (i_required i) (dkeys (i_metas i)).
(* Some part asks for k. *)
Definition asked (k : string) (is : list cinfo) : Prop := ~ In k ignored /\ exists i, In i is /\ In k (dkeys (i_metas i)).
(* Some part can not do without k. *)
Definition needed (k : string) (is : list cinfo) : Prop := ~ In k ignored /\ exists i, In i is /\ In k (i_required i).
(* The defaults for k, each with the meta of the part that gave it, in the order of the parts. *)
Definition contributions (k : string) (is : list cinfo) : list (kind * value) :=
  flat_map (fun i => match dget k (i_metas i), dget k (i_defaults i) with Some m, Some v => [(m, v)] | _, _ => [] end) is.
Definition rows_of (v : value) : list (list Z) := match v with VTable l => l | VScalar _ _ => [] end.

(* ---- required ---- *)
Lemma dget_key {A} k (d : dict A) : In k (dkeys d) <-> exists v, dget k d = Some v.
Proof. rewrite <- dmem_In. unfold dmem. destruct (dget k d); split; intros H; eauto; try discriminate. destruct H as (v & H). discriminate. Qed.
Lemma add_required_spec ms ks : forall s s', add_required ms ks s = Some s' -> NoDup (fst s) ->
  NoDup (fst s') /\ (forall k, In k (fst s') <-> In k (fst s) \/ ~ In k ignored /\ In k ks)
  /\ (forall k, In k (fst s') -> ~ In k (fst s) -> In k ks /\ exists m, dget k ms = Some m /\ dget k (snd s') = Some m)
  /\ (forall k, In k (fst s) \/ ~ In k (fst s') -> dget k (snd s') = dget k (snd s)).
Proof.
  induction ks as [|a ks IH]; intros s s' E N; cbn [add_required] in E.
  - injection E as <-. split; [exact N|]. split; [intros k; cbn; tauto|]. split; [intros k A B; contradiction|reflexivity].
  - destruct (smem a (fst s ++ ignored)) eqn:M.
    + apply smem_In, in_app_or in M. destruct (IH _ _ E N) as (I1 & I2 & I3 & I4). split; [exact I1|]. split; [|split; [|exact I4]].
      * intros k. rewrite I2. cbn [In]. split; [tauto|]. intros [A|[A [<-|B]]]; auto; tauto.
      * intros k A B. destruct (I3 k A B) as [C D]. split; [now right|exact D].
    + apply smem_false in M. assert (Ma : ~ In a (fst s) /\ ~ In a ignored) by (split; intros X; apply M, in_or_app; auto). destruct Ma as [M1 M2].
      destruct (dget a ms) as [m|] eqn:D; [|discriminate].
      assert (N' : NoDup (fst s ++ [a])). { apply NoDup_rev in N. rewrite <- (rev_involutive (fst s ++ [a])). apply NoDup_rev. rewrite rev_app_distr. cbn. constructor; [now rewrite <- in_rev|exact N]. }
      destruct (IH _ _ E N') as (I1 & I2 & I3 & I4). cbn [fst snd] in *. split; [exact I1|]. split; [|split].
      * intros k. rewrite I2, in_app_iff. cbn [In]. split; [intros [[A|[<-|[]]]|[A B]]; auto|]. intros [A|[A [<-|B]]]; auto.
      * intros k A B. destruct (String.string_dec k a) as [->|Nk].
        -- split; [now left|]. exists m. split; [exact D|]. rewrite I4 by (left; apply in_or_app; right; now left). apply dget_dset_same.
        -- destruct (I3 k A) as [C X]; [rewrite in_app_iff; cbn; intros [Y|[Y|[]]]; [contradiction|congruence]|]. split; [now right|exact X].
      * intros k A. assert (Nk : k <> a). { intros ->. destruct A as [A|A]; [contradiction|]. apply A, I2. left. apply in_or_app. right. now left. }
        rewrite I4; [apply dget_dset_other; congruence|]. destruct A as [A|A]; [left; apply in_or_app; now left|now right].
Qed.
Lemma all_required_spec is : forall s s', all_required is s = Some s' -> NoDup (fst s) ->
  NoDup (fst s') /\ (forall k, In k (fst s') <-> In k (fst s) \/ needed k is)
  /\ (forall k, In k (fst s') -> ~ In k (fst s) -> exists pre i post m, is = pre ++ i :: post /\ In k (i_required i) /\ (forall j, In j pre -> ~ In k (i_required j))
        /\ dget k (i_metas i) = Some m /\ dget k (snd s') = Some m)
  /\ (forall k, In k (fst s) \/ ~ In k (fst s') -> dget k (snd s') = dget k (snd s)).
Proof.
  induction is as [|i is IH]; intros s s' E N; cbn [all_required] in E.
  - injection E as <-. split; [exact N|]. split; [intros k; split; [auto|intros [A|(_ & i & [] & _)]; exact A]|]. split; [intros k A B; contradiction|reflexivity].
  - destruct (add_required _ _ s) as [s1|] eqn:E1; [|discriminate]. destruct (add_required_spec _ _ _ _ E1 N) as (A1 & A2 & A3 & A4). destruct (IH _ _ E A1) as (B1 & B2 & B3 & B4).
    split; [exact B1|]. split; [|split].
    + intros k. rewrite B2, A2. unfold needed. split.
      * intros [[X|[X Y]]|(X & j & Y & Z)]; [auto|right; split; [exact X|exists i; split; [now left|exact Y]]|right; split; [exact X|exists j; split; [now right|exact Z]]].
      * intros [X|(X & j & [<-|Y] & Z)]; [auto|auto|right; split; [exact X|exists j; auto]].
    + intros k X Y. destruct (in_dec string_dec k (fst s1)) as [I|I].
      * destruct (A3 k I Y) as (C & m & D & F). exists [], i, is, m. split; [reflexivity|]. split; [exact C|]. split; [intros j []|]. split; [exact D|]. now rewrite B4 by auto.
      * destruct (B3 k X I) as (pre & j & post & m & P & C & D & F & G). exists (i :: pre), j, post, m. split; [cbn; now rewrite P|]. split; [exact C|]. split; [|split; assumption].
        intros j' [<-|J]; [|now apply D]. intros R. apply I, A2. right. split; [|exact R]. assert (T : In k (fst s')) by exact X. apply B2 in T as [T|T]; [contradiction|apply T].
    + intros k X. rewrite B4, A4; auto.
      * destruct X as [X|X]; [now left|]. right. intros Y. apply X, B2. now left.
      * destruct X as [X|X]; [left; apply A2; now left|now right].
Qed.

(* ---- optional ---- *)
(* The default for k with one more. *)
Definition one_more (acc : option value) (c : kind * value) : option value :=
  match merges (fst c) with
  | Some true => Some (VTable ((match acc with Some v0 => rows_of v0 | None => [] end) ++ rows_of (snd c)))
  | _ => Some (snd c)
  end.
Lemma add_default_spec k m v ds ds' : add_default k m v ds = Some ds' ->
  (forall k', k' <> k -> dget k' ds' = dget k' ds) /\ dget k ds' = one_more (dget k ds) (m, v) /\ merges m <> None /\ (forall k', In k' (dkeys ds') <-> k' = k \/ In k' (dkeys ds)) /\ (NoDup (dkeys ds) -> NoDup (dkeys ds')).
Proof.
  unfold add_default, one_more. cbn [fst snd]. destruct (merges m) as [[|]|] eqn:M; [| |discriminate].
  - destruct (match dget k ds with Some v0 => rows v0 | None => Some [] end) as [a|] eqn:A; [|discriminate]. destruct (rows v) as [b|] eqn:B; [|discriminate]. intros E. injection E as <-.
    assert (Bv : rows_of v = b) by (destruct v; cbn in *; congruence). assert (Av : match dget k ds with Some v0 => rows_of v0 | None => [] end = a) by (destruct (dget k ds) as [[|]|]; cbn in *; congruence).
    rewrite Av, Bv. split; [intros k' N; apply dget_dset_other; congruence|]. split; [apply dget_dset_same|]. split; [discriminate|]. split; [intros k'; apply In_dkeys_dset|apply dset_nodup].
  - intros E. injection E as <-. split; [intros k' N; apply dget_dset_other; congruence|]. split; [apply dget_dset_same|]. split; [discriminate|]. split; [intros k'; apply In_dkeys_dset|apply dset_nodup].
Qed.
Definition blocked (k : string) (req : list string) : bool := smem k (req ++ ignored).
Lemma add_optional_spec req defs ms : forall s s', add_optional req defs ms s = Some s' -> NoDup (dkeys ms) ->
  forall k, dget k (fst s') = (if blocked k req then dget k (fst s) else match dget k ms with Some m => Some m | None => dget k (fst s) end)
  /\ dget k (snd s') = (if blocked k req then dget k (snd s) else match dget k ms, dget k defs with Some m, Some v => one_more (dget k (snd s)) (m, v) | _, _ => dget k (snd s) end)
  /\ (blocked k req = false -> forall m v, dget k ms = Some m -> dget k defs = Some v -> merges m <> None).
Proof.
  induction ms as [|[a m] ms IH]; intros s s' E N k; cbn [add_optional] in E.
  - injection E as <-. cbn [dget]. destruct (blocked k req); (split; [reflexivity|]; split; [reflexivity|]); intros; discriminate.
  - inversion N as [|? ? Na N']; subst. fold (blocked a req) in E. destruct (blocked a req) eqn:B.
    + destruct (IH _ _ E N' k) as (I1 & I2 & I3). rewrite I1, I2. cbn [dget]. destruct (String.eqb_spec k a) as [->|Nk]; [rewrite B|auto]. split; [reflexivity|]. split; [reflexivity|]. congruence.
    + destruct (match dget a defs with Some v => add_default a m v (snd s) | None => Some (snd s) end) as [ds|] eqn:D; [|discriminate].
      destruct (IH _ _ E N' k) as (I1 & I2 & I3). rewrite I1, I2. cbn [fst snd dget]. destruct (String.eqb_spec k a) as [->|Nk].
      * assert (Z : dget a ms = None) by now apply dget_None_notin. rewrite Z, B, dget_dset_same. split; [reflexivity|]. destruct (dget a defs) as [v|] eqn:V.
        -- destruct (add_default_spec _ _ _ _ _ D) as (_ & D2 & D3 & _). split; [exact D2|]. intros _ m' v' [= <-] _. exact D3.
        -- injection D as <-. split; [reflexivity|]. intros; discriminate.
      * rewrite dget_dset_other by congruence. split; [reflexivity|]. split; [|exact I3]. assert (X : dget k ds = dget k (snd s)); [|now rewrite X].
        destruct (dget a defs) as [v|]; [apply (add_default_spec _ _ _ _ _ D); exact Nk|congruence].
Qed.
Definition last_kind (k : string) (is : list cinfo) (d : option kind) : option kind := fold_left (fun acc i => match dget k (i_metas i) with Some m => Some m | None => acc end) is d.
Lemma all_optional_spec req is : forall s s', all_optional req is s = Some s' -> (forall i, In i is -> in_order i) ->
  forall k, dget k (fst s') = (if blocked k req then dget k (fst s) else last_kind k is (dget k (fst s)))
  /\ dget k (snd s') = (if blocked k req then dget k (snd s) else fold_left one_more (contributions k is) (dget k (snd s)))
  /\ (blocked k req = false -> forall c, In c (contributions k is) -> merges (fst c) <> None).
Proof.
  induction is as [|i is IH]; intros s s' E W k; cbn [all_optional] in E.
  - injection E as <-. cbn. split; [now destruct (blocked k req)|]. split; [now destruct (blocked k req)|]. intros _ c [].
  - destruct (add_optional _ _ _ s) as [s1|] eqn:E1; [|discriminate]. destruct (add_optional_spec _ _ _ _ _ E1 (proj1 (W i (or_introl eq_refl))) k) as (A1 & A2 & A3).
    destruct (IH _ _ E (fun j J => W j (or_intror J)) k) as (I1 & I2 & I3). rewrite I1, I2, A1, A2. unfold last_kind, contributions. cbn [fold_left flat_map]. fold (contributions k is). destruct (blocked k req) eqn:B; [split; [reflexivity|]; split; [reflexivity|congruence]|].
    split; [reflexivity|]. destruct (dget k (i_metas i)) as [m|] eqn:M; [destruct (dget k (i_defaults i)) as [v|] eqn:V|]; cbn [Datatypes.app fold_left]; (split; [reflexivity|]); intros _ c C; [destruct C as [<-|C]|..]; [now apply (A3 eq_refl m v)|apply I3; auto..].
Qed.
Lemma last_kind_spec k is : forall d, (last_kind k is d = d /\ forall i, In i is -> dget k (i_metas i) = None)
  \/ exists pre i post m, is = pre ++ i :: post /\ dget k (i_metas i) = Some m /\ (forall j, In j post -> dget k (i_metas j) = None) /\ last_kind k is d = Some m.
Proof.
  induction is as [|i is IH] using rev_ind; intros d; [left; split; [reflexivity|intros i []]|]. unfold last_kind. rewrite fold_left_app. cbn [fold_left]. fold (last_kind k is d). destruct (dget k (i_metas i)) as [m|] eqn:M.
  - right. exists is, i, [], m. split; [reflexivity|]. split; [exact M|]. split; [intros j []|reflexivity].
  - destruct (IH d) as [[A B]|(pre & j & post & m & A & B & C & D)].
    + left. split; [exact A|]. intros j J. apply in_app_or in J as [J|[<-|[]]]; [now apply B|exact M].
    + right. exists pre, j, (post ++ [i]), m. split; [rewrite A, <- app_assoc; reflexivity|]. split; [exact B|]. split; [|exact D]. intros j' J. apply in_app_or in J as [J|[<-|[]]]; [now apply C|exact M].
Qed.

(* ---- the model put together ---- *)
Lemma dget_elements k ms : dget k (set_elements ms) = if String.eqb k "typeid" then None else dget k ms.
Proof.
  unfold set_elements. induction ms as [|[a m] ms IH]; cbn [filter dget fst]; [now destruct (String.eqb k "typeid")|]. destruct (String.eqb_spec a "typeid") as [->|N]; cbn [negb dget].
  - rewrite IH. now destruct (String.eqb k "typeid").
  - rewrite IH. destruct (String.eqb_spec k a) as [->|Nk]; [|reflexivity]. destruct (String.eqb_spec a "typeid"); [contradiction|reflexivity].
Qed.
Lemma check_same m v v' : check m v = Some v' -> v' = v.
Proof. destruct m, v; cbn; try discriminate; [destruct (String.eqb _ _)|destruct (forallb _ _)]; congruence. Qed.
Lemma set_defaults_spec es ds : forall ds', set_defaults es ds = Some ds' -> forall k, dget k ds' = if String.eqb k "typeid" then None else dget k ds.
Proof.
  induction ds as [|[a v] ds IH]; intros ds' E k; cbn [set_defaults] in E.
  - injection E as <-. now destruct (String.eqb k "typeid").
  - cbn [dget]. destruct (String.eqb_spec a "typeid") as [->|N].
    + rewrite (IH _ E). now destruct (String.eqb k "typeid").
    + destruct (dget a es) as [m|]; [|discriminate]. destruct (check m v) as [v'|] eqn:C; [|discriminate]. destruct (set_defaults es ds) as [r|] eqn:R; [|discriminate]. injection E as <-. cbn [dget]. rewrite (IH _ eq_refl).
      apply check_same in C. subst v'. destruct (String.eqb_spec k a) as [->|Nk]; [|reflexivity]. destruct (String.eqb_spec a "typeid"); [contradiction|reflexivity].
Qed.
Definition base_metas : dict kind := [("generator", KScalar "generator")].
Lemma model_parts is m : update_configure_model own is = Some m -> exists req metas1 metas defs,
  all_required is (["generator"], base_metas) = Some (req, metas1)
  /\ all_optional req is (fold_left (fun ms e => if smem (fst e) req then ms else dset (fst e) (snd e) ms) (map (fun e => (fst e, fst (snd e))) own) metas1, []) = Some (metas, defs)
  /\ elements m = set_elements metas /\ required m = req /\ set_defaults (elements m) defs = Some (defaults m) /\ forall k, In k req -> In k (dkeys (elements m)).
Proof.
  unfold update_configure_model. change (from_callable own) with (map (fun e : string * (kind * default) => (fst e, fst (snd e))) own, ["generator"]). cbn iota.
  change (fold_left _ ["generator"] []) with base_metas. destruct (all_required is _) as [[req metas1]|]; [|discriminate]. destruct (all_optional req is _) as [[metas defs]|] eqn:O; [|discriminate].
  unfold set_required. destruct (forallb _ req) eqn:F; [|discriminate]. destruct (set_defaults _ _) as [d|] eqn:D; [|discriminate]. intros E. injection E as <-. exists req, metas1, metas, defs. cbn [elements required defaults].
  split; [reflexivity|]. split; [exact O|]. split; [reflexivity|]. split; [reflexivity|]. split; [exact D|]. intros k I. rewrite forallb_forall in F. now apply dmem_In, F.
Qed.
Definition own_keys := ["generator"; "axesToMove"; "breakpoints"].
Lemma metas2_get req metas1 k : dget k (fold_left (fun ms e => if smem (fst e) req then ms else dset (fst e) (snd e) ms) (map (fun e : string * (kind * default) => (fst e, fst (snd e))) own) metas1)
  = if smem k req then dget k metas1 else match dget k own with Some (m, _) => Some m | None => dget k metas1 end.
Proof.
  cbn [own map fst snd fold_left].
  destruct (smem "generator" req) eqn:G, (smem "axesToMove" req) eqn:A, (smem "breakpoints" req) eqn:B; destruct (String.eqb_spec k "generator") as [->|N1];
    try (rewrite G; cbn [dget own String.eqb]; repeat rewrite dget_dset_other by discriminate; rewrite ?dget_dset_same; reflexivity);
  (destruct (String.eqb_spec k "axesToMove") as [->|N2]; [rewrite A; cbn [dget own]; repeat rewrite dget_dset_other by discriminate; rewrite ?dget_dset_same; reflexivity|]);
  (destruct (String.eqb_spec k "breakpoints") as [->|N3]; [rewrite B; cbn [dget own]; repeat rewrite dget_dset_other by discriminate; rewrite ?dget_dset_same; reflexivity|]);
  cbn [dget own]; apply String.eqb_neq in N1, N2, N3; rewrite N1, N2, N3; repeat rewrite dget_dset_other by (intros X; subst k; vm_compute in N1, N2, N3; discriminate); now destruct (smem k req).
Qed.
Lemma add_required_nodup ms ks : forall s s', add_required ms ks s = Some s' -> NoDup (dkeys (snd s)) -> NoDup (dkeys (snd s')).
Proof. induction ks as [|a ks IH]; intros s s' E N; cbn [add_required] in E; [congruence|]. destruct (smem a _); [eauto|]. destruct (dget a ms); [|discriminate]. apply (IH _ _ E). now apply dset_nodup. Qed.
Lemma all_required_nodup is : forall s s', all_required is s = Some s' -> NoDup (dkeys (snd s)) -> NoDup (dkeys (snd s')).
Proof. induction is as [|i is IH]; intros s s' E N; cbn [all_required] in E; [congruence|]. destruct (add_required _ _ s) eqn:A; [|discriminate]. apply (IH _ _ E). eapply add_required_nodup; eauto. Qed.
Lemma add_optional_nodup req defs ms : forall s s', add_optional req defs ms s = Some s' -> NoDup (dkeys (fst s)) /\ NoDup (dkeys (snd s)) -> NoDup (dkeys (fst s')) /\ NoDup (dkeys (snd s')).
Proof.
  induction ms as [|[a m] ms IH]; intros s s' E [N1 N2]; cbn [add_optional] in E; [injection E as <-; auto|]. destruct (smem a _); [eauto|]. destruct (dget a defs) as [v|].
  - destruct (add_default a m v (snd s)) as [ds|] eqn:D; [|discriminate]. apply (IH _ _ E). cbn [fst snd]. split; [now apply dset_nodup|]. apply (add_default_spec _ _ _ _ _ D). exact N2.
  - apply (IH _ _ E). cbn [fst snd]. split; [now apply dset_nodup|exact N2].
Qed.
Lemma all_optional_nodup req is : forall s s', all_optional req is s = Some s' -> NoDup (dkeys (fst s)) /\ NoDup (dkeys (snd s)) -> NoDup (dkeys (fst s')) /\ NoDup (dkeys (snd s')).
Proof. induction is as [|i is IH]; intros s s' E N; cbn [all_optional] in E; [injection E as <-; auto|]. destruct (add_optional _ _ _ s) eqn:A; [|discriminate]. apply (IH _ _ E). eapply add_optional_nodup; eauto. Qed.
Lemma filter_nodup {A} (f : string * A -> bool) (d : dict A) : NoDup (dkeys d) -> NoDup (dkeys (filter f d)).
Proof.
  unfold dkeys. induction d as [|e d IH]; cbn [map filter]; intros N; [constructor|]. inversion N as [|? ? Na N']; subst. destruct (f e); [|auto]. cbn [map]. constructor; [|auto].
  intros I. apply Na. apply in_map_iff in I as (e' & E & I). apply filter_In in I as [I _]. apply in_map_iff. eauto.
Qed.
Lemma set_defaults_keys es ds : forall ds', set_defaults es ds = Some ds' -> dkeys ds' = filter (fun k => negb (String.eqb k "typeid")) (dkeys ds).
Proof.
  induction ds as [|[a v] ds IH]; intros ds' E; cbn [set_defaults] in E; [injection E as <-; reflexivity|]. cbn. destruct (String.eqb a "typeid"); cbn [negb]; [auto|].
  destruct (dget a es); [|discriminate]. destruct (check _ v); [|discriminate]. destruct (set_defaults es ds); [|discriminate]. injection E as <-. cbn. f_equal. now apply IH.
Qed.

(* Required is what the controller or some part can not do without, each once. *)
Theorem C91_required is m : update_configure_model own is = Some m ->
  NoDup (required m) /\ (forall k, In k (required m) <-> k = "generator" \/ needed k is) /\ incl (required m) (dkeys (elements m)).
Proof.
  intros E. destruct (model_parts is m E) as (req & metas1 & metas & defs & P1 & P2 & P3 & P4 & P5 & P6). subst req.
  destruct (all_required_spec _ _ _ P1) as (R1 & R2 & _ & _); [repeat constructor; intros []|]. split; [exact R1|]. split; [|exact P6]. intros k. rewrite (R2 k). cbn. split; [intros [[H|[]]|H]; auto|intros [H|H]; auto].
Qed.
Print Assumptions C91_required.
Lemma needed_asked k is : (forall i, In i is -> in_order i) -> needed k is -> asked k is.
Proof. intros W (A & i & B & C). split; [exact A|]. exists i. split; [exact B|]. now apply (W i B). Qed.
Lemma own_ignored k : In k own_keys -> In k ignored.
Proof. intros [<-|[<-|[<-|[]]]]; cbn; auto 10. Qed.
Lemma own_get k : dget k own = None <-> ~ In k own_keys.
Proof.
  cbn [own dget]. unfold own_keys. split.
  - destruct (String.eqb_spec k "generator"); [discriminate|]. destruct (String.eqb_spec k "axesToMove"); [discriminate|]. destruct (String.eqb_spec k "breakpoints"); [discriminate|]. intros _ [H|[H|[H|[]]]]; congruence.
  - intros N. destruct (String.eqb_spec k "generator"); [exfalso; apply N; subst; cbn; auto|]. destruct (String.eqb_spec k "axesToMove"); [exfalso; apply N; subst; cbn; auto|]. destruct (String.eqb_spec k "breakpoints"); [exfalso; apply N; subst; cbn; auto|reflexivity].
Qed.
(* The type of an argument: for one that is required that of the first part that requires it, else that of the last that takes it;
   the arguments of the controller itself keep theirs. *)
Theorem C91_type is m k t : update_configure_model own is = Some m -> (forall i, In i is -> in_order i) -> k <> "typeid" ->
  (dget k (elements m) = Some t <->
   (exists d, dget k own = Some (t, d))
   \/ (exists pre i post, ~ In k ignored /\ is = pre ++ i :: post /\ dget k (i_metas i) = Some t /\ In k (i_required i) /\ forall j, In j pre -> ~ In k (i_required j))
   \/ (exists pre i post, ~ In k ignored /\ is = pre ++ i :: post /\ dget k (i_metas i) = Some t /\ ~ needed k is /\ forall j, In j post -> dget k (i_metas j) = None)).
Proof.
  intros E W Nt. destruct (model_parts is m E) as (req & metas1 & metas & defs & P1 & P2 & P3 & P4 & P5 & P6).
  destruct (all_required_spec _ _ _ P1) as (R1 & R2 & R3 & R4); [repeat constructor; intros []|]. cbn [fst snd] in *.
  destruct (all_optional_spec _ _ _ _ P2 W k) as (O1 & _ & _). cbn [fst snd] in O1. rewrite P3, dget_elements. apply String.eqb_neq in Nt. rewrite Nt, O1, metas2_get.
  assert (Bl : blocked k req = true <-> In k req \/ In k ignored) by (unfold blocked; rewrite smem_In, in_app_iff; tauto).
  assert (Rq : smem k req = true <-> In k req) by apply smem_In.
  destruct (dget k own) as [[mo d]|] eqn:O.
  - assert (Ko : In k own_keys). { destruct (in_dec string_dec k own_keys) as [I|I]; [exact I|]. apply own_get in I. congruence. }
    pose proof (own_ignored k Ko) as Ki. assert (Br : blocked k req = true) by (apply Bl; auto). rewrite Br.
    assert (X : (if smem k req then dget k metas1 else Some mo) = Some mo).
    { destruct (smem k req) eqn:S; [|reflexivity]. apply smem_In in S. apply R2 in S as [S|(S & _)]; [|contradiction]. destruct S as [<-|[]]. cbn in O. injection O as <- <-. rewrite R4 by (left; now left). reflexivity. }
    rewrite X. split; [intros [= <-]; left; eauto|]. intros [(d' & [= <- <-])|[(pre & i & post & N & _)|(pre & i & post & N & _)]]; [reflexivity|contradiction|contradiction].
  - assert (Ko : ~ In k own_keys) by now apply own_get.
    destruct (smem k req) eqn:S.
    + apply smem_In in S. assert (Br : blocked k req = true) by (apply Bl; auto). rewrite Br. assert (Nk : ~ In k ["generator"]) by (intros [<-|[]]; apply Ko; now left).
      assert (Nd : needed k is) by (apply R2 in S as [S|S]; [contradiction|exact S]).
      destruct (R3 k S Nk) as (pre & i & post & mi & A & B & C & D & F). rewrite F. split.
      * intros [= <-]. right. left. exists pre, i, post. split; [apply Nd|auto].
      * intros [(d & X)|[(pre' & i' & post' & _ & A' & D' & B' & C')|(pre' & i' & post' & _ & _ & _ & N & _)]]; [discriminate| |contradiction].
        assert (H : i' = i); [|subst; congruence]. clear - A A' B B' C C'. subst is. revert pre' A' C'. induction pre as [|p pre IH]; intros [|p' pre'] A' C'; cbn in A'; injection A' as <- A'.
        -- reflexivity. -- exfalso. apply (C' i); [now left|exact B]. -- exfalso. apply (C p); [now left|exact B']. -- apply (IH (fun j J => C j (or_intror J)) pre' A'). intros j J. apply C'. now right.
    + assert (Sk : ~ In k req) by (rewrite <- smem_In; congruence). assert (M1 : dget k metas1 = None). { rewrite R4 by auto. unfold base_metas. cbn. destruct (String.eqb_spec k "generator") as [->|]; [exfalso; apply Sk, R2; left; now left|reflexivity]. }
      rewrite M1. assert (Nn : ~ needed k is) by (intros N; apply Sk, R2; now right). destruct (blocked k req) eqn:Br.
      * destruct (proj1 Bl eq_refl) as [Bs|Bs]; [contradiction|]. split; [discriminate|]. intros [(d & X)|[(? & ? & ? & N & _)|(? & ? & ? & N & _)]]; [discriminate|contradiction|contradiction].
      * assert (Ni : ~ In k ignored) by (intros X; assert (false = true) by (apply Bl; auto); discriminate).
        destruct (last_kind_spec k is None) as [[L1 L2]|(pre & i & post & mi & L1 & L2 & L3 & L4)].
        -- rewrite L1. split; [discriminate|]. intros [(d & X)|[(pre & i & post & _ & A & D & _)|(pre & i & post & _ & A & D & _)]]; [discriminate|..]; rewrite L2 in D; try discriminate; rewrite A; apply in_or_app; right; now left.
        -- rewrite L4. split; [intros [= <-]; right; right; exists pre, i, post; auto|]. intros [(d & X)|[(pre' & i' & post' & _ & A & _ & R & _)|(pre' & i' & post' & _ & A & D & _ & C)]]; [discriminate| |].
           ++ exfalso. apply Nn. split; [exact Ni|]. exists i'. split; [rewrite A; apply in_or_app; right; now left|exact R].
           ++ assert (H : i' = i); [|subst; congruence]. clear - A L1 L2 L3 D C. subst is. revert pre' A. induction pre as [|p pre IH]; intros [|p' pre'] A; cbn in A; injection A as A0 A; subst.
              ** reflexivity. ** exfalso. rewrite L3 in D; [discriminate|]. apply in_or_app. right. now left. ** exfalso. rewrite C in L2; [discriminate|]. apply in_or_app. right. now left. ** apply (IH pre' A).
Qed.
Print Assumptions C91_type.
(* The arguments are those of the controller and those that some part takes. *)
Theorem C91_elements is m : update_configure_model own is = Some m -> (forall i, In i is -> in_order i) ->
  NoDup (dkeys (elements m)) /\ forall k, In k (dkeys (elements m)) <-> k <> "typeid" /\ (In k own_keys \/ asked k is).
Proof.
  intros E W. destruct (model_parts is m E) as (req & metas1 & metas & defs & P1 & P2 & P3 & P4 & P5 & P6). split.
  - rewrite P3. apply filter_nodup. apply (all_optional_nodup _ _ _ _ P2). cbn [fst snd]. split; [|constructor].
    assert (N1 : NoDup (dkeys metas1)) by (apply (all_required_nodup _ _ _ P1); cbn; repeat constructor; intros []). generalize (map (fun e : string * (kind * default) => (fst e, fst (snd e))) own). intros l. revert metas1 N1 P1 P2. 
    assert (G : forall l ms, NoDup (dkeys ms) -> NoDup (dkeys (fold_left (fun ms e => if smem (fst e) req then ms else dset (fst e) (snd e : kind) ms) l ms))).
    { clear. induction l as [|e l IH]; intros ms N; cbn [fold_left]; [exact N|]. apply IH. destruct (smem _ req); [exact N|now apply dset_nodup]. }
    intros metas1 N1 _ _. now apply G.
  - intros k. destruct (string_dec k "typeid") as [->|Nt].
    + split; [|intros [X _]; congruence]. intros I. exfalso. rewrite P3 in I. apply dget_key in I as (v & I). rewrite dget_elements in I. discriminate.
    + rewrite dget_key. split.
      * intros (t & G). split; [exact Nt|]. apply (C91_type is m k t E W Nt) in G as [(d & G)|[(pre & i & post & A & B & C & _)|(pre & i & post & A & B & C & _)]].
        -- left. destruct (in_dec string_dec k own_keys) as [I|I]; [exact I|]. apply own_get in I. congruence.
        -- right. split; [exact A|]. exists i. split; [rewrite B; apply in_or_app; right; now left|]. apply dget_key. eauto.
        -- right. split; [exact A|]. exists i. split; [rewrite B; apply in_or_app; right; now left|]. apply dget_key. eauto.
      * intros [_ [I|I]].
        -- destruct (dget k own) as [[t d]|] eqn:O; [|apply own_get in O; contradiction]. exists t. apply (C91_type is m k t E W Nt). left. eauto.
        -- destruct (in_dec string_dec k (required m)) as [Ir|Ir]; [apply dget_key; subst req; now apply P6|]. assert (Nn : ~ needed k is). { intros N. apply Ir. apply (C91_required is m E). now right. }
           destruct I as (Ni & i0 & Ii & Ik). destruct (last_kind_spec k is None) as [[_ L2]|(pre & i & post & mi & L1 & L2 & L3 & _)]; [apply dget_key in Ik as (t & Ik); rewrite (L2 i0 Ii) in Ik; discriminate|].
           exists mi. apply (C91_type is m k mi E W Nt). right. right. exists pre, i, post. auto.
Qed.
Print Assumptions C91_elements.
(* There is a default for exactly the arguments that are not required and for which some part has one. *)
Lemma one_more_fold l : forall acc, l <> [] -> fold_left one_more l acc <> None.
Proof. induction l as [|c l IH] using rev_ind; intros acc N; [congruence|]. rewrite fold_left_app. cbn [fold_left]. unfold one_more at 1. destruct (merges (fst c)) as [[|]|]; discriminate. Qed.
Lemma default_fold is m : update_configure_model own is = Some m -> (forall i, In i is -> in_order i) -> forall k,
  dget k (defaults m) = if String.eqb k "typeid" then None else if smem k (required m ++ ignored) then None else fold_left one_more (contributions k is) None.
Proof.
  intros E W k. destruct (model_parts is m E) as (req & metas1 & metas & defs & P1 & P2 & P3 & P4 & P5 & P6). rewrite (set_defaults_spec _ _ _ P5). destruct (all_optional_spec _ _ _ _ P2 W k) as (_ & O2 & _). cbn [fst snd dget] in O2. rewrite P4. unfold blocked in O2. now rewrite O2.
Qed.
Theorem C91_has_default is m k : update_configure_model own is = Some m -> (forall i, In i is -> in_order i) ->
  (In k (dkeys (defaults m)) <-> k <> "typeid" /\ ~ In k ignored /\ ~ needed k is /\ contributions k is <> []).
Proof.
  intros E W. rewrite dget_key, (default_fold is m E W). destruct (C91_required is m E) as (_ & R & _). destruct (String.eqb_spec k "typeid") as [->|Nt].
  - split; [intros (v & X); discriminate|intros [X _]; congruence].
  - destruct (smem k (required m ++ ignored)) eqn:S.
    + apply smem_In, in_app_or in S. split; [intros (v & X); discriminate|]. intros (_ & Ni & Nn & _). exfalso. destruct S as [S|S]; [|contradiction]. apply R in S as [->|S]; [apply Ni; cbn; auto 10|contradiction].
    + apply smem_false in S. rewrite in_app_iff in S. split.
      * intros (v & X). split; [exact Nt|]. split; [tauto|]. split; [intros N; apply S; left; apply R; now right|]. intros C. rewrite C in X. discriminate.
      * intros (_ & _ & _ & C). destruct (fold_left one_more (contributions k is) None) as [v|] eqn:F; [eauto|]. exfalso. now apply (one_more_fold _ None C).
Qed.
Print Assumptions C91_has_default.
(* It is that of the last part, with the rows of those after it that are put together. *)
Theorem C91_default is m k pre t v post : update_configure_model own is = Some m -> (forall i, In i is -> in_order i) ->
  k <> "typeid" -> ~ In k ignored -> ~ needed k is ->
  contributions k is = pre ++ (t, v) :: post -> merges t = Some false \/ pre = [] -> (forall c, In c post -> merges (fst c) = Some true) ->
  exists d, dget k (defaults m) = Some d /\ rows_of d = rows_of v ++ flat_map (fun c => rows_of (snd c)) post /\ (post = [] -> merges t = Some false -> d = v).
Proof.
  intros E W Nt Ni Nn C A B. rewrite (default_fold is m E W). apply String.eqb_neq in Nt. rewrite Nt. destruct (C91_required is m E) as (_ & R & _).
  assert (S : smem k (required m ++ ignored) = false). { apply smem_false. rewrite in_app_iff. intros [S|S]; [|contradiction]. apply R in S as [->|S]; [apply Ni; cbn; auto 10|contradiction]. }
  rewrite S, C, fold_left_app. cbn [fold_left]. assert (H1 : exists d, one_more (fold_left one_more pre None) (t, v) = Some d /\ rows_of d = rows_of v /\ (merges t = Some false -> d = v)).
  { unfold one_more at 1. cbn [fst snd]. destruct A as [A| ->]; [rewrite A; exists v; auto|]. cbn [fold_left Datatypes.app]. destruct (merges t) as [[|]|]; [|exists v; auto..]. eexists. split; [reflexivity|]. split; [reflexivity|discriminate]. }
  destruct H1 as (d0 & H1 & H2 & H3). rewrite H1.
  assert (G : forall post d0, (forall c, In c post -> merges (fst c) = Some true) -> exists d, fold_left one_more post (Some d0) = Some d /\ rows_of d = rows_of d0 ++ flat_map (fun c => rows_of (snd c)) post /\ (post = [] -> d = d0)).
  { clear. induction post as [|c post IH]; intros d0 B; cbn [fold_left flat_map]; [exists d0; rewrite app_nil_r; auto|]. unfold one_more at 2. rewrite (B c (or_introl eq_refl)). destruct (IH (VTable (rows_of d0 ++ rows_of (snd c))) (fun c' J => B c' (or_intror J))) as (d & I1 & I2 & _).
    exists d. split; [exact I1|]. split; [rewrite I2; cbn [rows_of]; now rewrite app_assoc|discriminate]. }
  destruct (G post d0 B) as (d & G1 & G2 & G3). exists d. split; [exact G1|]. split; [now rewrite G2, H2|]. intros P M. rewrite (G3 P). auto.
Qed.
Print Assumptions C91_default.

(* ---- when it can be done ---- *)
(* Parts that take an argument of the same name take the same type. *)
Definition same_type (a b : kind) : Prop :=
  match a, b with KScalar s, KScalar t => s = t | KTable c, KTable d => map fst c = map fst d /\ c <> [] | _, _ => False end.
Record fit (is : list cinfo) : Prop := {
  fit_order : forall i, In i is -> in_order i;
  fit_names : forall i, In i is -> ~ In "typeid" (dkeys (i_metas i));
  fit_types : forall i j k a b, In i is -> In j is -> dget k (i_metas i) = Some a -> dget k (i_metas j) = Some b -> same_type a b;
  fit_defaults : forall i k a v, In i is -> dget k (i_metas i) = Some a -> dget k (i_defaults i) = Some v -> check a v = Some v
}.
Lemma same_check a b v : same_type a b -> check a v = check b v.
Proof.
  destruct a as [s|c], b as [t|d]; cbn; try tauto; [intros ->; reflexivity|]. intros [M _]. assert (L : length c = length d) by (rewrite <- (map_length fst c), M; apply map_length). destruct v; [reflexivity|now rewrite L].
Qed.
Lemma add_required_ok ms ks : incl ks (dkeys ms) -> forall s, exists s', add_required ms ks s = Some s'.
Proof.
  induction ks as [|a ks IH]; intros I s; cbn [add_required]; [eauto|]. assert (I' : incl ks (dkeys ms)) by (intros x X; apply I; now right). destruct (smem a _); [apply (IH I')|].
  destruct (proj1 (dget_key a ms) (I a (or_introl eq_refl))) as (m & ->). apply (IH I').
Qed.
Lemma all_required_ok is : (forall i, In i is -> in_order i) -> forall s, exists s', all_required is s = Some s'.
Proof. induction is as [|i is IH]; intros W s; cbn [all_required]; [eauto|]. destruct (add_required_ok (i_metas i) (i_required i) (proj2 (W i (or_introl eq_refl))) s) as (s' & ->). apply IH. intros j J. apply W. now right. Qed.
(* Each default so far is good for the arguments of its name. *)
Definition good_defs (is : list cinfo) (ds : dict value) : Prop :=
  forall k v, dget k ds = Some v -> exists i a, In i is /\ dget k (i_metas i) = Some a /\ check a v = Some v.
Lemma check_app c a b : check (KTable c) (VTable a) = Some (VTable a) -> check (KTable c) (VTable b) = Some (VTable b) -> check (KTable c) (VTable (a ++ b)) = Some (VTable (a ++ b)).
Proof. cbn. rewrite forallb_app. destruct (forallb _ a); [|discriminate]. destruct (forallb _ b); [reflexivity|discriminate]. Qed.
Lemma add_default_ok all i k m v ds : fit all -> In i all -> dget k (i_metas i) = Some m -> dget k (i_defaults i) = Some v -> good_defs all ds ->
  exists ds', add_default k m v ds = Some ds' /\ good_defs all ds'.
Proof.
  intros F I M V G. pose proof (fit_defaults _ F i k m v I M V) as C. pose proof (fit_types _ F i i k m m I I M M) as T. unfold add_default. destruct m as [s|c].
  - eexists. split; [reflexivity|]. intros k' v' X. destruct (string_dec k' k) as [->|N]; [rewrite dget_dset_same in X; injection X as <-; eauto|rewrite dget_dset_other in X by congruence; auto].
  - cbn in T. destruct T as [_ T]. cbn [merges]. destruct c as [|c0 c]; [congruence|]. set (cc := c0 :: c) in *. destruct v as [|rs]; [discriminate|]. cbn [rows]. destruct (negb (forallb snd cc)).
    + destruct (dget k ds) as [v0|] eqn:D.
      * destruct (G k v0 D) as (j & a & J & A & B). pose proof (fit_types _ F j i k a (KTable cc) J I A M) as S. rewrite (same_check _ _ _ S) in B. destruct v0 as [|r0]; [discriminate|]. cbn [rows]. eexists. split; [reflexivity|].
        intros k' v' X. destruct (string_dec k' k) as [->|N]; [|rewrite dget_dset_other in X by congruence; auto]. rewrite dget_dset_same in X. injection X as <-. exists i, (KTable cc). split; [exact I|]. split; [exact M|]. now apply check_app.
      * eexists. split; [reflexivity|]. cbn [Datatypes.app]. intros k' v' X. destruct (string_dec k' k) as [->|N]; [rewrite dget_dset_same in X; injection X as <-; eauto|rewrite dget_dset_other in X by congruence; auto].
    + eexists. split; [reflexivity|]. intros k' v' X. destruct (string_dec k' k) as [->|N]; [rewrite dget_dset_same in X; injection X as <-; eauto|rewrite dget_dset_other in X by congruence; auto].
Qed.
Lemma add_optional_ok all i req : fit all -> In i all -> forall ms, (forall k m, In (k, m) ms -> dget k (i_metas i) = Some m) -> forall s, good_defs all (snd s) ->
  exists s', add_optional req (i_defaults i) ms s = Some s' /\ good_defs all (snd s').
Proof.
  intros F I. induction ms as [|[k m] ms IH]; intros H s G; cbn [add_optional]; [eauto|]. assert (H' : forall k m, In (k, m) ms -> dget k (i_metas i) = Some m) by (intros; apply H; now right). destruct (smem k _); [apply (IH H' s G)|].
  destruct (dget k (i_defaults i)) as [v|] eqn:V; [|apply (IH H' (dset k m (fst s), snd s) G)]. destruct (add_default_ok all i k m v (snd s) F I (H k m (or_introl eq_refl)) V G) as (ds & -> & G'). apply (IH H' (dset k m (fst s), ds) G').
Qed.
Lemma all_optional_ok all req : fit all -> forall is, incl is all -> forall s, good_defs all (snd s) -> exists s', all_optional req is s = Some s' /\ good_defs all (snd s').
Proof.
  intros F. induction is as [|i is IH]; intros H s G; cbn [all_optional]; [eauto|]. assert (I : In i all) by (apply H; now left).
  destruct (add_optional_ok all i req F I (i_metas i)) with (s := s) as (s' & -> & G'); [|exact G|].
  - intros k m X. apply dget_In_nodup; [apply (fit_order _ F i I)|exact X].
  - apply IH; [|exact G']. intros j J. apply H. now right.
Qed.
Lemma set_defaults_ok es ds : (forall k v, In (k, v) ds -> exists m, dget k es = Some m /\ check m v = Some v) -> exists d, set_defaults es ds = Some d.
Proof.
  induction ds as [|[k v] ds IH]; intros H; cbn [set_defaults]; [eauto|]. destruct IH as (d & D); [intros k' v' X; apply H; now right|]. rewrite D. destruct (String.eqb k "typeid"); [eauto|]. destruct (H k v (or_introl eq_refl)) as (m & -> & ->). eauto.
Qed.
Theorem C91_fits is : fit is -> exists m, update_configure_model own is = Some m.
Proof.
  intros F. pose proof (fit_order _ F) as W. unfold update_configure_model. change (from_callable own) with (map (fun e : string * (kind * default) => (fst e, fst (snd e))) own, ["generator"]). cbn iota. change (fold_left _ ["generator"] []) with base_metas.
  destruct (all_required_ok is W (["generator"], base_metas)) as ([req metas1] & A). rewrite A. destruct (all_optional_ok is req F is (incl_refl is) (fold_left (fun ms e => if smem (fst e) req then ms else dset (fst e) (snd e) ms) (map (fun e => (fst e, fst (snd e))) own) metas1, [])) as ([metas defs] & O & G); [intros k v X; discriminate|].
  rewrite O. cbn [snd] in G. destruct (all_required_spec _ _ _ A) as (R1 & R2 & R3 & R4); [repeat constructor; intros []|]. cbn [fst snd] in *.
  assert (K : forall k, dget k metas = if blocked k req then (if smem k req then dget k metas1 else match dget k own with Some (m, _) => Some m | None => dget k metas1 end) else last_kind k is (if smem k req then dget k metas1 else match dget k own with Some (m, _) => Some m | None => dget k metas1 end)).
  { intros k. destruct (all_optional_spec _ _ _ _ O W k) as (X & _). cbn [fst] in X. rewrite metas2_get in X. exact X. }
  assert (Rq : set_required (set_elements metas) req = Some req).
  { unfold set_required. replace (forallb _ req) with true; [reflexivity|]. symmetry. apply forallb_forall. intros k I. apply dmem_In, dget_key. rewrite dget_elements, K. assert (blocked k req = true) as -> by (apply smem_In, in_or_app; now left). assert (smem k req = true) as -> by now apply smem_In.
    apply R2 in I as I'. destruct I' as [I'|N].
    - destruct I' as [<-|[]]. rewrite R4 by (left; now left). cbn. eauto.
    - destruct (String.eqb_spec k "typeid") as [->|_]; [exfalso; destruct N as (_ & i & Ii & Ik); apply (fit_names _ F i Ii), (W i Ii), Ik|]. destruct (in_dec string_dec k ["generator"]) as [[<-|[]]|Ng]; [rewrite R4 by (left; now left); cbn; eauto|].
      destruct (R3 k I Ng) as (pre & i & post & m & _ & _ & _ & _ & ->). eauto. }
  rewrite Rq. destruct (set_defaults_ok (set_elements metas) defs) as (d & ->); [|eauto]. intros k v X.
  assert (Nd : NoDup (dkeys defs)) by (apply (all_optional_nodup _ _ _ _ O); cbn; split; [|constructor]; clear - A; assert (N1 : NoDup (dkeys metas1)) by (apply (all_required_nodup _ _ _ A); cbn; repeat constructor; intros []);
    repeat match goal with |- context [smem ?x req] => destruct (smem x req) end; repeat apply dset_nodup; exact N1).
  apply (dget_In_nodup _ _ _ Nd) in X. assert (B : blocked k req = false). { destruct (all_optional_spec _ _ _ _ O W k) as (_ & Y & _). cbn [snd] in Y. rewrite X in Y. destruct (blocked k req); [discriminate|reflexivity]. }
  destruct (G k v X) as (i & a & Ii & Ia & Ca). rewrite dget_elements. destruct (String.eqb_spec k "typeid") as [->|_]; [exfalso; apply (fit_names _ F i Ii), dget_key; eauto|]. rewrite K, B.
  destruct (last_kind_spec k is (if smem k req then dget k metas1 else match dget k own with Some (m, _) => Some m | None => dget k metas1 end)) as [[_ L]|(pre & j & post & mj & L1 & L2 & _ & ->)]; [rewrite (L i Ii) in Ia; discriminate|].
  exists mj. split; [reflexivity|]. rewrite <- Ca. apply same_check. apply (fit_types _ F j i k); auto. rewrite L1. apply in_or_app. right. now left.
Qed.
Print Assumptions C91_fits.

(* ---- after any history ---- *)
(* The last info of a part. *)
Definition latest (p : string) (es : list cevent) (before : option cinfo) : option cinfo :=
  fold_left (fun acc e => match e with Report q i => if String.eqb q p then Some i else acc | _ => acc end) es before.
Definition crun parts es s := fold_left (cstep parts) es s.
Lemma update_same parts s : reported (update parts s) = reported s /\ process (update parts s) = process s.
Proof. unfold update. destruct (process s) eqn:P; [|auto]. destruct (update_configure_model _ _); cbn; auto. Qed.
Lemma crun_reported parts es s : forall p, dget p (reported (crun parts es s)) = latest p es (dget p (reported s)).
Proof.
  induction es as [|e es IH] using rev_ind; intros p; [reflexivity|]. unfold crun, latest in *. rewrite !fold_left_app. cbn [fold_left]. destruct e as [q i| |]; cbn [cstep].
  - rewrite (proj1 (update_same _ _)). cbn [reported]. destruct (String.eqb_spec q p) as [->|N]; [apply dget_dset_same|]. rewrite dget_dset_other by congruence. apply IH.
  - apply IH.
  - rewrite (proj1 (update_same _ _)). apply IH.
Qed.
(* What configure takes depends on the last info of each part alone, in the order of the parts; so it does for validate. *)
Theorem C91_latest parts es e s m : e <> SetProcess -> process (crun parts (es ++ [e]) s) = true ->
  update_configure_model own (flat_map (fun p => match latest p (es ++ [e]) (dget p (reported s)) with Some i => [i] | None => [] end) parts) = Some m ->
  m_configure (crun parts (es ++ [e]) s) = m /\ m_validate (crun parts (es ++ [e]) s) = m.
Proof.
  intros Ne P U. pose proof (crun_reported parts (es ++ [e]) s) as R. set (t := crun parts es s). assert (Ct : crun parts (es ++ [e]) s = cstep parts t e) by (unfold crun, t; now rewrite fold_left_app). rewrite Ct in *.
  assert (I : infos_of parts (reported (cstep parts t e)) = flat_map (fun p => match latest p (es ++ [e]) (dget p (reported s)) with Some i => [i] | None => [] end) parts) by (unfold infos_of; apply flat_map_ext; intros p; now rewrite R).
  rewrite <- I in U. destruct e as [q i| |]; [|congruence|]; cbn [cstep] in *; rewrite (proj1 (update_same _ _)) in U; rewrite (proj2 (update_same _ _)) in P; unfold update; rewrite P, U; auto.
Qed.
Print Assumptions C91_latest.
(* They are always the same. *)
Theorem C91_both parts es s : m_configure s = m_validate s -> m_configure (crun parts es s) = m_validate (crun parts es s).
Proof.
  intros E. induction es as [|e es IH] using rev_ind; [exact E|]. unfold crun in *. rewrite fold_left_app. cbn [fold_left]. destruct e; cbn [cstep]; [|exact IH|]; unfold update; cbn [process reported]; (destruct (process _); [|exact IH]); destruct (update_configure_model _ _); [reflexivity|exact IH|reflexivity|exact IH].
Qed.
Print Assumptions C91_both.

(* ---- a call ---- *)
Lemma pick_spec es ps : NoDup (dkeys es) -> match pick es ps with
  | Some args => forall k, dget k args = match dget k es with Some _ => dget k ps | None => None end
  | None => True end
  /\ (pick es ps <> None <-> forall k t v, dget k es = Some t -> dget k ps = Some v -> check t v = Some v).
Proof.
  induction es as [|[a t] es IH]; intros N; cbn [pick].
  - split; [reflexivity|]. split; [intros; discriminate|discriminate].
  - inversion N as [|? ? Na N']; subst. destruct (IH N') as [I1 I2]. assert (Z : dget a es = None) by now apply dget_None_notin. destruct (dget a ps) as [v|] eqn:V.
    + destruct (check t v) as [v'|] eqn:C.
      * pose proof (check_same _ _ _ C). subst v'. destruct (pick es ps) as [r|].
        -- split.
           ++ intros k. cbn [dget]. destruct (String.eqb_spec k a) as [->|Nk]; [now rewrite V|apply I1].
           ++ split; [|discriminate]. intros _ k t' v' G P. cbn [dget] in G. destruct (String.eqb_spec k a) as [->|Nk]; [congruence|]. apply (proj1 I2 ltac:(discriminate) k t' v' G P).
        -- split; [exact I|]. split; [congruence|]. intros H. exfalso. apply (proj2 I2); [|reflexivity]. intros k t' v' G P. apply (H k t' v'); [|exact P]. cbn [dget]. destruct (String.eqb_spec k a) as [->|Nk]; [congruence|exact G].
      * split; [exact I|]. split; [congruence|]. intros H. exfalso. rewrite (H a t v) in C; [discriminate| |exact V]. cbn [dget]. now rewrite String.eqb_refl.
    + destruct (pick es ps) as [r|].
      * split.
        -- intros k. cbn [dget]. destruct (String.eqb_spec k a) as [->|Nk]; [rewrite V, I1, Z; reflexivity|apply I1].
        -- split; [|discriminate]. intros _ k t' v' G P. cbn [dget] in G. destruct (String.eqb_spec k a) as [->|Nk]; [congruence|]. apply (proj1 I2 ltac:(discriminate) k t' v' G P).
      * split; [exact I|]. split; [congruence|]. intros H. exfalso. apply (proj2 I2); [|reflexivity]. intros k t' v' G P. apply (H k t' v'); [|exact P]. cbn [dget]. destruct (String.eqb_spec k a) as [->|Nk]; [congruence|exact G].
Qed.
(* A call is taken if the required arguments are given, no others than there are, each of the right type; and as they are given. *)
Theorem C91_accepts m ps : NoDup (dkeys (elements m)) -> incl (required m) (dkeys (elements m)) ->
  ((exists took, takes_validate m ps = Some took) <->
   incl (dkeys ps) (dkeys (elements m)) /\ incl (required m) (dkeys ps) /\ forall k t v, dget k (elements m) = Some t -> dget k ps = Some v -> check t v = Some v)
  /\ forall took, takes_validate m ps = Some took -> forall k, dget k took = dget k ps.
Proof.
  intros N R. unfold takes_validate. destruct (pick_spec (elements m) ps N) as [P1 P2]. destruct (forallb (fun k => dmem k (elements m)) (dkeys ps)) eqn:F.
  - assert (F' : incl (dkeys ps) (dkeys (elements m))) by (intros k K; rewrite forallb_forall in F; now apply dmem_In, F). destruct (pick (elements m) ps) as [args|].
    + assert (G : forall k, dget k args = dget k ps). { intros k. rewrite P1. destruct (dget k (elements m)) eqn:D; [reflexivity|]. destruct (dget k ps) eqn:Q; [|reflexivity]. assert (K : In k (dkeys (elements m))) by (apply F', dget_key; eauto). apply dget_key in K as (v9 & K). congruence. }
      assert (Q : forallb (fun k => dmem k args) (required m) = true <-> incl (required m) (dkeys ps)). { rewrite forallb_forall. unfold incl. split; intros H k K; specialize (H k K); [apply dmem_In, dget_key in H; rewrite G in H; now apply dget_key|]. apply dmem_In, dget_key. rewrite G. now apply dget_key. }
      split.
      * split.
        -- intros (took & T). destruct (forallb (fun k => dmem k args) (required m)); [|discriminate]. split; [exact F'|]. split; [now apply Q|]. now apply (proj1 P2).
        -- intros (_ & H & _). apply Q in H. rewrite H. eauto.
      * intros took T. destruct (forallb (fun k => dmem k args) (required m)); [|discriminate]. injection T as <-. exact G.
    + split; [|discriminate]. split; [intros (t & T); discriminate|]. intros (_ & _ & H). exfalso. now apply (proj2 P2 H).
  - split; [|discriminate]. split; [intros (t & T); discriminate|]. intros (H & _). exfalso. assert (X : forallb (fun k => dmem k (elements m)) (dkeys ps) = true) by (apply forallb_forall; intros k K; apply dmem_In, H, K). congruence.
Qed.
Print Assumptions C91_accepts.
Lemma fill_get k defs : forall kw, dget k (fill defs kw) = match dget k kw with Some v => Some v | None => dget k defs end.
Proof.
  induction defs as [|[a v] defs IH]; intros kw; [cbn; now destruct (dget k kw)|]. change (fill ((a, v) :: defs) kw) with (fill defs (if dmem a kw then kw else dset a v kw)). rewrite (IH (if dmem a kw then kw else dset a v kw)). cbn [dget]. unfold dmem. destruct (String.eqb_spec k a) as [->|N].
  - destruct (dget a kw) eqn:D; [now rewrite D|]. now rewrite dget_dset_same.
  - destruct (dget a kw); [reflexivity|]. rewrite dget_dset_other by congruence. reflexivity.
Qed.
Lemma demand_spec sup ks : (forall args, demand sup ks = Some args -> dkeys args = ks /\ forall k, In k ks -> dget k args = dget k sup) /\ ((exists args, demand sup ks = Some args) <-> forall k, In k ks -> dget k sup <> None).
Proof.
  induction ks as [|a ks [IH1 IH2]]; cbn [demand].
  - split; [intros args [= <-]; split; [reflexivity|intros k []]|]. split; [intros _ k []|eauto].
  - destruct (dget a sup) as [v|] eqn:A.
    + destruct (demand sup ks) as [d|].
      * split.
        -- intros args [= <-]. destruct (IH1 d eq_refl) as [K G]. split; [unfold dkeys in *; cbn [map fst]; now rewrite K|]. intros k I. cbn [dget]. destruct (String.eqb_spec k a) as [->|N]; [now rewrite A|]. apply G. destruct I as [->|I]; [congruence|exact I].
        -- split; [|eauto]. intros _ k [<-|I]; [congruence|]. apply (proj1 IH2); eauto.
      * split; [discriminate|]. split; [intros (x & X); discriminate|]. intros H. destruct (proj2 IH2) as (x & X); [|discriminate]. intros k I. apply H. now right.
    + split; [discriminate|]. split; [intros (x & X); discriminate|]. intros H. exfalso. now apply (H a (or_introl eq_refl)).
Qed.
Lemma dget_app {A} k (a b : dict A) : dget k (a ++ b) = match dget k a with Some v => Some v | None => dget k b end.
Proof. induction a as [|[x v] a IH]; [reflexivity|]. cbn [Datatypes.app dget]. destruct (String.eqb k x); [reflexivity|exact IH]. Qed.
Lemma dget_filter_out {A} k ks (d : dict A) : ~ In k ks -> dget k (filter (fun e => negb (smem (fst e) ks)) d) = dget k d.
Proof.
  intros N. induction d as [|[x v] d IH]; [reflexivity|]. cbn [filter fst]. destruct (smem x ks) eqn:S; cbn [negb dget].
  - rewrite IH. destruct (String.eqb_spec k x) as [->|]; [apply smem_In in S; contradiction|reflexivity].
  - now rewrite IH.
Qed.
(* What a part is to get for an argument: those of the hook, those of the scan, then what was given, or else the default. *)
Definition gets (axes : value -> value) (sys ps defs : dict value) (k : string) : option value :=
  match dget k sys with
  | Some v => Some v
  | None =>
      match dget k ps with
      | Some v => Some v
      | None => if String.eqb k "axesToMove" then option_map axes (dget "generator" ps)
                else if String.eqb k "breakpoints" then Some (VScalar "int32[]" 0)
                else dget k defs
      end
  end.
Definition hook_keys := ["context"; "completed_steps"; "steps_to_do"; "part_info"].
(* A part is called if there is something for each of its arguments, and with that. *)
Theorem C91_args is m ps took axes sys f : update_configure_model own is = Some m -> (forall i, In i is -> in_order i) -> takes_validate m ps = Some took -> dkeys sys = hook_keys ->
  exists pp, part_params axes took (defaults m) = Some pp
    /\ ((exists args, hook_args sys pp f = Some args) <-> forall k, In k (map fst f) -> gets axes sys ps (defaults m) k <> None)
    /\ forall args, hook_args sys pp f = Some args -> dkeys args = map fst f /\ forall k, In k (map fst f) -> dget k args = gets axes sys ps (defaults m) k.
Proof.
  intros E W T Sy. destruct (C91_elements is m E W) as [N El]. destruct (C91_required is m E) as (_ & Rq & Ri). destruct (C91_accepts m ps N Ri) as [Ac1 Ac2].
  pose proof (Ac2 took T) as G. destruct (proj1 Ac1 (ex_intro _ took T)) as (_ & Hr & _). assert (Gg : In "generator" (dkeys ps)) by (apply Hr, Rq; now left). apply dget_key in Gg as (g & Gg). unfold part_params. rewrite (G "generator"), Gg. eexists. split; [reflexivity|].
  unfold hook_args. set (pp := _ ++ fill _ _). assert (S : forall k, dget k (sys ++ pp) = gets axes sys ps (defaults m) k).
  { intros k. rewrite dget_app. unfold gets. destruct (dget k sys) eqn:D; [reflexivity|]. unfold pp. cbn [Datatypes.app dget]. rewrite !G. destruct (String.eqb_spec k "generator") as [->|N1]; [now rewrite Gg|]. destruct (String.eqb_spec k "axesToMove") as [->|N2]; [rewrite Gg; now destruct (dget "axesToMove" ps)|].
    destruct (String.eqb_spec k "breakpoints") as [->|N3]; [now destruct (dget "breakpoints" ps)|]. rewrite fill_get, dget_filter_out, G; [reflexivity|]. intros [X|[X|[X|[]]]]; congruence. }
  destruct (demand_spec (sys ++ pp) (map fst f)) as [D1 D2]. split.
  - rewrite D2. split; intros H k K; [rewrite <- S; auto|rewrite S; auto].
  - intros args A. destruct (D1 args A) as [D3 D4]. split; [exact D3|]. intros k K. now rewrite D4, S.
Qed.
Print Assumptions C91_args.

(* ---- the info that a part makes of its function ---- *)
Lemma create_info_spec f : NoDup (map fst f) -> forall k,
  dget k (i_metas (create_info f)) = (if smem k ignored then None else option_map fst (dget k f))
  /\ dget k (i_defaults (create_info f)) = (if smem k ignored then None else match dget k f with Some (_, Default v) => Some v | _ => None end)
  /\ (In k (i_required (create_info f)) <-> ~ In k ignored /\ exists t, dget k f = Some (t, NoDefault)).
Proof.
  induction f as [|[a [t d]] f IH] using rev_ind; intros N k.
  - cbn [create_info fold_left i_metas i_defaults i_required dget option_map]. destruct (smem k ignored); (split; [reflexivity|]; split; [reflexivity|]); (split; [intros []|intros (_ & t & X); discriminate]).
  - rewrite map_app in N. cbn [map fst] in N. assert (N' : NoDup (map fst f)) by (apply NoDup_remove_1 in N; now rewrite app_nil_r in N). assert (Na : ~ In a (map fst f)) by (apply NoDup_remove_2 in N; now rewrite app_nil_r in N).
    assert (Da : dget a f = None) by now apply dget_None_notin. destruct (IH N' k) as (I1 & I2 & I3). unfold create_info in *. rewrite fold_left_app. cbn [fold_left]. set (i := fold_left _ f _) in *. clearbody i. rewrite dget_app. cbn [dget].
    destruct (smem a ignored) eqn:S.
    + apply smem_In in S as S'. destruct (String.eqb_spec k a) as [->|Nk].
      * rewrite I1, I2, I3, S, Da. split; [reflexivity|]. split; [reflexivity|]. tauto.
      * replace (match dget k f with Some v => Some v | None => None end) with (dget k f) by (now destruct (dget k f)). auto.
    + cbn [i_metas i_required i_defaults]. apply smem_false in S as S'. destruct (String.eqb_spec k a) as [->|Nk].
      * rewrite dget_dset_same, S, Da. split; [reflexivity|]. rewrite Da, S in I2. split; [destruct d; [exact I2|exact I2|apply dget_dset_same]|]. destruct d.
        -- rewrite in_app_iff. cbn. split; [intros _; split; [exact S'|eauto]|auto].
        -- rewrite I3, Da. split; intros (X & t' & Y); discriminate.
        -- rewrite I3, Da. split; intros (X & t' & Y); discriminate.
      * rewrite dget_dset_other by congruence. replace (match dget k f with Some v => Some v | None => None end) with (dget k f) by (now destruct (dget k f)).
        split; [exact I1|]. split; [destruct d; try exact I2; rewrite dget_dset_other by congruence; exact I2|]. rewrite <- I3. destruct d; try tauto. rewrite in_app_iff. cbn. split; [intros [X|[X|[]]]; [exact X|congruence]|auto].
Qed.
Lemma create_info_order f : NoDup (map fst f) -> in_order (create_info f).
Proof.
  intros N. split.
  - unfold create_info. assert (G : forall l i, NoDup (dkeys (i_metas i)) -> NoDup (dkeys (i_metas (fold_left (fun i e => let '(k, (m, d)) := e in if smem k ignored then i else mkInfo (dset k m (i_metas i)) (match d with NoDefault => i_required i ++ [k] | _ => i_required i end) (match d with Default v => dset k v (i_defaults i) | _ => i_defaults i end)) l i)))).
    { clear. induction l as [|[k [t d]] l IH]; intros i H; cbn [fold_left]; [exact H|]. apply IH. destruct (smem k ignored); [exact H|]. cbn [i_metas]. now apply dset_nodup. }
    apply G. constructor.
  - intros k I. destruct (create_info_spec f N k) as (A & _ & B). apply B in I as (C & t & D). apply dget_key. rewrite A, D. apply smem_false in C. rewrite C. cbn. eauto.
Qed.
(* A part of which each argument is required or has a default other than None gets what it asks for in each call that is taken. *)
Theorem C91_reached is m ps took axes sys f : update_configure_model own is = Some m -> (forall i, In i is -> in_order i) -> takes_validate m ps = Some took -> dkeys sys = hook_keys ->
  In (create_info f) is -> NoDup (map fst f) -> ~ In "part" (map fst f) -> (forall k t d, dget k f = Some (t, d) -> ~ In k ignored -> d <> DNone /\ k <> "typeid") ->
  exists pp args, part_params axes took (defaults m) = Some pp /\ hook_args sys pp f = Some args.
Proof.
  intros E W T Sy I N Np D. destruct (C91_args is m ps took axes sys f E W T Sy) as (pp & P & A & _). exists pp. cut (exists args, hook_args sys pp f = Some args); [intros (args & H); eauto|]. apply A. intros k K.
  destruct (C91_elements is m E W) as [Ne El]. destruct (C91_required is m E) as (_ & Rq & Ri). destruct (C91_accepts m ps Ne Ri) as [Ac1 _]. destruct (proj1 Ac1 (ex_intro _ took T)) as (_ & Hr & _).
  assert (Gg : In "generator" (dkeys ps)) by (apply Hr, Rq; now left). apply dget_key in Gg as (g & Gg). unfold gets. destruct (dget k sys) eqn:Ds; [discriminate|]. destruct (dget k ps) eqn:Dp; [discriminate|].
  destruct (String.eqb_spec k "axesToMove") as [->|N2]; [rewrite Gg; discriminate|]. destruct (String.eqb_spec k "breakpoints") as [->|N3]; [discriminate|].
  assert (Ni : ~ In k ignored). { assert (Hk : ~ In k hook_keys) by (rewrite <- Sy; intros X; apply dget_key in X as (v & X); congruence). intros X. unfold ignored in X. cbn in X, Hk.
    destruct X as [X|[X|[X|[X|[X|[X|[X|[X|[]]]]]]]]]; subst k; try congruence; apply Hk; auto 10. }
  destruct (proj1 (dget_key k f) K) as ((t, d) & F). destruct (D k t d F Ni) as [Nd Nt]. destruct (create_info_spec f N k) as (C1 & C2 & C3). apply smem_false in Ni as Si. rewrite Si, F in C1, C2. cbn in C1.
  assert (Nn : ~ needed k is). { intros X. assert (Y : In k (dkeys ps)) by (apply Hr, Rq; now right). apply dget_key in Y as (v & Y). congruence. }
  destruct d as [| |v]; [exfalso; apply Nn; split; [exact Ni|]; exists (create_info f); split; [exact I|]; apply C3; eauto|congruence|].
  assert (H : In k (dkeys (defaults m))). { apply (C91_has_default is m k E W). split; [exact Nt|]. split; [exact Ni|]. split; [exact Nn|]. intros X. assert (Y : In (t, v) (contributions k is)) by (apply in_flat_map; exists (create_info f); split; [exact I|]; rewrite C1, C2; now left). rewrite X in Y. destruct Y. }
  apply dget_key in H as (v' & ->). discriminate.
Qed.
Print Assumptions C91_reached.
(* C91_all_reached is false: each part should get what it asks for in each call that is taken.  The default None of an argument is
   never taken: in a block without detectors a call is taken, but the part for the pulses raises "Hook demanded arguments". *)
Theorem C91_all_reached_refuted : exists is m ps took, update_configure_model own is = Some m /\ takes_validate m ps = Some took
  /\ (forall k t, dget k pulse_sig = Some (t, NoDefault) -> In k hook_keys \/ In k (dkeys ps))
  /\ forall axes sys, dkeys sys = hook_keys -> exists pp, part_params axes took (defaults m) = Some pp /\ hook_args sys pp pulse_sig = None.
Proof.
  exists [], (mkMeta [("generator", KScalar "generator"); ("axesToMove", KScalar "str[]"); ("breakpoints", KScalar "int32[]")] ["generator"] []), [("generator", VScalar "generator" 3)], [("generator", VScalar "generator" 3)].
  split; [reflexivity|]. split; [reflexivity|]. split.
  { intros k t H. cbn in H. destruct (String.eqb_spec k "context") as [->|]; [left; now left|]. destruct (String.eqb_spec k "generator") as [->|]; [right; now left|]. destruct (String.eqb_spec k "detectors"); discriminate. }
  intros axes sys Sy. eexists. split; [reflexivity|]. unfold hook_args. cbn [pulse_sig map fst demand]. rewrite !dget_app.
  assert (A : forall k, ~ In k hook_keys -> dget k sys = None) by (intros k K; apply dget_None_notin; now rewrite Sy). rewrite (A "detectors") by (cbn; intros [X|[X|[X|[X|[]]]]]; discriminate). cbn. destruct (dget "context" sys); [|reflexivity]. destruct (match dget "generator" sys with Some _ => _ | None => _ end); reflexivity.
Qed.
Print Assumptions C91_all_reached_refuted.
(* C91_own_default is false: a part should get the default of its own function when nothing is given.  It gets that of the part that
   comes last: the HDF writer writes to a .nxs file. *)
Theorem C91_own_default_refuted : exists m ps took, update_configure_model own [create_info hdf_sig; create_info savu_sig] = Some m /\ takes_validate m ps = Some took
  /\ dget "fileTemplate" hdf_sig = Some (KScalar "str", Default (VScalar "str" 5)) /\ ~ In "fileTemplate" (dkeys ps)
  /\ forall axes sys, dkeys sys = hook_keys -> exists pp args, part_params axes took (defaults m) = Some pp /\ hook_args sys pp hdf_sig = Some args /\ dget "fileTemplate" args = Some (VScalar "str" 6).
Proof.
  set (ps := [("generator", VScalar "generator" 3); ("fileDir", VScalar "str" 9)]).
  destruct (update_configure_model own [create_info hdf_sig; create_info savu_sig]) as [m|] eqn:E; [|discriminate].
  assert (D : (exists took, takes_validate m ps = Some took) /\ dget "fileTemplate" (defaults m) = Some (VScalar "str" 6) /\ dget "formatName" (defaults m) = Some (VScalar "str" 7)) by (pose proof E as E2; vm_compute in E2; injection E2 as <-; split; [eexists|split]; reflexivity).
  destruct D as ((took & T) & D1 & D2). exists m, ps, took. split; [reflexivity|]. split; [exact T|]. split; [reflexivity|]. split; [cbn; intros [X|[X|[]]]; discriminate|].
  assert (W : forall i, In i [create_info hdf_sig; create_info savu_sig] -> in_order i) by (intros i [<-|[<-|[]]]; apply create_info_order; cbn; repeat constructor; cbn; intros H; decompose [or] H; try discriminate; contradiction).
  intros axes sys Sy. destruct (C91_args _ m ps took axes sys hdf_sig E W T Sy) as (pp & P & A1 & A2).
  assert (Y : forall k, In k hook_keys -> dget k sys <> None) by (intros k K X; rewrite <- Sy in K; apply dget_key in K as (v & K); congruence).
  assert (G : forall k, In k (map fst hdf_sig) -> gets axes sys ps (defaults m) k <> None).
  { intros k K. unfold gets. destruct (dget k sys) eqn:S; [discriminate|]. cbn in K.
    destruct K as [<-|[<-|[<-|[<-|[<-|[<-|[<-|[<-|[]]]]]]]]]; try solve [exfalso; refine (Y _ _ S); cbn; auto 10]; [cbn; discriminate|cbn; discriminate|change (dget "formatName" (defaults m) <> None); rewrite D2; discriminate|change (dget "fileTemplate" (defaults m) <> None); rewrite D1; discriminate]. }
  apply A1 in G as (args & G). exists pp, args. split; [exact P|]. split; [exact G|]. destruct (A2 args G) as [_ X]. rewrite X by (cbn; auto 10). unfold gets. rewrite (proj2 (dget_None_notin "fileTemplate" sys)); [cbn; exact D1|]. rewrite Sy. cbn. intros [Z|[Z|[Z|[Z|[]]]]]; discriminate.
Qed.
Print Assumptions C91_own_default_refuted.

(* ---- detectors ---- *)
(* The parts of a block: detectors and others, which have no default for the table. *)
Definition some_det (x : dpart + cinfo) : list dpart := match x with inl p => [p] | inr _ => [] end.
Definition info_of (x : dpart + cinfo) : cinfo := match x with inl p => det_info p | inr i => i end.
Lemma det_get p : dget "detectors" (i_metas (det_info p)) = Some (det_table false) /\ dget "detectors" (i_defaults (det_info p)) = Some (VTable (det_rows p)).
Proof. split; reflexivity. Qed.
Lemma det_order p : in_order (det_info p).
Proof. split; [cbn; repeat constructor; cbn; intros H; decompose [or] H; try discriminate; contradiction|]. intros k [<-|[]]. cbn. auto. Qed.
Theorem C91_detectors xs m : update_configure_model own (map info_of xs) = Some m ->
  (forall i, In (inr i) xs -> in_order i /\ dget "detectors" (i_defaults i) = None /\ ~ In "detectors" (i_required i)) -> flat_map some_det xs <> [] ->
  dget "detectors" (defaults m) = Some (VTable (flat_map det_rows (flat_map some_det xs))).
Proof.
  intros E W Ne. assert (W' : forall i, In i (map info_of xs) -> in_order i). { intros i I. apply in_map_iff in I as ([p|j] & <- & I); [apply det_order|now apply (W j I)]. }
  assert (Nn : ~ needed "detectors" (map info_of xs)). { intros (_ & i & I & R). apply in_map_iff in I as ([p|j] & <- & I); [|now apply (W j I)]. cbn in R. destruct R as [R|[]]. discriminate. }
  rewrite (default_fold _ _ E W'). destruct (C91_required _ m E) as (_ & R & _). assert (S : smem "detectors" (required m ++ ignored) = false).
  { apply smem_false. rewrite in_app_iff. intros [X|X]; [|cbn in X; decompose [or] X; try discriminate; contradiction]. apply R in X as [X|X]; [discriminate|contradiction]. }
  rewrite S. cbn [String.eqb]. assert (C : contributions "detectors" (map info_of xs) = map (fun p => (det_table false, VTable (det_rows p))) (flat_map some_det xs)).
  { clear - W. induction xs as [|[p|i] xs IH]; [reflexivity|..]; unfold contributions in *; cbn [map flat_map some_det info_of].
    - destruct (det_get p) as [-> ->]. cbn [Datatypes.app map]. f_equal. apply IH. intros i I. apply W. now right.
    - destruct (W i (or_introl eq_refl)) as (_ & -> & _). replace (match dget "detectors" (i_metas i) with Some _ => _ | None => _ end) with (@nil (kind * value)) by (now destruct (dget "detectors" (i_metas i))). apply IH. intros j J. apply W. now right. }
  rewrite C. clear - Ne. destruct (flat_map some_det xs) as [|p ps]; [congruence|]. clear. change (if String.eqb "detectors" "typeid" then None else _) with (fold_left one_more (map (fun p => (det_table false, VTable (det_rows p))) (p :: ps)) None).
  cbn [map fold_left flat_map]. change (one_more None (det_table false, VTable (det_rows p))) with (Some (VTable (det_rows p))). generalize (det_rows p) as r. induction ps as [|q ps IH]; intros r; cbn [map fold_left flat_map]; [now rewrite app_nil_r|].
  change (one_more (Some (VTable r)) (det_table false, VTable (det_rows q))) with (Some (VTable (r ++ det_rows q))). rewrite IH. now rewrite app_assoc.
Qed.
Print Assumptions C91_detectors.
(* The rows of a table of detectors that is the default are those of the detectors that are visible, each once. *)
Theorem C91_visible (ps : list dpart) n : In n (map (fun r => nth 1 r 0%Z) (flat_map det_rows ps)) <-> exists p, In p ps /\ d_name p = n /\ d_visible p = true.
Proof.
  rewrite in_map_iff. setoid_rewrite in_flat_map. split.
  - intros (r & E & p & I & R). exists p. unfold det_rows in R. destruct (d_visible p); [|destruct R]. destruct R as [<-|[]]. split; [exact I|]. split; [|reflexivity]. destruct (d_frames p =? 0)%Z; cbn in E; exact E.
  - intros (p & I & <- & V). eexists. split; [|exists p; split; [exact I|]; unfold det_rows; rewrite V; left; reflexivity]. now destruct (d_frames p =? 0)%Z.
Qed.
Print Assumptions C91_visible.
(* A visible detector is enabled in the default exactly when it was given frames: detectorchildpart.py 94-102. *)
Theorem C91_enabled (ps : list dpart) r : In r (flat_map det_rows ps) -> exists p, In p ps /\ d_visible p = true /\
  r = [if Z.eq_dec (d_frames p) 0 then 0 else 1; d_name p; d_mri p; 0; if Z.eq_dec (d_frames p) 0 then 1 else d_frames p]%Z.
Proof.
  intros I. apply in_flat_map in I as (p & I & R). exists p. split; [exact I|]. unfold det_rows in R.
  destruct (d_visible p); [|destruct R]. split; [reflexivity|]. destruct R as [<-|[]].
  destruct (Z.eqb_spec (d_frames p) 0), (Z.eq_dec (d_frames p) 0); (contradiction || reflexivity).
Qed.
Print Assumptions C91_enabled.
Example C91_enabled_ex : In [0; 3; 13; 0; 1]%Z (flat_map det_rows [mkDet 1 11 true 2; mkDet 3 13 true 0]).
Proof. cbn. auto. Qed.
(* ---- a case ---- *)
Definition ex_info := create_info [("context", (KScalar "context", NoDefault)); ("fileDir", (KScalar "str", NoDefault)); ("exposure", (KScalar "float", Default (VScalar "float" 0))); ("generator", (KScalar "generator", NoDefault))].
Definition ex_is := [det_info (mkDet 1 11 true 2); ex_info; det_info (mkDet 2 12 false 1); det_info (mkDet 3 13 true 0)].
Example C91_ex : exists m, update_configure_model own ex_is = Some m
  /\ required m = ["generator"; "fileDir"] /\ dkeys (elements m) = ["generator"; "fileDir"; "axesToMove"; "breakpoints"; "detectors"; "fileTemplate"; "exposure"]
  /\ dget "detectors" (defaults m) = Some (VTable [[1; 1; 11; 0; 2]; [0; 3; 13; 0; 1]]%Z) /\ dget "exposure" (defaults m) = Some (VScalar "float" 0)
  /\ exists took, takes_validate m [("fileDir", VScalar "str" 1); ("generator", VScalar "generator" 3)] = Some took.
Proof. eexists. split; [reflexivity|]. repeat (split; [reflexivity|]). eexists. reflexivity. Qed.
Example C91_ex_fit : fit ex_is.
Proof.
  assert (O : in_order ex_info) by (apply create_info_order; cbn; repeat constructor; cbn; intros H; decompose [or] H; try discriminate; contradiction).
  split.
  - intros i [<-|[<-|[<-|[<-|[]]]]]; auto using det_order.
  - intros i [<-|[<-|[<-|[<-|[]]]]]; cbn; intros H; decompose [or] H; try discriminate; contradiction.
  - intros i j k a b [<-|[<-|[<-|[<-|[]]]]] [<-|[<-|[<-|[<-|[]]]]] A B; cbn in A, B;
      repeat match type of A with context [String.eqb k ?x] => destruct (String.eqb_spec k x); [subst k|] end; cbn in A, B; try discriminate;
      repeat match type of B with context [String.eqb k ?x] => destruct (String.eqb_spec k x); [subst k|] end; cbn in A, B; try discriminate; try contradiction; injection A as <-; injection B as <-; cbn; auto; split; congruence.
  - intros i k a v [<-|[<-|[<-|[<-|[]]]]] A B; cbn in A, B;
      repeat match type of A with context [String.eqb k ?x] => destruct (String.eqb_spec k x); [subst k|] end; cbn in A, B; try discriminate; injection A as <-; injection B as <-; reflexivity.
Qed.
Example C91_ex_history : let s := crun ["a"; "b"] [Report "b" ex_info; SetProcess; Report "a" (det_info (mkDet 1 11 true 2)); Report "b" (det_info (mkDet 2 12 true 1)); Report "a" (det_info (mkDet 1 11 false 2))] (mkState [] false (mkMeta [] [] []) (mkMeta [] [] [])) in
  process s = true /\ dget "detectors" (defaults (m_validate s)) = Some (VTable [[1; 2; 12; 0; 1]]%Z).
Proof. split; reflexivity. Qed.
