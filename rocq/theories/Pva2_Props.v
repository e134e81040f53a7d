(* C86: a Put, a call or a channel of pvAccess is for what its name says. *)
From Coq Require Import String Ascii Bool Arith ZArith Lia List.
From Verif Require Import Base Pva_Model Pva_Spec Pva_Proofs Pva2_Model.
Import ListNotations.
Local Open Scope string_scope.
Local Open Scope list_scope.

(* ---- what is meant ---- *)
(* The field a of a block can be put to: it is neither a method nor the meta of the block. *)
Definition puttable (block : list (string * py)) (a : string) : Prop :=
  a <> "typeid" /\ exists gs, dget a block = Some (YDict gs) /\ typeid gs <> Some "malcolm:core/Method:1.1" /\ typeid gs <> Some "malcolm:core/BlockMeta:1.0".
(* Something in the value of a was set. *)
Definition touched (a : string) (marked : list (list string)) : Prop := exists rest, In (a :: "value" :: rest) marked.

(* ---- lemmas ---- *)
Lemma path_eqb_spec p : forall q, path_eqb p q = true <-> p = q.
Proof.
  induction p as [|x p IH]; intros [|y q]; cbn; try (split; congruence). rewrite andb_true_iff, IH, String.eqb_eq. split; [intros [-> ->]; reflexivity|intros H; injection H; auto].
Qed.
Lemma prefixes_In p : forall q, In q (prefixes p) <-> q <> [] /\ exists r, p = q ++ r.
Proof.
  induction p as [|x p IH]; intros q; cbn [prefixes In].
  - split; [contradiction|]. intros [N [r E]]. destruct q; [congruence|discriminate].
  - rewrite in_map_iff. split.
    + intros [<-|(q' & <- & I)]; [split; [discriminate|exists p; reflexivity]|]. apply IH in I as [_ [r ->]]. split; [discriminate|]. exists r. reflexivity.
    + intros [N [r E]]. destruct q as [|y q]; [congruence|]. injection E as -> E. destruct q as [|z q]; [now left|]. right. exists (z :: q). split; [reflexivity|]. apply IH. split; [discriminate|]. eauto.
Qed.
Lemma changed_spec q marked : q <> [] -> (existsb (path_eqb q) (changed_inc_parents marked) = true <-> exists r, In (q ++ r) marked).
Proof.
  intros N. unfold changed_inc_parents. rewrite existsb_exists. split.
  - intros (x & I & E). apply path_eqb_spec in E as <-. apply in_flat_map in I as (p & Ip & I). apply prefixes_In in I as [_ [r ->]]. eauto.
  - intros [r I]. exists q. split; [|now apply path_eqb_spec]. apply in_flat_map. exists (q ++ r). split; [exact I|]. apply prefixes_In. eauto.
Qed.
Lemma filter_one (A : Type) (f : A -> bool) l x : NoDup l -> (filter f l = [x] <-> In x l /\ f x = true /\ forall y, In y l -> f y = true -> y = x).
Proof.
  intros N. split.
  - intros E. assert (I : In x (filter f l)) by (rewrite E; now left). apply filter_In in I as [I F]. split; [exact I|]. split; [exact F|]. intros y Iy Fy.
    assert (J : In y (filter f l)) by (apply filter_In; auto). rewrite E in J. destruct J as [->|[]]. reflexivity.
  - intros (I & F & U). assert (J : In x (filter f l)) by (apply filter_In; auto). assert (M : NoDup (filter f l)) by now apply NoDup_filter.
    assert (K : forall y, In y (filter f l) -> y = x) by (intros y Iy; apply filter_In in Iy as [Iy Fy]; auto).
    destruct (filter f l) as [|a [|b r]]; [contradiction|now rewrite (K a (or_introl eq_refl))|]. exfalso. inversion M as [|? ? Na _]; subst. apply Na.
    rewrite (K a (or_introl eq_refl)), <- (K b (or_intror (or_introl eq_refl))). now left.
Qed.
Lemma all_paths_spec fs : forall ps, all_paths fs = Some ps -> NoDup (map fst fs) ->
  NoDup ps /\ forall q, In q ps <-> exists a id gs, q = [a; "value"] /\ In (a, VStruct id gs) fs /\ smem id unputtable_ids = false.
Proof.
  induction fs as [|[x v] fs IH]; intros ps C N; cbn [all_paths] in C; [injection C as <-; split; [constructor|]; intros q; split; [contradiction|]; intros (a & id & gs & _ & [] & _)|].
  destruct v as [| | | |id gs]; try discriminate. cbn [getID] in C. destruct (all_paths fs) as [qs|]; [|discriminate]. cbn [map fst] in N. inversion N as [|? ? Nx Nf]; subst.
  destruct (IH qs eq_refl Nf) as [Nq S]. destruct (smem id unputtable_ids) eqn:M; injection C as <-.
  - split; [exact Nq|]. intros q. rewrite S. split; intros (a & i & g & -> & I & F); exists a, i, g; [cbn [In]; auto|]. destruct I as [I|I]; [injection I as -> -> ->; congruence|auto].
  - split.
    + constructor; [|exact Nq]. rewrite S. intros (a & i & g & E & I & _). injection E as ->. apply Nx. apply in_map_iff. exists (a, VStruct i g). auto.
    + intros q. cbn [In]. rewrite S. split.
      * intros [<-|(a & i & g & -> & I & F)]; [exists x, id, gs; auto|exists a, i, g; auto].
      * intros (a & i & g & -> & [I|I] & F); [injection I as -> -> ->; now left|right; exists a, i, g; auto].
Qed.
Lemma fields_of block id vs a : conv (YDict block) = Some (VStruct id vs) -> ~ In "labels" (map fst block) -> a <> "labels" ->
  forall i gs, In (a, VStruct i gs) vs <-> a <> "typeid" /\ exists y, dget a block = Some y /\ conv y = Some (VStruct i gs).
Proof.
  intros C NL Na i gs. rewrite conv_dict in C. destruct (ctypeid block) as [id'|]; [|discriminate]. destruct (cfields block) as [us|] eqn:E; [|discriminate].
  assert (X : exists pre, vs = pre ++ us /\ (pre = [] \/ exists l, pre = [("labels", l)]) /\ NoDup (map fst vs)).
  { destruct (String.eqb id' NTTable); [destruct (table_labels (YDict block)); [|discriminate]|]; apply make_struct_some in C as [C N]; injection C as -> ->; [eexists [_]|exists []]; cbn; eauto. }
  destruct X as (pre & -> & P & N). assert (I1 : In (a, VStruct i gs) (pre ++ us) <-> In (a, VStruct i gs) us).
  { destruct P as [->|[l ->]]; [reflexivity|]. cbn. split; [intros [X|X]; [congruence|exact X]|auto]. } rewrite I1.
  assert (Nu : NoDup (map fst us)). { destruct P as [->|[l ->]]; [exact N|]. cbn in N. now inversion N. }
  clear -E Nu. revert us E Nu. induction block as [|[k x] block IH]; intros us E Nu; cbn [cfields] in E.
  - injection E as <-. cbn. split; [contradiction|]. intros (_ & y & [=] & _).
  - cbn [dget]. destruct (String.eqb_spec k "typeid") as [->|Nk].
    + rewrite (IH us E Nu). destruct (String.eqb_spec a "typeid"); [tauto|reflexivity].
    + destruct (conv x) as [v|] eqn:Cx; [|discriminate]. destruct (cfields block) as [ws|] eqn:Eb; [|discriminate]. injection E as <-. cbn [map fst] in Nu. inversion Nu as [|? ? N1 N2]; subst.
      cbn [In]. rewrite (IH ws eq_refl N2). destruct (String.eqb_spec a k) as [->|Nak].
      * split.
        -- intros [I|(_ & y & D & Cy)]; [injection I as ->; eauto|]. exfalso. apply N1. rewrite (cfields_names block ws Eb). apply filter_In. split; [exact (dget_Some_key _ _ D)|]. now destruct (String.eqb_spec k "typeid").
        -- intros (_ & y & [=<-] & Cy). left. congruence.
      * split; [intros [I|I]; [congruence|exact I]|auto].
Qed.
Lemma struct_id y i gs : conv y = Some (VStruct i gs) -> exists fs, y = YDict fs /\ typeid fs = oid i.
Proof.
  destruct y as [t n|s|s|n|l|l|t l|d t l|l|fs|]; intros C; try discriminate.
  - cbn [conv] in C. destruct (dget t type_specifiers); discriminate.
  - rewrite conv_objs in C. destruct (elements l); discriminate.
  - cbn [conv] in C. destruct (dget t type_specifiers); discriminate.
  - cbn [conv] in C. destruct (Nat.eqb d 1); [destruct (dget t type_specifiers)|]; discriminate.
  - rewrite conv_list in C. destruct (elements l); discriminate.
  - exists fs. split; [reflexivity|]. rewrite conv_dict in C. destruct (ctypeid fs) as [id|] eqn:T; [|discriminate]. rewrite (ctypeid_spec fs id T).
    destruct (cfields fs); [|discriminate]. destruct (String.eqb id NTTable); [destruct (table_labels (YDict fs)); [|discriminate]|]; apply make_struct_some in C as [C _]; injection C as -> _; reflexivity.
Qed.
Lemma dict_struct fs v : conv (YDict fs) = Some v -> exists i gs, v = VStruct i gs.
Proof.
  rewrite conv_dict. destruct (ctypeid fs) as [id|]; [|discriminate]. destruct (cfields fs); [|discriminate].
  destruct (String.eqb id NTTable); [destruct (table_labels (YDict fs)); [|discriminate]|]; intros C; apply make_struct_some in C as [-> _]; eauto.
Qed.
Lemma unputtable_spec fs i : typeid fs = oid i -> (smem i unputtable_ids = false <-> typeid fs <> Some "malcolm:core/Method:1.1" /\ typeid fs <> Some "malcolm:core/BlockMeta:1.0").
Proof.
  intros ->. rewrite smem_false. unfold unputtable_ids, oid. cbn [In]. destruct (String.eqb_spec i "structure") as [->|_]; [split; [split; discriminate|intros _ [|[|[]]]; discriminate]|].
  split; [intros N; split; intros E; injection E as ->; tauto|]. intros [A B] [<-|[<-|[]]]; congruence.
Qed.

(* ---- C86: Put ---- *)
(* The PV of a block: what is put to is the value of an attribute of the block, the only one that was
   touched. *)
Theorem C86_put : forall mri block v paths value marked r,
  conv (YDict block) = Some v -> ~ In "labels" (map fst block) -> put_paths None v = Some paths ->
  (put mri None paths value marked = Some r <->
   exists a x, puttable block a /\ touched a marked /\ (forall b, puttable block b -> touched b marked -> b = a)
               /\ (exists w, vitem a value = Some w /\ oitem "value" (unconv w) = Some x) /\ r = Put [mri; a; "value"] x).
Proof.
  intros mri block v paths value marked r C NL P. destruct (dict_struct _ _ C) as (id & vs & ->).
  assert (NV : NoDup (map fst vs)) by (destruct (conv_spec _ _ C) as [W _]; now apply wellpv_struct in W).
  cbn [put_paths] in P. destruct (all_paths_spec vs paths P NV) as [NP SP].
  assert (Q : forall q, In q paths <-> exists a, q = [a; "value"] /\ puttable block a).
  { intros q. rewrite SP. split.
    - intros (a & i & gs & -> & I & F). exists a. split; [reflexivity|]. destruct (String.eqb_spec a "labels") as [->|Na].
      + exfalso. rewrite conv_dict in C. destruct (ctypeid block) as [id'|]; [|discriminate]. destruct (cfields block) as [us|] eqn:E; [|discriminate].
        assert (J : In ("labels", VStruct i gs) us).
        { destruct (String.eqb id' NTTable); [destruct (table_labels (YDict block)); [|discriminate]|]; apply make_struct_some in C as [C _]; injection C as -> ->; [destruct I as [I|I]; [discriminate|]|]; exact I. }
        apply NL. apply (in_map fst) in J. rewrite (cfields_names block us E) in J. apply filter_In in J. tauto.
      + apply (fields_of block id vs a C NL Na i gs) in I as (Nt & y & D & Cy). split; [exact Nt|]. destruct (struct_id y i gs Cy) as (fs & -> & T). exists fs. split; [exact D|]. now apply (unputtable_spec fs i).
    - intros (a & -> & Nt & gs & D & U). assert (Na : a <> "labels") by (intros ->; apply NL; exact (dget_Some_key _ _ D)).
      assert (S : exists v, conv (YDict gs) = Some v).
      { apply sendable_iff. assert (SB : sendable (YDict block)) by (apply sendable_iff; eauto). rewrite sendable_dict in SB. destruct SB as [SB _]. clear -SB D Nt.
        induction block as [|[k x] block IH]; cbn [dget] in D; [discriminate|]. cbn [sfields] in SB. destruct SB as [S1 S2]. destruct (String.eqb_spec a k) as [->|_]; [|now apply IH].
        injection D as ->. destruct S1; [contradiction|assumption]. }
      destruct S as [w Cw]. destruct (dict_struct gs w Cw) as (i & hs & ->). exists a, i, hs. split; [reflexivity|]. split.
      + apply (fields_of block id vs a C NL Na i hs). eauto.
      + destruct (struct_id _ i hs Cw) as (fs & E & T). injection E as <-. now apply (unputtable_spec gs i T). }
  assert (TC : forall a, existsb (path_eqb [a; "value"]) (changed_inc_parents marked) = true <-> touched a marked) by (intros a; apply changed_spec; discriminate).
  unfold put. split.
  - destruct (filter (fun p => existsb (path_eqb p) (changed_inc_parents marked)) paths) as [|q [|? ?]] eqn:F; try discriminate. apply (filter_one _ _ _ _ NP) in F as (I & Fq & U). apply Q in I as (a & -> & Pa).
    rewrite String.eqb_refl. destruct (vitem a value) as [w|] eqn:V; [|discriminate]. destruct (oitem "value" (unconv w)) as [x|] eqn:O; [|discriminate]. intros H. injection H as <-.
    exists a, x. split; [exact Pa|]. split; [now apply TC|]. split; [|split; [exists w; auto|reflexivity]]. intros b Pb Tb. specialize (U [b; "value"]). assert (E : [b; "value"] = [a; "value"]) by (apply U; [apply Q; eauto|now apply TC]). now injection E.
  - intros (a & x & Pa & Ta & U & (w & V & O) & ->). assert (F : filter (fun p => existsb (path_eqb p) (changed_inc_parents marked)) paths = [[a; "value"]]).
    { apply (filter_one _ _ _ _ NP). split; [apply Q; eauto|]. split; [now apply TC|]. intros y Iy Fy. apply Q in Iy as (b & -> & Pb). rewrite (U b Pb); [reflexivity|]. now apply TC. }
    rewrite F, String.eqb_refl, V, O. reflexivity.
Qed.
Print Assumptions C86_put.

(* The PV of one field. *)
Theorem C86_put_field : forall mri f fs v paths value marked r, conv (YDict fs) = Some v -> put_paths (Some f) v = Some paths ->
  (put mri (Some f) paths value marked = Some r <->
   typeid fs <> Some "malcolm:core/Method:1.1" /\ typeid fs <> Some "malcolm:core/BlockMeta:1.0" /\ (exists rest, In ("value" :: rest) marked)
   /\ exists x, oitem "value" (unconv value) = Some x /\ r = Put [mri; f; "value"] x).
Proof.
  intros mri f fs v paths value marked r C P. destruct (dict_struct _ _ C) as (id & vs & ->). cbn [put_paths] in P.
  assert (EP : paths = if smem id unputtable_ids then [] else [["value"]]) by congruence. subst paths. clear P.
  destruct (struct_id _ _ _ C) as (gs & E & T). injection E as <-. pose proof (unputtable_spec fs id T) as U. pose proof (changed_spec ["value"] marked ltac:(discriminate)) as X. cbn [Datatypes.app] in X.
  unfold put. destruct (smem id unputtable_ids); cbn [filter].
  - split; [discriminate|]. intros (A & B & _). destruct U as [_ U]. discriminate (U (conj A B)).
  - destruct U as [U _]. specialize (U eq_refl). destruct (existsb (path_eqb ["value"]) (changed_inc_parents marked)).
    + assert (E : path_eqb ["value"] ["value"] = true) by reflexivity. rewrite E. destruct (oitem "value" (unconv value)) as [x|].
      * split; [intros H; injection H as <-; split; [tauto|]; split; [tauto|]; split; [now apply X|eauto]|intros (_ & _ & _ & y & H & ->); injection H as ->; reflexivity].
      * split; [discriminate|]. intros (_ & _ & _ & y & [=] & _).
    + split; [discriminate|]. intros (_ & _ & T' & _). apply X in T'. discriminate.
Qed.
Print Assumptions C86_put_field.

Definition blk : list (string * py) :=
  [("typeid", YStr "malcolm:core/Block:1.0"); ("meta", YDict [("typeid", YStr "malcolm:core/BlockMeta:1.0"); ("label", YStr "b")]);
   ("counts", YDict [("typeid", YStr "epics:nt/NTScalar:1.0"); ("value", YNum "int" 3); ("label", YStr "c")]);
   ("delta", YDict [("typeid", YStr "epics:nt/NTScalar:1.0"); ("value", YNum "int" 0)]);
   ("reset", YDict [("typeid", YStr "malcolm:core/Method:1.1"); ("value", YNum "int" 3)])].
Definition asked : pv := VStruct "malcolm:core/Block:1.0" [("counts", VStruct "epics:nt/NTScalar:1.0" [("value", VNum "l" 9); ("label", VStr "x")]); ("delta", VStruct "epics:nt/NTScalar:1.0" [("value", VNum "l" 1)])].
Example C86_put_ex : exists v paths, conv (YDict blk) = Some v /\ put_paths None v = Some paths
  /\ put "B" None paths asked [["counts"; "value"]; ["counts"; "label"]] = Some (Put ["B"; "counts"; "value"] (ONum "l" 9))
  /\ put "B" None paths asked [["counts"; "value"]; ["delta"; "value"]] = None
  /\ put "B" None paths asked [["reset"; "value"]] = None /\ put "B" None paths asked [["counts"; "label"]] = None.
Proof. eexists. eexists. split; [vm_compute; reflexivity|]. split; [vm_compute; reflexivity|]. vm_compute. auto. Qed.

(* ---- C86: calls ---- *)
Lemma after_prefix_spec p : forall s m, after_prefix p s = Some m <-> s = (p ++ m)%string.
Proof.
  induction p as [|a p IH]; intros s m; cbn [after_prefix append]; [split; congruence|]. destruct s as [|b s]; [split; discriminate|].
  destruct (Ascii.eqb_spec a b) as [->|N]; [rewrite IH; split; [intros ->; reflexivity|intros H; now injection H]|split; [discriminate|intros H; injection H; congruence]].
Qed.
Theorem C86_rpc : forall mri methods field req c r,
  rpc mri methods field req c = Some r <->
  exists m ps, In m (map fst methods) /\ r = Post [mri; m] (unconv ps)
    /\ match c with
       | Uri scheme path query => scheme = "pva" /\ path = (mri ++ "." ++ m)%string /\ ps = query
       | Other v => ps = v /\ (field = Some m \/ field = None /\ req = Some m /\ m <> "")
       end.
Proof.
  intros mri methods field req c r.
  assert (D : forall m ps, (if dmem m methods then Some (Post [mri; m] ps) else None) = Some r <-> In m (map fst methods) /\ r = Post [mri; m] ps).
  { intros m ps. destruct (dmem m methods) eqn:E; [apply dmem_In in E|apply dmem_false in E]; unfold dkeys in E; split; try discriminate; [intros H; injection H as <-; auto|intros [_ ->]; reflexivity|tauto]. }
  assert (AA : forall m, ((mri ++ ".") ++ m)%string = (mri ++ "." ++ m)%string). { clear. intros m. induction mri as [|x s IH]; [reflexivity|]. cbn [append]. now rewrite IH. }
  unfold rpc. destruct c as [scheme path query|v].
  - destruct (String.eqb_spec scheme "pva") as [->|N]; [|split; [discriminate|intros (m & ps & _ & _ & E & _); contradiction]].
    destruct (after_prefix (mri ++ ".")%string path) as [m|] eqn:A.
    + apply after_prefix_spec in A. rewrite AA in A. rewrite D. split; [intros [I ->]; exists m, query; auto 10|]. intros (m' & ps & I & -> & _ & E & ->). rewrite E in A.
      assert (m' = m). { clear -A. induction mri as [|x s IH]; cbn [append] in A; injection A; auto. } subst. auto.
    + split; [discriminate|]. intros (m & ps & _ & _ & _ & -> & _). rewrite <- AA in A. assert (X : after_prefix (mri ++ ".")%string ((mri ++ ".") ++ m)%string = Some m) by now apply after_prefix_spec. congruence.
  - destruct field as [f|]; [rewrite D; split; [intros [I ->]; exists f, v; auto 10|intros (m & ps & I & -> & -> & [[=->]|([=] & _)]); auto]|].
    destruct req as [m|]; [|split; [discriminate|intros (m & ps & _ & _ & _ & [[=]|(_ & [=] & _)])]].
    destruct (String.eqb_spec m "") as [->|N]; [split; [discriminate|intros (m & ps & _ & _ & _ & [[=]|(_ & [=->] & X)]); congruence]|].
    rewrite D. split; [intros [I ->]; exists m, v; auto 10|]. intros (m' & ps & I & -> & -> & [[=]|(_ & [=->] & _)]). auto.
Qed.
Print Assumptions C86_rpc.

(* What the client calls is what the server posts, with the same parameters. *)
Theorem C86_call : forall mri methods field req method params c, send_post mri method params = Some c -> In method (map fst methods) ->
  rpc mri methods field req c = Some (Post [mri; method] (seen (YDict params))).
Proof.
  intros mri methods field req method params c S I. unfold send_post in S. destruct (conv (YDict params)) as [q|] eqn:C; [|discriminate]. injection S as <-.
  apply C86_rpc. exists method, q. destruct (conv_spec _ _ C) as [_ E]. rewrite E. auto.
Qed.
Print Assumptions C86_call.
(* What a method returns, if it returns a dict, is what the client gets; one that returns something
   else gives the client a dict with it. *)
Theorem C86_return : forall x v, reply false x = Some v -> returned v = seen x.
Proof. intros [| | | | | | | | |fs|] v H; try discriminate; [now apply conv_spec|]. injection H as <-. reflexivity. Qed.
Print Assumptions C86_return.
Theorem C86_return_unpacked : forall x v, reply true x = Some v -> returned v = ODict None [("return", seen x)].
Proof. intros x v H. unfold reply, convert_dict_to_value in H. destruct (conv_spec _ _ H) as [_ E]. unfold returned. rewrite E. reflexivity. Qed.
Print Assumptions C86_return_unpacked.
(* The finding: so a method of a proxy does not return what the method itself returns. *)
Theorem C86_unpacked_refuted : exists x v, reply true x = Some v /\ returned v <> seen x.
Proof. exists (YNum "int" 7). eexists. split; [vm_compute; reflexivity|]. vm_compute. discriminate. Qed.
Print Assumptions C86_unpacked_refuted.
Example C86_call_ex : exists c, send_post "A:B" "save" [("designName", YStr "d")] = Some c
  /\ rpc "A:B" [("save", false); ("reset", false)] None None c = Some (Post ["A:B"; "save"] (ODict None [("designName", OStr "d")]))
  /\ rpc "A" [("save", false)] None None c = None /\ rpc "A:B" [("reset", false)] None None c = None.
Proof. eexists. split; [vm_compute; reflexivity|]. vm_compute. auto. Qed.

(* ---- C86: channels ---- *)
Definition no_dot (s : string) : Prop := forall a b, s <> (a ++ "." ++ b)%string.
Lemma rsplit1_none s : rsplit1 "."%char s = None <-> no_dot s.
Proof.
  induction s as [|x s IH]; cbn [rsplit1]; [split; [intros _ [|? ?] b; discriminate|reflexivity]|]. destruct (rsplit1 "."%char s) as [[a b]|] eqn:E.
  - split; [discriminate|]. intros N. assert (X : Some (a, b) = None :> option (string * string)); [|discriminate]. apply IH. intros c d ->. apply (N (String x c) d). reflexivity.
  - destruct (Ascii.eqb_spec x ".") as [->|Nx]; [split; [discriminate|intros N; exfalso; now apply (N "" s)]|]. split; [|reflexivity]. intros _ [|y a] b; cbn [append]; intros H; injection H as -> H; [congruence|].
    destruct IH as [IH _]. exact (IH eq_refl a b H).
Qed.
Lemma rsplit1_some s : forall a b, rsplit1 "."%char s = Some (a, b) <-> s = (a ++ "." ++ b)%string /\ no_dot b.
Proof.
  induction s as [|x s IH]; intros a b; cbn [rsplit1]; [split; [discriminate|intros [E _]; destruct a; discriminate]|]. destruct (rsplit1 "."%char s) as [[c d]|] eqn:E.
  - destruct (proj1 (IH c d) eq_refl) as [E1 N1]. split; [intros H; injection H as <- <-; cbn [append]; now rewrite E1|]. intros [H N]. destruct a as [|y a]; cbn [append] in H; injection H as -> H.
    + exfalso. subst s. cbn in H. exact (N c d (eq_sym H)).
    + assert (X : Some (c, d) = Some (a, b)) by (apply IH; auto). injection X as -> ->. reflexivity.
  - pose proof (proj1 (rsplit1_none s) E) as ND. destruct (Ascii.eqb_spec x ".") as [->|Nx].
    + split; [intros H; injection H as <- <-; auto|]. intros [H N]. destruct a as [|y a]; cbn [append] in H; inversion H; subst; [reflexivity|]. exfalso. eapply ND; reflexivity.
    + split; [discriminate|]. intros [H N]. destruct a as [|y a]; cbn [append] in H; inversion H; subst; [congruence|]. exfalso. eapply ND; reflexivity.
Qed.

(* A name is served exactly if it is a published block, or a field of one. *)
Definition served (ps : list string) (name : string) : Prop := In name ps \/ exists mri f, In mri ps /\ name = (mri ++ "." ++ f)%string /\ no_dot f.
Theorem C86_channel : forall s name, test_channel s name = true <-> served s.(published) name.
Proof.
  intros s name. unfold test_channel, served. destruct (smem name s.(published)) eqn:E; [apply smem_In in E; tauto|]. apply smem_false in E.
  destruct (rsplit1 "."%char name) as [[mri f]|] eqn:R.
  - apply rsplit1_some in R as [-> N]. rewrite smem_In. split; [intros I; right; eauto|]. intros [I|(m & g & I & H & Ng)]; [contradiction|].
    assert (X : Some (m, g) = Some (mri, f)) by (transitivity (rsplit1 "."%char (mri ++ "." ++ f)%string); [symmetry; rewrite H; now apply rsplit1_some|now apply rsplit1_some]). injection X as -> ->. exact I.
  - apply rsplit1_none in R. split; [discriminate|]. intros [I|(m & g & _ & -> & _)]; [contradiction|]. exfalso. exact (R m g eq_refl).
Qed.
Print Assumptions C86_channel.

(* What a served name stands for. *)
Definition stands (ps : list string) (name : string) (k : string * option string) : Prop :=
  match snd k with
  | None => In name ps /\ fst k = name
  | Some f => ~ In name ps /\ In (fst k) ps /\ name = (fst k ++ "." ++ f)%string /\ no_dot f
  end.
Inductive act := Publish (ps : list string) | Init | Disable | Connect (name : string).
Definition act_step (s : server) (a : act) : server :=
  match a with Publish ps => publish ps s | Init => do_init s | Disable => do_disable s | Connect n => fst (connect s n) end.
Lemma key_eqb_spec a b : key_eqb a b = true <-> a = b.
Proof.
  destruct a as [a x], b as [b y]. unfold key_eqb. cbn [fst snd]. rewrite andb_true_iff, String.eqb_eq. destruct x, y; rewrite ?String.eqb_eq; split; intros H; try (destruct H; congruence); injection H; intros; subst; auto; discriminate.
Qed.
Lemma pvget_In k l n : pvget k l = Some n -> In (k, n) l.
Proof. induction l as [|[k' m] l IH]; cbn [pvget]; [discriminate|]. destruct (key_eqb k k') eqn:E; [apply key_eqb_spec in E as ->; intros H; injection H as ->; now left|right; auto]. Qed.
Lemma pvget_app k l x : pvget k (l ++ [(k, x)]) = match pvget k l with Some n => Some n | None => Some x end.
Proof. induction l as [|[k' m] l IH]; cbn [Datatypes.app pvget]; [now rewrite (proj2 (key_eqb_spec k k) eq_refl)|]. destruct (key_eqb k k'); [reflexivity|exact IH]. Qed.
Lemma resolve_stands s name : test_channel s name = true -> exists k, resolve s name = Some k /\ stands s.(published) name k.
Proof.
  intros T. apply C86_channel in T. unfold resolve. destruct (smem name s.(published)) eqn:E; [apply smem_In in E; exists (name, None); split; [reflexivity|]; split; [exact E|reflexivity]|]. apply smem_false in E.
  destruct T as [T|(m & f & I & -> & N)]; [contradiction|]. assert (R : rsplit1 "."%char (m ++ "." ++ f)%string = Some (m, f)) by (apply rsplit1_some; auto). rewrite R. exists (m, Some f). unfold stands. cbn. auto.
Qed.
(* All pvs that are kept are of published blocks and have different numbers; none while stopped. *)
Definition sound (s : server) : Prop :=
  (forall k n, In (k, n) s.(pvs) -> In (fst k) s.(published) /\ n < s.(made)) /\ (s.(running) = false -> s.(pvs) = []) /\ NoDup (map snd s.(pvs)) /\ NoDup (map fst s.(pvs)).
Lemma NoDup_map_filter (A B : Type) (g : A -> B) f l : NoDup (map g l) -> NoDup (map g (filter f l)).
Proof.
  induction l as [|x l IH]; cbn [map filter]; intros N; [constructor|]. inversion N as [|? ? N1 N2]; subst. destruct (f x); [|auto]. cbn [map]. constructor; [|auto].
  intros I. apply N1. apply in_map_iff in I as (y & E & I). apply filter_In in I as [I _]. apply in_map_iff. eauto.
Qed.
Lemma NoDup_snoc (A : Type) (l : list A) x : NoDup l -> ~ In x l -> NoDup (l ++ [x]).
Proof. intros N I. apply NoDup_rev in N. rewrite <- (rev_involutive (l ++ [x])). apply NoDup_rev. rewrite rev_app_distr. cbn. constructor; [now rewrite <- in_rev|exact N]. Qed.
Lemma pvget_none k l : pvget k l = None -> ~ In k (map fst l).
Proof. induction l as [|[k' m] l IH]; cbn [pvget map fst In]; [auto|]. destruct (key_eqb k k') eqn:E; [discriminate|]. intros H [<-|I]; [rewrite (proj2 (key_eqb_spec k' k') eq_refl) in E; discriminate|now apply IH]. Qed.
Lemma sound_step s a : sound s -> sound (act_step s a).
Proof.
  intros (A & B & C & D). destruct a as [ps| | |name]; cbn [act_step].
  - unfold publish, sound. cbn [pvs running published made]. destruct (running s) eqn:R.
    + split; [|split; [discriminate|split; now apply NoDup_map_filter]]. intros k n I. apply filter_In in I as [I M]. cbn in M. apply smem_In in M. split; [exact M|]. now apply (A k n).
    + rewrite (B eq_refl). cbn [map]. split; [intros k n []|]. split; [reflexivity|]. split; constructor.
  - unfold do_init, sound. cbn [pvs running published made]. split; [exact A|]. split; [discriminate|auto].
  - unfold do_disable. destruct (running s) eqn:R; [|unfold sound; auto]. unfold sound. cbn. split; [intros k n []|]. split; [reflexivity|]. split; constructor.
  - unfold connect. destruct (running s && test_channel s name) eqn:T; [|unfold sound; auto]. apply andb_true_iff in T as [R T]. destruct (resolve_stands s name T) as (k & E & S).
    unfold make_channel. rewrite E. destruct (pvget k s.(pvs)) as [n|] eqn:G; [unfold sound; cbn [fst]; auto|]. unfold sound. cbn [fst pvs running published made]. split; [|split; [congruence|]].
    + intros k' n I. apply in_app_or in I as [I|[I|[]]]; [destruct (A k' n I); auto|]. injection I as <- <-. split; [|lia]. unfold stands in S. destruct k as [m [f|]]; cbn in *; [tauto|]. now destruct S as [? ->].
    + rewrite !map_app. cbn [map snd fst]. split; apply NoDup_snoc; auto; [|now apply pvget_none]. intros I. apply in_map_iff in I as ([k' n] & X & I). cbn in X. destruct (A k' n I). lia.
Qed.
Lemma sound_run acts : sound (fold_left act_step acts new_server).
Proof.
  assert (G : forall s, sound s -> sound (fold_left act_step acts s)) by (induction acts; intros; cbn [fold_left]; auto using sound_step). apply G.
  unfold sound, new_server. cbn. split; [intros k n []|]. split; [reflexivity|]. split; constructor.
Qed.

(* Whatever was published, stopped and asked for before: a client is given a PV exactly if the server
   runs and the name is served; it is the PV for what the name stands for. *)
Theorem C86_connect : forall acts s name, fold_left act_step acts new_server = s ->
  ((exists n, snd (connect s name) = Some n) <-> s.(running) = true /\ served s.(published) name)
  /\ forall n, snd (connect s name) = Some n -> exists k, stands s.(published) name k /\ In (k, n) (fst (connect s name)).(pvs).
Proof.
  intros acts s name E. unfold connect. destruct (running s) eqn:R; cbn [andb]; [|cbn; split; [split; [intros [? [=]]|intros [[=] _]]|discriminate]].
  destruct (test_channel s name) eqn:T.
  - destruct (resolve_stands s name T) as (k & Rk & S). unfold make_channel. rewrite Rk. destruct (pvget k s.(pvs)) as [n|] eqn:G; cbn [fst snd pvs].
    + split; [split; [intros _; split; [reflexivity|now apply C86_channel]|eauto]|]. intros m [=<-]. exists k. split; [exact S|now apply pvget_In].
    + split; [split; [intros _; split; [reflexivity|now apply C86_channel]|eauto]|]. intros m [=<-]. exists k. split; [exact S|]. apply in_or_app. right. now left.
  - cbn [fst snd]. split; [|discriminate]. split; [intros [? [=]]|]. intros [_ X]. apply C86_channel in X. congruence.
Qed.
Print Assumptions C86_connect.

(* Two clients share a PV exactly if the names that they asked for stand for the same. *)
Theorem C86_shared : forall acts s n1 n2 p1 p2 s', fold_left act_step acts new_server = s ->
  connect s n1 = (s', Some p1) -> snd (connect s' n2) = Some p2 ->
  (p1 = p2 <-> exists k, stands s.(published) n1 k /\ stands s.(published) n2 k).
Proof.
  intros acts s n1 n2 p1 p2 s' E C1 C2. assert (S : sound s) by (rewrite <- E; apply sound_run).
  assert (S1 : sound s'). { pose proof (sound_step s (Connect n1) S) as X. cbn [act_step] in X. rewrite C1 in X. exact X. }
  assert (S2 : sound (fst (connect s' n2))) by exact (sound_step s' (Connect n2) S1).
  destruct (proj2 (C86_connect acts s n1 E) p1) as (k1 & K1 & I1); [now rewrite C1|]. rewrite C1 in I1. cbn [fst] in I1.
  assert (E' : fold_left act_step (acts ++ [Connect n1]) new_server = s') by (rewrite fold_left_app, E; cbn [fold_left act_step]; now rewrite C1).
  destruct (proj2 (C86_connect _ s' n2 E') p2 C2) as (k2 & K2 & I2).
  assert (Ps : forall s name, (fst (connect s name)).(published) = s.(published)).
  { clear. intros s name. unfold connect. destruct (running s && test_channel s name); [|reflexivity]. unfold make_channel. destruct (resolve s name); [|reflexivity]. destruct (pvget p (pvs s)); reflexivity. }
  assert (P1 : s'.(published) = s.(published)) by (rewrite <- (Ps s n1), C1; reflexivity). rewrite P1 in K2.
  assert (J1 : In (k1, p1) (fst (connect s' n2)).(pvs)).
  { unfold connect. destruct (running s' && test_channel s' n2); [|exact I1]. unfold make_channel. destruct (resolve s' n2); [|exact I1]. destruct (pvget p (pvs s')); [exact I1|]. cbn. apply in_or_app. auto. }
  destruct S2 as (_ & _ & N2 & N1).
  assert (U : forall (l : list ((string * option string) * nat)) a b x y, NoDup (map fst l) -> NoDup (map snd l) -> In (a, x) l -> In (b, y) l -> (x = y <-> a = b)).
  { clear. induction l as [|[c z] l IH]; intros a b x y Nf Ns Ia Ib; [contradiction|]. cbn [map fst snd] in *. inversion Nf as [|? ? F1 F2]; subst. inversion Ns as [|? ? T1 T2]; subst.
    destruct Ia as [Ia|Ia], Ib as [Ib|Ib]; [injection Ia as <- <-; injection Ib as <- <-; tauto| | |now apply IH].
    - injection Ia as <- <-. split; intros <-; exfalso; [apply T1; apply in_map_iff; exists (b, z)|apply F1; apply in_map_iff; exists (c, y)]; auto.
    - injection Ib as <- <-. split; intros ->; exfalso; [apply T1; apply in_map_iff; exists (a, z)|apply F1; apply in_map_iff; exists (c, x)]; auto. }
  rewrite (U _ k1 k2 p1 p2 N1 N2 J1 I2).
  assert (Q : forall name k k', stands s.(published) name k -> stands s.(published) name k' -> k = k').
  { clear. intros name [m [f|]] [m' [f'|]]; unfold stands; cbn [fst snd]; intros A B; try tauto; try (destruct A, B; tauto).
    - destruct A as (_ & _ & -> & N), B as (_ & _ & H & N'). assert (X : Some (m, f) = Some (m', f')) by (transitivity (rsplit1 "."%char (m ++ "." ++ f)%string); [symmetry; now apply rsplit1_some|rewrite H; now apply rsplit1_some]). congruence.
    - destruct A as [_ ->], B as [_ ->]. reflexivity. }
  split; [intros <-; eauto|]. intros (k & A & B). now rewrite (Q n1 k1 k K1 A), (Q n2 k2 k K2 B).
Qed.
Print Assumptions C86_shared.

(* After a block has been taken back nobody is left on a PV of it. *)
Theorem C86_unpublished : forall acts ps s k n, fold_left act_step (acts ++ [Publish ps]) new_server = s -> In (k, n) s.(pvs) -> In (fst k) ps.
Proof. intros acts ps s k n E I. pose proof (sound_run (acts ++ [Publish ps])) as S. rewrite E in S. destruct S as (A & _). destruct (A k n I) as [X _]. rewrite <- E, fold_left_app in X. exact X. Qed.
Print Assumptions C86_unpublished.

Example C86_channel_ex : let s := fold_left act_step [Init; Publish ["A:B"; "A:B.C"]; Connect "A:B.health"; Connect "A:B.C"] new_server in
  s.(pvs) = [(("A:B", Some "health"), 0); (("A:B.C", None), 1)] /\ snd (connect s "A:B.C.x") = Some 2 /\ snd (connect s "A:C") = None /\ (publish ["A:B.C"] s).(pvs) = [(("A:B.C", None), 1)].
Proof. vm_compute. auto. Qed.
