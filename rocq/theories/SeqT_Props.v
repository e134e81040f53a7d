(* C96: the sequencers of a PandA are loaded while their gate is shut, and shut again. *)
From Coq Require Import String Bool Arith Lia List.
From Verif Require Import Base SeqT_Model.
From Verif Require Seq_Model.
Import ListNotations.
Local Open Scope string_scope.
Local Open Scope list_scope.

(* ==== Finding the sequencers ==== *)
Lemma strip_spec s p : strip_table s = Some p <-> s = (p ++ ".table")%string.
Proof.
  revert p. induction s as [|c r IH]; intro p.
  - cbn. split; [discriminate|]. destruct p; discriminate.
  - cbn [strip_table]. destruct (String.eqb_spec (String c r) ".table") as [E|N].
    + split.
      * intro H. injection H as <-. exact E.
      * intro H. destruct p as [|d p]; [reflexivity|]. exfalso. rewrite E in H. cbn [String.append] in H.
        injection H as _ H. apply (f_equal String.length) in H. cbn in H.
        assert (L : forall q, String.length (q ++ ".table")%string = String.length q + 6).
        { induction q as [|x q IHq]; [reflexivity|]. cbn. now rewrite IHq. }
        rewrite L in H. lia.
    + destruct (strip_table r) as [x|] eqn:E.
      * split.
        -- intro H. injection H as <-. cbn [String.append]. f_equal. now apply IH.
        -- intro H. destruct p as [|d p]; [exfalso; now apply N|]. cbn [String.append] in H. injection H as -> H.
           apply IH in H. congruence.
      * split; [discriminate|]. intro H. destruct p as [|d p]; [exfalso; now apply N|]. cbn [String.append] in H.
        injection H as _ H. apply IH in H. congruence.
Qed.

Lemma app_table_inj p q : (p ++ ".table")%string = (q ++ ".table")%string -> p = q.
Proof. intro H. pose proof (proj2 (strip_spec _ p) eq_refl) as A. rewrite H in A. pose proof (proj2 (strip_spec _ q) eq_refl) as B. congruence. Qed.

(* the rows for the two tables *)
Definition is_table (e : string) : Prop := e = tableA \/ e = tableB.
Lemma is_tableb e : String.eqb e tableA || String.eqb e tableB = true <-> is_table e.
Proof. unfold is_table. rewrite orb_true_iff, !String.eqb_eq. tauto. Qed.
Lemma part_names_from exports : forall d names, part_names exports d = Ok names ->
  forall p e, dget p names = Some e -> dget p d = Some e \/ (is_table e /\ In ((p ++ ".table")%string, e) exports).
Proof.
  induction exports as [|[s e] r IH]; intros d names H p e' G; cbn [part_names] in H.
  - injection H as <-. auto.
  - destruct (String.eqb e tableA || String.eqb e tableB) eqn:T.
    + destruct (strip_table s) as [q|] eqn:E; [|discriminate]. apply strip_spec in E.
      destruct (IH _ _ H _ _ G) as [J|[J K]]; [|right; split; [exact J|now right]].
      rewrite dget_dset in J. destruct (String.eqb_spec p q) as [->|N]; [|auto].
      injection J as ->. right. split; [now apply is_tableb|]. left. congruence.
    + destruct (IH _ _ H _ _ G) as [J|[J K]]; [auto|]. right. split; [exact J|now right].
Qed.
Lemma part_names_nodup exports : forall d names, part_names exports d = Ok names -> NoDup (dkeys d) -> NoDup (dkeys names).
Proof.
  induction exports as [|[s e] r IH]; intros d names H N; cbn [part_names] in H; [now injection H as <-|].
  destruct (String.eqb e tableA || String.eqb e tableB); [|eauto].
  destruct (strip_table s) as [q|]; [|discriminate]. eapply IH; [exact H|]. now apply dset_nodup.
Qed.
Lemma part_names_ok exports : forall d, (forall s e, In (s, e) exports -> is_table e -> exists p, s = (p ++ ".table")%string) ->
  exists names, part_names exports d = Ok names.
Proof.
  induction exports as [|[s e] r IH]; intros d H; cbn [part_names]; [eauto|].
  destruct (String.eqb e tableA || String.eqb e tableB) eqn:T.
  - destruct (H s e (or_introl eq_refl)) as [p E]; [now apply is_tableb|]. apply strip_spec in E. rewrite E.
    apply IH. intros; eapply H; eauto. now right.
  - apply IH. intros; eapply H; eauto. now right.
Qed.
Lemma part_names_keep exports : forall d names p e, part_names exports d = Ok names ->
  (forall e', is_table e' -> In ((p ++ ".table")%string, e') exports -> e' = e) ->
  dget p d = Some e \/ (is_table e /\ In ((p ++ ".table")%string, e) exports) -> dget p names = Some e.
Proof.
  induction exports as [|[s x] r IH]; intros d names p e H U G; cbn [part_names] in H.
  - injection H as <-. destruct G as [G|[_ []]]. exact G.
  - assert (U' : forall e', is_table e' -> In ((p ++ ".table")%string, e') r -> e' = e).
    { intros e' T I. apply U; [exact T|now right]. }
    destruct (String.eqb x tableA || String.eqb x tableB) eqn:T.
    + destruct (strip_table s) as [q|] eqn:E; [|discriminate]. apply strip_spec in E. apply is_tableb in T.
      eapply IH; [exact H|exact U'|]. destruct G as [G|[T' [G|G]]].
      * left. rewrite dget_dset. destruct (String.eqb_spec p q) as [->|N]; [|exact G].
        f_equal. apply U; [exact T|]. left. congruence.
      * injection G as G ->. left. rewrite E in G. apply app_table_inj in G. rewrite G. apply dget_dset_same.
      * right. auto.
    + eapply IH; [exact H|exact U'|]. destruct G as [G|[T' [G|G]]]; [auto| |auto].
      injection G as _ ->. apply is_tableb in T'. congruence.
Qed.
Lemma snd_unique (l : list (string * string)) a b e : NoDup (map snd l) -> In (a, e) l -> In (b, e) l -> a = b.
Proof.
  induction l as [|[x y] r IH]; intros N A B; [destruct A|]. cbn [map snd] in N. inversion N as [|? ? N1 N2]; subst.
  destruct A as [A|A]; destruct B as [B|B].
  - congruence.
  - injection A as -> ->. exfalso. apply N1. apply in_map_iff. exists (b, e). auto.
  - injection B as -> ->. exfalso. apply N1. apply in_map_iff. exists (a, e). auto.
  - eauto.
Qed.
Lemma seq_mris_from layout names : forall d e m, dget e (seq_mris layout names d) = Some m ->
  dget e d = Some m \/ exists p, In (p, m) layout /\ dget p names = Some e.
Proof.
  induction layout as [|[n x] r IH]; intros d e m H; cbn [seq_mris] in H; [auto|].
  destruct (IH _ _ _ H) as [G|(p & I & G)]; [|right; exists p; split; [now right|exact G]].
  destruct (dget n names) as [ex|] eqn:E; [|auto]. rewrite dget_dset in G.
  destruct (String.eqb_spec e ex) as [->|N]; [|auto]. injection G as ->. right. exists n. split; [now left|exact E].
Qed.
Lemma seq_mris_keep layout names p e : dget p names = Some e -> (forall q, dget q names = Some e -> q = p) ->
  forall d m, NoDup (map fst layout) ->
  (dget e d = Some m /\ ~ In p (map fst layout)) \/ In (p, m) layout -> dget e (seq_mris layout names d) = Some m.
Proof.
  intros P U. induction layout as [|[n x] r IH]; intros d m N H; cbn [seq_mris].
  - destruct H as [[H _]|[]]. exact H.
  - cbn [map fst] in N. inversion N as [|? ? N1 N2]; subst. apply IH; [exact N2|].
    destruct H as [[G F]|[H|H]].
    + left. split; [|intro I; apply F; now right].
      destruct (dget n names) as [ex|] eqn:E; [|exact G]. rewrite dget_dset.
      destruct (String.eqb_spec e ex) as [->|_]; [|exact G]. exfalso. apply F. left. now apply U.
    + injection H as -> ->. left. split; [|exact N1]. rewrite P. apply dget_dset_same.
    + right. exact H.
Qed.

(* the blocks that are used are those of the parts whose tables are exported as seqTableA and
   seqTableB; in every other case nothing is used *)
Theorem C96_blocks exports layout a b : NoDup (map snd exports) -> NoDup (map fst layout) ->
  get_blocks exports layout = Ok (a, b) <->
  exists pa pb, pa <> pb /\ In ((pa ++ ".table")%string, "seqTableA") exports /\ In ((pb ++ ".table")%string, "seqTableB") exports /\
                In (pa, a) layout /\ In (pb, b) layout.
Proof.
  intros NE NL. change "seqTableA" with tableA. change "seqTableB" with tableB. unfold get_blocks. split.
  - destruct (part_names exports []) as [names|e] eqn:P; [|discriminate].
    destruct (both_tables (map snd names)) eqn:B; [|discriminate]. cbv zeta.
    destruct (dget tableA _) as [x|] eqn:GA; [|discriminate]. destruct (dget tableB _) as [y|] eqn:GB; [|discriminate].
    intro H. injection H as -> ->.
    destruct (seq_mris_from _ _ _ _ _ GA) as [Z|(pa & IA & DA)]; [discriminate|].
    destruct (seq_mris_from _ _ _ _ _ GB) as [Z|(pb & IB & DB)]; [discriminate|].
    exists pa, pb. split; [intros ->; rewrite DA in DB; discriminate|].
    destruct (part_names_from _ _ _ P _ _ DA) as [Z|[_ EA]]; [discriminate|].
    destruct (part_names_from _ _ _ P _ _ DB) as [Z|[_ EB]]; [discriminate|]. auto.
  - intros (pa & pb & N & EA & EB & LA & LB).
    destruct (part_names_ok exports []) as [names P].
    { intros s e I [->| ->]; [exists pa; eapply snd_unique; eauto|exists pb; eapply snd_unique; eauto]. }
    rewrite P.
    assert (DA : dget pa names = Some tableA).
    { eapply part_names_keep; [exact P| |right; split; [now left|exact EA]]. intros e' [->| ->] I; [reflexivity|].
      exfalso. apply N. apply app_table_inj. eapply snd_unique; eauto. }
    assert (DB : dget pb names = Some tableB).
    { eapply part_names_keep; [exact P| |right; split; [now right|exact EB]]. intros e' [->| ->] I; [|reflexivity].
      exfalso. apply N. symmetry. apply app_table_inj. eapply snd_unique; eauto. }
    assert (K : NoDup (dkeys names)) by (eapply part_names_nodup; [exact P|constructor]).
    assert (S : forall p e, dget p names = Some e -> (p = pa /\ e = tableA) \/ (p = pb /\ e = tableB)).
    { intros p e G. destruct (part_names_from _ _ _ P _ _ G) as [Z|[[->| ->] I]]; [discriminate| |].
      - left. split; [|reflexivity]. apply app_table_inj. eapply snd_unique; eauto.
      - right. split; [|reflexivity]. apply app_table_inj. eapply snd_unique; eauto. }
    assert (B : both_tables (map snd names) = true).
    { assert (I : incl (dkeys names) [pa; pb]).
      { intros k J. destruct (dget k names) as [e|] eqn:G.
        - destruct (S _ _ G) as [[-> _]|[-> _]]; cbn; auto.
        - apply dget_None_notin in G. contradiction. }
      assert (I' : incl [pa; pb] (dkeys names)).
      { intros k [<-|[<-|[]]]; eapply dget_Some_key; eauto. }
      pose proof (NoDup_incl_length K I) as L1.
      assert (ND : NoDup [pa; pb]) by (repeat constructor; cbn; intuition congruence).
      pose proof (NoDup_incl_length ND I') as L2. unfold dkeys in L1, L2. rewrite map_length in L1, L2.
      destruct names as [|[k1 v1] [|[k2 v2] [|]]]; cbn in L1, L2; try lia.
      cbn [dkeys map fst] in K. inversion K as [|? ? K1 _]; subst.
      assert (G1 : dget k1 [(k1, v1); (k2, v2)] = Some v1) by (cbn; now rewrite String.eqb_refl).
      assert (G2 : dget k2 [(k1, v1); (k2, v2)] = Some v2).
      { cbn. rewrite String.eqb_refl. destruct (String.eqb_spec k2 k1) as [->|_]; [|reflexivity]. exfalso. apply K1. now left. }
      destruct (S _ _ G1) as [[-> ->]|[-> ->]]; destruct (S _ _ G2) as [[-> ->]|[-> ->]]; cbn; try reflexivity;
        exfalso; apply K1; now left. }
    rewrite B. cbv zeta.
    rewrite (seq_mris_keep layout names pa tableA DA) with (m := a); [| |exact NL|now right].
    + rewrite (seq_mris_keep layout names pb tableB DB) with (m := b); [reflexivity| |exact NL|now right].
      intros q G. destruct (S _ _ G) as [[_ Z]|[-> _]]; [discriminate|reflexivity].
    + intros q G. destruct (S _ _ G) as [[-> _]|[_ Z]]; [reflexivity|discriminate].
Qed.
Print Assumptions C96_blocks.
Example C96_blocks_ex :
  get_blocks [("SEQ2.table", "seqTableA"); ("SRGATE1.forceSet", "seqSetEnable"); ("SEQ1.table", "seqTableB")]
             [("SEQ1", "P:SEQ1"); ("SRGATE1", "P:SRGATE1"); ("SEQ2", "P:SEQ2")] = Ok ("P:SEQ2", "P:SEQ1") /\
  get_blocks [("SEQ2.table", "seqTableA"); ("SEQ1.repeats", "seqTableB")] [("SEQ1", "P:SEQ1"); ("SEQ2", "P:SEQ2")] = Err NotTable /\
  get_blocks [("SEQ2.table", "seqTableA"); ("SEQ2.table", "seqTableB")] [("SEQ2", "P:SEQ2")] = Err WrongExports.
Proof. split; [vm_compute; reflexivity|]. split; vm_compute; reflexivity. Qed.

(* ==== The gate ==== *)
Section life.
  Context {T : Type}.
  Variable exported : string -> bool.
  Notation st := (st T).
  Notation step := (step (T := T) exported).
  Notation run := (run (T := T) exported).

  Lemma perform_inv (P : st -> Prop) (ops : list op) : (forall f, In f ops -> forall s s', P s -> f s = Some s' -> P s') ->
    forall n s, P s -> P (fst (perform n ops s)).
  Proof.
    induction ops as [|f r IH]; intros H n s Ps; cbn [perform]; [exact Ps|].
    destruct n as [|n]; [exact Ps|]. destruct (f s) as [s'|] eqn:E; [|exact Ps].
    apply IH; [intros; eapply H; eauto; now right|]. eapply H; eauto. now left.
  Qed.
  Fixpoint chain (ops : list op) (s : st) : option st :=
    match ops with [] => Some s | f :: r => match f s with Some s' => chain r s' | None => None end end.
  Lemma perform_true ops : forall n s, snd (perform n ops s) = true -> chain ops s = Some (fst (perform n ops s)).
  Proof.
    induction ops as [|f r IH]; intros n s H; cbn [perform chain] in *; [reflexivity|].
    destruct n as [|n]; [discriminate|]. destruct (f s) as [s'|] eqn:E; [|discriminate]. now apply IH.
  Qed.

  (* all gates are shut, and every table so far was written while its gate was shut *)
  Definition shut (s : st) : Prop := forall m, gate s m = false.
  Definition clean_puts (s : st) : Prop := Forall (fun x => snd x = false) (puts s).
  (* only the gate of the PandA in use can be open *)
  Definition only_ours (s : st) : Prop := forall m, gate s m = true -> panda_mri s = Some m /\ exported m = true.

  Lemma put_shut c i (s s' : st) : shut s /\ clean_puts s -> c_put c i s = Some s' -> shut s' /\ clean_puts s'.
  Proof.
    intros [S C]. unfold c_put. destruct (buffer s) as [[[a b] d]|]; [|discriminate].
    destruct (nth_error _ _) as [[side t]|]; intro H; injection H as <-; [|auto]. split; [exact S|].
    unfold clean_puts. cbn [put_table puts]. apply Forall_app. split; [exact C|]. constructor; [apply S|constructor].
  Qed.
  Lemma configure_shut c from todo n s : shut s -> clean_puts s ->
    shut (fst (on_configure c from todo n s)) /\ clean_puts (fst (on_configure c from todo n s)).
  Proof.
    intros A B. unfold on_configure. apply (perform_inv (fun s => shut s /\ clean_puts s)); [|auto].
    intros f I q q' [S C] H. cbn [In] in I.
    destruct I as [<-|[<-|[<-|[<-|[<-|[<-|[<-|[<-|[]]]]]]]]].
    - injection H as <-. auto.
    - injection H as <-. auto.
    - unfold c_find in H. destruct (get_blocks _ _); [|discriminate]. injection H as <-. auto.
    - injection H as <-. auto.
    - unfold c_map in H. destruct (c_axes c); [|discriminate]. injection H as <-. auto.
    - unfold c_buffer in H. destruct (get_blocks _ _) as [[a b]|]; [|discriminate]. injection H as <-. auto.
    - eapply put_shut; eauto.
    - eapply put_shut; eauto.
  Qed.
  Lemma abort_puts n (s : st) : puts (fst (on_abort exported n s)) = puts s /\ panda_mri (fst (on_abort exported n s)) = panda_mri s.
  Proof.
    unfold on_abort. apply (perform_inv (fun q => puts q = puts s /\ panda_mri q = panda_mri s)); [|auto].
    intros f I q q' [A B] H. destruct I as [<-|[<-|[]]].
    - unfold reset_seq in H. destruct (panda_mri q) as [m|] eqn:E; [destruct (exported m)|]; injection H as <-; cbn; auto; split; congruence.
    - injection H as <-. auto.
  Qed.
  Lemma abort_gate n (s : st) m : gate (fst (on_abort exported n s)) m = true -> gate s m = true.
  Proof.
    unfold on_abort. revert m. apply (perform_inv (fun q => forall m, gate q m = true -> gate s m = true)); [|auto].
    intros f I q q' A H m G. destruct I as [<-|[<-|[]]].
    - unfold reset_seq in H. destruct (panda_mri q) as [k|]; [destruct (exported k)|]; injection H as <-; cbn in G; auto.
      destruct (String.eqb m k); [discriminate|auto].
    - injection H as <-. auto.
  Qed.
  Lemma abort_shuts n (s : st) : only_ours s -> snd (on_abort exported n s) = true -> shut (fst (on_abort exported n s)).
  Proof.
    intros O H m. unfold on_abort in *. apply perform_true in H. revert H.
    generalize (fst (perform n [reset_seq exported; clean] s)) as z. intros z H. cbn [chain] in H.
    destruct (reset_seq exported s) as [s'|] eqn:E; [|discriminate]. injection H as <-.
    cbn [gate]. unfold reset_seq in E. destruct (gate s m) eqn:G.
    - destruct (O m G) as [P X]. rewrite P, X in E. injection E as <-. cbn. now rewrite String.eqb_refl.
    - destruct (panda_mri s) as [k|]; [destruct (exported k)|]; injection E as <-; cbn; try exact G.
      destruct (String.eqb m k); [reflexivity|exact G].
  Qed.
  Lemma shut_ours s : shut s -> only_ours s.
  Proof. intros S m G. rewrite S in G. discriminate. Qed.

  (* nothing is subscribed to *)
  Definition idle (s : st) : Prop := forall a b d, buffer s = Some (a, b, d) -> Seq_Model.db_subscribed d = false.
  Lemma abort_idle n s : snd (on_abort exported n s) = true -> idle (fst (on_abort exported n s)).
  Proof.
    intro H. unfold on_abort in *. apply perform_true in H. revert H.
    generalize (fst (perform n [reset_seq exported; clean] s)) as z. intros z H. cbn [chain] in H.
    destruct (reset_seq exported s) as [s'|]; [|discriminate]. injection H as <-.
    intros a b d E. cbn [buffer] in E. destruct (buffer s') as [[[a' b'] d']|]; [|discriminate]. injection E as _ _ <-. reflexivity.
  Qed.
  (* what holds between hooks *)
  Definition quiet (p : phase) : Prop := match p with Ready | Armed | Aborted => True | _ => False end.
  Definition in_use (p : phase) : Prop := match p with Armed | PreRun | Ran => True | _ => False end.
  Definition Inv (x : phase * st) : Prop :=
    let (p, s) := x in
    clean_puts s /\ only_ours s /\ (quiet p -> shut s /\ idle s) /\ (in_use p -> panda s <> None /\ panda s = panda_mri s).

  (* what a configure that succeeds has done *)
  Lemma configure_done c from todo n (s : st) : snd (on_configure c from todo n s) = true ->
    exists a b, get_blocks (c_exports c) (c_layout c) = Ok (a, b) /\
    let s' := fst (on_configure c from todo n s) in
    let ts := c_tables c from (from + todo) in
    panda s' = Some (c_panda c) /\ panda_mri s' = Some (c_panda c) /\ range s' = (from, from + todo) /\
    c_axes c = Some (axes s') /\ buffer s' = Some (a, b, Seq_Model.db_configure Seq_Model.db_init ts) /\
    enables s' = enables s /\
    (a <> b -> (forall t, nth_error ts 0 = Some t -> loaded s' a = Some t) /\
               (forall t, nth_error ts 1 = Some t -> loaded s' b = Some t)) /\
    (forall k, k <> a -> k <> b -> loaded s' k = loaded s k).
  Proof.
    intro H. unfold on_configure in *. apply perform_true in H. revert H.
    generalize (fst (perform n [c_range from todo; c_mri c; c_find c; c_clear; c_map c; c_buffer c; c_put c 0; c_put c 1] s)) as s'.
    intros s' H. cbn [chain c_range c_mri] in H. unfold c_find at 1 in H. 
    destruct (get_blocks (c_exports c) (c_layout c)) as [[a b]|e] eqn:G; [|discriminate].
    exists a, b. split; [reflexivity|]. cbv zeta. cbn [c_clear] in H. unfold c_map at 1 in H.
    destruct (c_axes c) as [x|] eqn:X; [|discriminate].
    unfold c_buffer at 1 in H. rewrite G in H. cbn [range fst snd gate loaded panda_mri panda axes buffer puts enables] in H.
    set (ts := c_tables c from (from + todo)) in *. unfold c_put at 1 in H. cbn [buffer] in H.
    destruct ts as [|t0 [|t1 r]]; cbn [Seq_Model.db_configure Seq_Model.db_fill Seq_Model.db_cleanup Seq_Model.db_gen
      Seq_Model.db_written Seq_Model.db_status Seq_Model.db_subscribed Seq_Model.db_finished Seq_Model.db_init app nth_error] in H |- *;
      unfold c_put in H;
      cbn [buffer put_table nth_error Seq_Model.db_written gate loaded panda_mri panda axes puts enables range] in H; injection H as <-;
      cbn [buffer put_table gate loaded panda_mri panda axes puts enables range];
      (split; [reflexivity|]; split; [reflexivity|]; split; [reflexivity|]; split; [reflexivity|]; split; [reflexivity|]; split; [reflexivity|]; split).
    - intros _. split; intros t E; discriminate.
    - reflexivity.
    - intros N. split; intros t E; [injection E as <-|discriminate]. now rewrite String.eqb_refl.
    - intros k A B. apply String.eqb_neq in A. now rewrite A.
    - intros N. split; intros t E; injection E as <-.
      + apply String.eqb_neq in N. rewrite N. now rewrite String.eqb_refl.
      + now rewrite String.eqb_refl.
    - intros k A B. apply String.eqb_neq in A, B. now rewrite A, B.
  Qed.

  Lemma Inv_after_configure c from todo n (s : st) others : shut s -> clean_puts s ->
    Inv (after (on_configure c from todo n s) others Armed).
  Proof.
    intros S C. destruct (configure_shut c from todo n s S C) as [S' C']. unfold after.
    destruct (snd (on_configure c from todo n s)) eqn:E; cbn [andb].
    - destruct (configure_done c from todo n s E) as (a & b & _ & P & M & _ & _ & B & _). cbv zeta in *.
      assert (I : idle (fst (on_configure c from todo n s))).
      { intros a' b' d' E'. rewrite B in E'. injection E' as _ _ <-.
        generalize (c_tables c from (from + todo)) as ts. intros [|t0 [|t1 r]]; reflexivity. }
      destruct others; cbn [Inv quiet in_use]; (split; [exact C'|]; split; [now apply shut_ours|]; split; [auto; try tauto|]); try tauto.
      intros _. rewrite P, M. split; [discriminate|reflexivity].
    - cbn [Inv quiet in_use]. split; [exact C'|]. split; [now apply shut_ours|]. split; tauto.
  Qed.
  Lemma Inv_abort_configure c from todo na n (s : st) others : only_ours s -> clean_puts s ->
    Inv (after (then_ (on_abort exported na s) (on_configure c from todo n)) others Armed).
  Proof.
    intros O C. destruct (abort_puts na s) as [P M]. unfold then_. destruct (snd (on_abort exported na s)) eqn:E.
    - apply Inv_after_configure; [now apply abort_shuts|]. unfold clean_puts. now rewrite P.
    - unfold after. rewrite E. cbn [andb Inv quiet in_use]. split; [unfold clean_puts; now rewrite P|].
      split; [|split; tauto]. intros m G. rewrite M. apply O. now apply abort_gate in G.
  Qed.
  Lemma Inv_after_abort n (s : st) others p : (p = Ready \/ p = Aborted) -> only_ours s -> clean_puts s ->
    Inv (after (on_abort exported n s) others p).
  Proof.
    intros Q O C. destruct (abort_puts n s) as [P M]. unfold after.
    assert (O' : only_ours (fst (on_abort exported n s))).
    { intros m G. rewrite M. apply O. now apply abort_gate in G. }
    assert (C' : clean_puts (fst (on_abort exported n s))) by (unfold clean_puts; now rewrite P).
    destruct (snd (on_abort exported n s)) eqn:E; cbn [andb].
    - pose proof (abort_shuts n s O E) as S. pose proof (abort_idle n s E) as SI. destruct others; cbn [Inv quiet in_use].
      + split; [exact C'|]. split; [exact O'|]. split; [auto|]. destruct Q as [-> | ->]; cbn; tauto.
      + split; [exact C'|]. split; [exact O'|]. split; tauto.
    - cbn [Inv quiet in_use]. split; [exact C'|]. split; [exact O'|]. split; tauto.
  Qed.
  (* enabling the gate of the PandA in use *)
  Definition uses (m : string) (s : st) : Prop :=
    clean_puts s /\ only_ours s /\ panda s = Some m /\ panda_mri s = Some m.
  Lemma enable_using m (s s' : st) : uses m s -> enable exported s = Some s' -> uses m s'.
  Proof.
    intros (C & O & P & M) H. unfold enable in H. rewrite P in H. destruct (exported m) eqn:X; [|discriminate].
    injection H as <-. unfold uses, only_ours, clean_puts. cbn. split; [exact C|]. split; [|auto].
    intros k G. destruct (String.eqb_spec k m) as [E|N]; [subst k; auto|]. now apply O.
  Qed.
  Lemma Inv_using p q (s : st) (r : st * bool) others : in_use p -> ~ quiet q -> Inv (p, s) ->
    (forall m, uses m s -> uses m (fst r)) -> Inv (after r others q).
  Proof.
    intros U Q (C & O & _ & K) H. destruct (K U) as [N E]. destruct (panda s) as [m|] eqn:P; [|congruence].
    destruct (H m) as (C' & O' & P' & M'). { unfold uses. auto. }
    unfold after. destruct (snd r && others); cbn [Inv]; (split; [exact C'|]; split; [exact O'|]; split; [try tauto; cbn; tauto|]).
    - intros _. rewrite P', M'. split; [discriminate|reflexivity].
    - cbn. tauto.
  Qed.

  Lemma step_Inv x e y : Inv x -> step x e = Some y -> Inv y.
  Proof.
    intros I H. destruct x as [p s]. pose proof I as (C & O & S & U). unfold SeqT_Model.step in H.
    destruct e as [c todo nr n others|n others|es n others|others|c from todo na n others|n others|c from todo na n others|n others| |].
    - destruct p; try discriminate; injection H as <-.
      + apply Inv_after_configure; [now apply S|exact C].
      + now apply Inv_abort_configure.
    - destruct p; try discriminate. injection H as <-. eapply (Inv_using Armed PreRun); [exact Logic.I|cbn; tauto|exact I|].
      intros m Um. unfold on_pre_run. apply (perform_inv (uses m)); [|exact Um].
      intros f F q q' Q E. destruct F as [<-|[<-|[]]].
      + destruct (panda q); [|discriminate]. destruct (buffer q); [|discriminate]. now injection E as <-.
      + destruct (axes q); [now apply (enable_using m q)|now injection E as <-].
    - destruct p; try discriminate. injection H as <-. eapply (Inv_using PreRun Ran); [exact Logic.I|cbn; tauto|exact I|].
      intros m Um. unfold on_run. apply (perform_inv (uses m)); [|exact Um].
      intros f F q q' Q E. destruct F as [<-|[<-|[<-|[]]]].
      + destruct (axes q); [now injection E as <-|now apply (enable_using m q)].
      + unfold play in E. destruct (buffer q) as [[[a b] d]|]; [|discriminate]. injection E as <-. exact Q.
      + unfold played in E. destruct (buffer q) as [[[a b] d]|]; [|discriminate].
        destruct (Seq_Model.db_subscribed d); [discriminate|]. now injection E as <-.
    - destruct p; try discriminate. injection H as <-. eapply (Inv_using Ran Finished); [exact Logic.I|cbn; tauto|exact I|]. auto.
    - destruct p; try discriminate. injection H as <-. now apply Inv_abort_configure.
    - injection H as <-. apply Inv_after_abort; auto.
    - injection H as <-. now apply Inv_abort_configure.
    - injection H as <-. apply Inv_after_abort; auto.
    - injection H as <-. cbn [Inv quiet in_use]. tauto.
    - injection H as <-. cbn [Inv quiet in_use]. tauto.
  Qed.
  Lemma run_Inv es : forall x y, Inv x -> run x es = Some y -> Inv y.
  Proof.
    induction es as [|e es IH]; intros x y I H; cbn [SeqT_Model.run] in H; [now injection H as <-|].
    destruct (step x e) as [z|] eqn:E; [|discriminate]. eapply IH; [|exact H]. eapply step_Inv; eauto.
  Qed.
  Lemma start_Inv l : Inv (start (fun _ => false) l).
  Proof.
    cbn [start Inv]. split; [constructor|]. split; [intros m G; discriminate|].
    split; [intros _; split; [intro m; reflexivity|intros a b d E; discriminate]|]. cbn. tauto.
  Qed.

  (* the double buffer: every table is either written or still to come *)
  Definition all_of (ts : list T) (d : Seq_Model.dbuf T) : Prop :=
    map snd (Seq_Model.db_written d) ++ Seq_Model.db_gen d = ts /\
    (Seq_Model.db_subscribed d = false -> Seq_Model.db_finished d = true -> Seq_Model.db_gen d = []).
  Lemma configured_all ts : all_of ts (Seq_Model.db_configure Seq_Model.db_init ts) /\
    Seq_Model.db_subscribed (Seq_Model.db_configure Seq_Model.db_init ts) = false.
  Proof. destruct ts as [|t0 [|t1 r]]; cbn; unfold all_of; cbn; auto; (split; [split; [reflexivity|]|reflexivity]); intros; try reflexivity; discriminate. Qed.
  Lemma play_all ts es : forall d, all_of ts d -> (Seq_Model.db_subscribed d = false -> Seq_Model.db_gen d = []) ->
    all_of ts (Seq_Model.db_events d es) /\
    (Seq_Model.db_subscribed (Seq_Model.db_events d es) = false -> Seq_Model.db_gen (Seq_Model.db_events d es) = []).
  Proof.
    induction es as [|[side v] es IH]; intros d A B; [auto|].
    change (Seq_Model.db_events d ((side, v) :: es)) with (Seq_Model.db_events (Seq_Model.db_active d side v) es).
    apply IH; unfold Seq_Model.db_active; destruct (Seq_Model.db_subscribed d) eqn:S; cbn [negb]; try assumption.
    - destruct A as [A1 A2].
      assert (K : all_of ts (Seq_Model.mkDB (Seq_Model.db_gen d) (Seq_Model.set_status (Seq_Model.db_status d) side v)
                  (Seq_Model.db_subscribed d) (Seq_Model.db_finished d) (Seq_Model.db_written d))).
      { split; cbn; [exact A1|congruence]. }
      destruct (Seq_Model.db_status d side) as [[|]|]; try (rewrite S in K; exact K).
      destruct v; [rewrite S in K; exact K|]. unfold Seq_Model.db_fill. destruct (Seq_Model.db_gen d) as [|t g] eqn:G.
      + split; cbn; [now rewrite G|intros; exact G].
      + split; cbn; [|congruence]. rewrite map_app, <- app_assoc. exact A1.
    - destruct (Seq_Model.db_status d side) as [[|]|]; cbn; try discriminate.
      destruct v; cbn; [discriminate|]. unfold Seq_Model.db_fill. destruct (Seq_Model.db_gen d) as [|t g] eqn:G; cbn.
      + intros _. exact G.
      + rewrite S. discriminate.
    - intros _. now apply B.
  Qed.
End life.

(* if all gates were shut when the process started, each table that on_configure writes is written while the
   gate of its PandA is shut, whatever happens to the block, and every gate is shut whenever the block is
   ready, armed, paused or aborted, and nothing then waits for the sequencers *)
Theorem C96_shut (T : Type) exported (l : string -> option T) es p s :
  run exported (start (fun _ => false) l) es = Some (p, s) ->
  Forall (fun x => snd x = false) (puts s) /\
  (p = Ready \/ p = Armed \/ p = Aborted ->
     (forall m, gate s m = false) /\ forall a b d, buffer s = Some (a, b, d) -> Seq_Model.db_subscribed d = false) /\
  (forall m, gate s m = true -> panda_mri s = Some m).
Proof.
  intro H. destruct (run_Inv exported es _ _ (start_Inv exported l) H) as (C & O & Q & _).
  split; [exact C|]. split.
  - intros [->|[->| ->]]; apply Q; exact I.
  - intros m G. now apply O.
Qed.
Print Assumptions C96_shut.

(* the event that configures, with its PandA, first step and number of steps *)
Definition configures {T} (e : event T) : option (config T * nat * nat) :=
  match e with
  | Configure c todo _ _ _ => Some (c, 0, todo)
  | PostRunArmed c from todo _ _ _ | Pause c from todo _ _ _ => Some (c, from, todo)
  | _ => None
  end.
(* when the block is armed, the sequencers hold the first tables for the steps to come, and no other
   sequencer has been written *)
Theorem C96_armed (T : Type) exported (x : phase * st T) e s : step exported x e = Some (Armed, s) ->
  exists c from todo a b, configures e = Some (c, from, todo) /\ get_blocks (c_exports c) (c_layout c) = Ok (a, b) /\
  panda s = Some (c_panda c) /\ range s = (from, from + todo) /\ c_axes c = Some (axes s) /\
  buffer s = Some (a, b, Seq_Model.db_configure Seq_Model.db_init (c_tables c from (from + todo))) /\
  (a <> b -> forall t, nth_error (c_tables c from (from + todo)) 0 = Some t -> loaded s a = Some t) /\
  (a <> b -> forall t, nth_error (c_tables c from (from + todo)) 1 = Some t -> loaded s b = Some t) /\
  (forall k, k <> a -> k <> b -> loaded s k = loaded (snd x) k).
Proof.
  destruct x as [p q]. cbn [snd].
  assert (K : forall c from todo n others q' s, after (on_configure c from todo n q') others Armed = (Armed, s) ->
    (forall k, loaded q' k = loaded q k) ->
    exists a b, get_blocks (c_exports c) (c_layout c) = Ok (a, b) /\
    panda s = Some (c_panda c) /\ range s = (from, from + todo) /\ c_axes c = Some (axes s) /\
    buffer s = Some (a, b, Seq_Model.db_configure Seq_Model.db_init (c_tables c from (from + todo))) /\
    (a <> b -> forall t, nth_error (c_tables c from (from + todo)) 0 = Some t -> loaded s a = Some t) /\
    (a <> b -> forall t, nth_error (c_tables c from (from + todo)) 1 = Some t -> loaded s b = Some t) /\
    (forall k, k <> a -> k <> b -> loaded s k = loaded q k)).
  { clear. intros c from todo n others q' s H L. unfold after in H.
    destruct (snd (on_configure c from todo n q')) eqn:E; [|discriminate]. destruct others; [|discriminate]. injection H as <-.
    destruct (configure_done c from todo n q' E) as (a & b & G & P & _ & R & X & B & _ & A & F). cbv zeta in *.
    exists a, b. split; [exact G|]. split; [exact P|]. split; [exact R|]. split; [exact X|]. split; [exact B|].
    split; [intro N; apply A; exact N|]. split; [intro N; apply A; exact N|].
    intros k Ka Kb. rewrite <- L. now apply F. }
  assert (AL : forall n k, loaded (fst (on_abort exported n q)) k = loaded q k).
  { intros n k. unfold on_abort. apply (perform_inv (fun z => loaded z k = loaded q k)); [|reflexivity].
    intros f I z z' A H. destruct I as [<-|[<-|[]]].
    - unfold reset_seq in H. destruct (panda_mri z) as [m|]; [destruct (exported m)|]; injection H as <-; exact A.
    - injection H as <-. exact A. }
  assert (K2 : forall c from todo na n others s,
    after (then_ (on_abort exported na q) (on_configure c from todo n)) others Armed = (Armed, s) ->
    after (on_configure c from todo n (fst (on_abort exported na q))) others Armed = (Armed, s)).
  { clear. intros c from todo na n others s H. unfold then_ in H. destruct (snd (on_abort exported na q)) eqn:E; [exact H|].
    unfold after in H. rewrite E in H. discriminate. }
  assert (NO : forall (r : st T * bool) o p', p' <> Armed -> after r o p' <> (Armed, s)).
  { clear. intros r o p' N. unfold after. destruct (snd r && o); congruence. }
  assert (SI : forall u v : phase * st T, Some u = Some v -> u = v) by congruence.
  intro H. unfold step in H.
  destruct e as [c todo nr n others|n others|es n others|others|c from todo na n others|n others|c from todo na n others|n others| |].
  - exists c, 0, todo. destruct p; try discriminate; apply SI in H.
    + destruct (K _ _ _ _ _ _ _ H (fun k => eq_refl)) as (a & b & R). exists a, b. split; [reflexivity|exact R].
    + apply K2 in H. destruct (K _ _ _ _ _ _ _ H (AL nr)) as (a & b & R). exists a, b. split; [reflexivity|exact R].
  - destruct p; try discriminate. apply SI in H. exfalso. revert H. apply NO. discriminate.
  - destruct p; try discriminate. apply SI in H. exfalso. revert H. apply NO. discriminate.
  - destruct p; try discriminate. apply SI in H. exfalso. revert H. apply NO. discriminate.
  - destruct p; try discriminate. apply SI in H. exists c, from, todo. apply K2 in H.
    destruct (K _ _ _ _ _ _ _ H (AL na)) as (a & b & R). exists a, b. split; [reflexivity|exact R].
  - apply SI in H. exfalso. revert H. apply NO. discriminate.
  - apply SI in H. exists c, from, todo. apply K2 in H.
    destruct (K _ _ _ _ _ _ _ H (AL na)) as (a & b & R). exists a, b. split; [reflexivity|exact R].
  - apply SI in H. exfalso. revert H. apply NO. discriminate.
  - discriminate.
  - discriminate.
Qed.
Print Assumptions C96_armed.

(* a run opens the gate once, before the motors start if there are any that the sequencers follow and otherwise after;
   it is over when every table for its steps has been written *)
Theorem C96_ran (T : Type) exported (x : phase * st T) e s s1 s2 n1 o1 ups n2 o2 :
  step exported x e = Some (Armed, s) ->
  step exported (Armed, s) (PreRunHook n1 o1) = Some (PreRun, s1) ->
  step exported (PreRun, s1) (RunHook ups n2 o2) = Some (Ran, s2) ->
  exists c from todo a b d,
    configures e = Some (c, from, todo) /\ buffer s2 = Some (a, b, d) /\
    map snd (Seq_Model.db_written d) = c_tables c from (from + todo) /\
    Seq_Model.db_subscribed d = false /\ gate s2 (c_panda c) = true /\ enables s2 = enables s ++ [c_panda c] /\
    (gate s (c_panda c) = false -> c_axes c = Some (gate s1 (c_panda c))).
Proof.
  intros A P R. destruct (C96_armed T exported x e s A) as (c & from & todo & a & b & E & _ & PA & _ & X & B & _).
  unfold step, after in P, R. cbn [fst snd] in P, R.
  destruct (snd (on_pre_run exported n1 s)) eqn:E1; [|discriminate]. destruct o1; [|discriminate].
  destruct (snd (on_run exported ups n2 s1)) eqn:E2; [|discriminate]. destruct o2; [|discriminate].
  cbn [andb] in P, R. injection P as P. injection R as R.
  apply perform_true in E1. apply perform_true in E2.
  unfold on_pre_run in P. rewrite P in E1. clear P. unfold on_run in R. rewrite R in E2. clear R.
  cbn [chain] in E1. rewrite PA, B in E1. cbn [chain] in E2.
  set (ts := c_tables c from (from + todo)) in *.
  set (d0 := Seq_Model.db_configure Seq_Model.db_init ts) in *.
  set (d := Seq_Model.db_events (Seq_Model.db_run d0) ups) in *.
  exists c, from, todo, a, b, d. split; [exact E|].
  destruct (configured_all ts) as [C0 C1].
  assert (FIN : Seq_Model.db_subscribed d = false -> map snd (Seq_Model.db_written d) = ts).
  { intro D. destruct (play_all ts ups (Seq_Model.db_run d0)) as [[W _] G].
    - unfold Seq_Model.db_run. fold d0 in C0. destruct C0 as [C0 C2]. destruct (Seq_Model.db_finished d0) eqn:F.
      + split; [exact C0|intros Y _; exact (C2 Y eq_refl)].
      + split; cbn; [exact C0|discriminate].
    - unfold Seq_Model.db_run. fold d0 in C0, C1. destruct C0 as [C0 C2]. destruct (Seq_Model.db_finished d0) eqn:F.
      + intros _. now apply C2.
      + cbn. discriminate.
    - fold d in W, G. rewrite (G D), app_nil_r in W. exact W. }
  destruct (axes s) eqn:AX.
  - unfold enable in E1. rewrite PA in E1. destruct (exported (c_panda c)); [|discriminate]. injection E1 as <-.
    cbn [axes set_gate] in E2. rewrite AX in E2. unfold play in E2. cbn [buffer set_gate] in E2. rewrite B in E2.
    unfold played in E2. cbn [buffer] in E2. fold ts d0 in E2. fold d in E2.
    destruct (Seq_Model.db_subscribed d) eqn:D; [discriminate|]. injection E2 as <-. cbn.
    split; [reflexivity|]. split; [now apply FIN|]. split; [reflexivity|]. rewrite String.eqb_refl.
    split; [reflexivity|]. split; [reflexivity|]. intros _. exact X.
  - injection E1 as <-. rewrite AX in E2. unfold enable in E2. rewrite PA in E2.
    destruct (exported (c_panda c)); [|discriminate]. unfold play in E2. cbn [buffer set_gate] in E2. rewrite B in E2.
    unfold played in E2. cbn [buffer] in E2. fold ts d0 in E2. fold d in E2.
    destruct (Seq_Model.db_subscribed d) eqn:D; [discriminate|]. injection E2 as <-. cbn.
    split; [reflexivity|]. split; [now apply FIN|]. split; [reflexivity|]. rewrite String.eqb_refl.
    split; [reflexivity|]. split; [reflexivity|]. intros ->. exact X.
Qed.
Print Assumptions C96_ran.

(* ---- an example, and what is not so ---- *)
Definition ex_config : config nat :=
  mkConfig "P" [("SEQ1.table", "seqTableA"); ("SEQ2.table", "seqTableB")] [("SEQ1", "P:SEQ1"); ("SEQ2", "P:SEQ2")]
           (Some true) (fun from to => [from; to; 7]).
Definition ex_scan : list (event nat) :=
  [Configure ex_config 10 9 9 true; PreRunHook 9 true;
   RunHook [(true, true); (true, false); (false, true); (false, false)] 9 true; PostRunReady true].
Example C96_ex : exists s,
  run (fun _ => true) (start (fun _ => false) (fun _ => None)) ex_scan = Some (Finished, s) /\
  loaded s "P:SEQ1" = Some 7 /\ loaded s "P:SEQ2" = Some 10 /\ enables s = ["P"] /\
  puts s = [("P", "P:SEQ1", false); ("P", "P:SEQ2", false)].
Proof. eexists. split; [vm_compute; reflexivity|]. split; [vm_compute; reflexivity|]. split; [vm_compute; reflexivity|]. split; vm_compute; reflexivity. Qed.
Example C96_ex_pause : exists s,
  run (fun _ => true) (start (fun _ => false) (fun _ => None))
      [Configure ex_config 10 9 9 true; PreRunHook 9 true; RunHook [(true, true)] 2 true; Pause ex_config 4 6 9 9 true]
    = Some (Armed, s) /\
  loaded s "P:SEQ1" = Some 4 /\ gate s "P" = false /\ length (puts s) = 4.
Proof. eexists. split; [vm_compute; reflexivity|]. split; [vm_compute; reflexivity|]. split; vm_compute; reflexivity. Qed.

(* Finding: nothing shuts the gate at the end of a scan, *)
Theorem C96_finished_refuted : exists (es : list (event nat)) s m,
  run (fun _ => true) (start (fun _ => false) (fun _ => None)) es = Some (Finished, s) /\ gate s m = true.
Proof. exists ex_scan. eexists. exists "P". split; [vm_compute; reflexivity|vm_compute; reflexivity]. Qed.
Print Assumptions C96_finished_refuted.
(* so a process that is started again after that, and does not know of the PandA, writes the first tables into
   sequencers that are running. *)
Theorem C96_restart_refuted : exists (es1 es2 : list (event nat)) s1 p s2 x,
  run (fun _ => true) (start (fun _ => false) (fun _ => None)) es1 = Some (Finished, s1) /\
  run (fun _ => true) (start (gate s1) (loaded s1)) es2 = Some (p, s2) /\
  In x (puts s2) /\ snd x = true.
Proof.
  exists ex_scan, [Configure ex_config 10 9 9 true]. eexists. exists Armed. eexists. exists ("P", "P:SEQ1", true).
  split; [vm_compute; reflexivity|]. split; [vm_compute; reflexivity|]. split; [vm_compute; now left|reflexivity].
Qed.
Print Assumptions C96_restart_refuted.
