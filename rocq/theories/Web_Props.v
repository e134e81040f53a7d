(* C35, C36, C47: the websocket server and client. *)
From Coq Require Import String Bool ZArith NArith Lia List.
From Verif Require Import Base Web_Model Web_Spec.
Import ListNotations.
Local Open Scope list_scope.

(* ======== server ======== *)
Lemma validator_spec i a : validator i a = true <-> in_subnet i a.
Proof.
  unfold validator, in_subnet. rewrite N.eqb_eq. split.
  - intros H n M. assert (X : N.testbit (N.land a (if_mask i)) n = N.testbit (N.land (if_addr i) (if_mask i)) n) by now rewrite H.
    rewrite !N.land_spec, M, !andb_true_r in X. exact X.
  - intros H. apply N.bits_inj. intros n. rewrite !N.land_spec.
    destruct (N.testbit (if_mask i) n) eqn:E; [|now rewrite !andb_false_r]. now rewrite (H n E).
Qed.
Lemma shows_addr p a : shows p a <-> remoteaddr p = Some a.
Proof.
  split.
  - intros H. inversion H; reflexivity.
  - destruct p as [x| |]; cbn [remoteaddr]; intros H; [|injection H as <-; exact shows_loopback|discriminate].
    injection H as ->. constructor.
Qed.

Section server_facts.
  Variable vs : list iface.
  Variable p : peer.
  Variable known : string -> bool.

  (* the handler's idea of writeable, once set *)
  Definition agrees (h : handler) : Prop :=
    h_writeable h = None \/ exists a, shows p a /\
      h_writeable h = Some (match vs with [] => true | _ => existsb (fun v => validator v a) vs end).

  Lemma work_out_agrees h w : agrees h -> work_out_writeable vs p h = Some w ->
    exists a, shows p a /\ w = match vs with [] => true | _ => existsb (fun v => validator v a) vs end.
  Proof.
    unfold work_out_writeable. intros [H|[a [Ha H]]]; rewrite H.
    - destruct (remoteaddr p) as [a|] eqn:E; [|discriminate]. intros W. exists a. split; [now apply shows_addr|].
      destruct vs; congruence.
    - intros W. exists a. split; [exact Ha|congruence].
  Qed.
  Lemma wstep_agrees h o : agrees h -> agrees (fst (wstep vs p known h o)).
  Proof.
    intros H. destruct o as [m|id s]; cbn [wstep].
    - unfold on_message. destruct (work_out_writeable vs p h) as [w|] eqn:W; [|exact H].
      destruct (work_out_agrees h w H W) as [a [Ha ->]]. right. exists a. split; [exact Ha|].
      destruct m as [| |id|id r]; try reflexivity. now destruct (handle known _ (h_ids h) id r) as [ids [o|e]].
    - unfold response_to_dead. destruct s; [|exact H]. destruct (zget id (h_ids h)); [|exact H]. exact H.
  Qed.
  Lemma outside_false a : outside vs p -> shows p a ->
    match vs with [] => true | _ => existsb (fun v => validator v a) vs end = false.
  Proof.
    intros [N O] A. assert (X : existsb (fun v => validator v a) vs = false).
    { apply not_true_is_false. intros X. apply existsb_exists in X as [i [Hi V]]. apply validator_spec in V. exact (O a i A Hi V). }
    destruct vs; [congruence|exact X].
  Qed.
  Lemma shows_fun a b : shows p a -> shows p b -> a = b.
  Proof. intros A B. apply shows_addr in A, B. congruence. Qed.
  Lemma inside_true a : inside vs p -> shows p a ->
    match vs with [] => true | _ => existsb (fun v => validator v a) vs end = true.
  Proof.
    intros [b [B [->|[i [Hi V]]]]] A; [reflexivity|]. rewrite (shows_fun _ _ A B).
    assert (X : existsb (fun v => validator v b) vs = true).
    { apply existsb_exists. exists i. split; [exact Hi|now apply validator_spec]. }
    destruct vs; [reflexivity|exact X].
  Qed.

  Lemma report_out mri id r o : report known mri id r = Ok o -> o = Dispatch mri id r.
  Proof. unfold report. destruct (_ || _)%bool; congruence. Qed.
  Lemma handle_out w ids id r ids' o : handle known w ids id r = (ids', Ok o) ->
    exists mri, o = Dispatch mri id r /\ (r = Unsubscribe /\ zget id ids = Some mri \/ names r mri) /\ (writes r -> w = true).
  Proof.
    intros H. destruct r as [m l|m l|m l|m l|]; cbn [handle is_write] in H.
    1,2,3,4: exists m.
    5: destruct (zget id ids) as [m|] eqn:E; [exists m|discriminate].
    2,3: destruct w; cbn [andb negb] in H; [|discriminate].
    4: destruct (zget id ids) eqn:E; [discriminate|].
    all: injection H as <- H; apply report_out in H as ->.
    - refine (conj eq_refl (conj (or_intror (names_get _ _)) _)). intros (? & ? & [X|X]); discriminate.
    - exact (conj eq_refl (conj (or_intror (names_put _ _)) (fun _ => eq_refl))).
    - exact (conj eq_refl (conj (or_intror (names_post _ _)) (fun _ => eq_refl))).
    - refine (conj eq_refl (conj (or_intror (names_sub _ _)) _)). intros (? & ? & [X|X]); discriminate.
    - refine (conj eq_refl (conj (or_introl (conj eq_refl eq_refl)) _)). intros (? & ? & [X|X]); discriminate.
  Qed.
  Lemma on_message_writes h m h' os mri id r : agrees h -> on_message vs p known h m = (h', os) ->
    In (Dispatch mri id r) os -> writes r -> inside vs p.
  Proof.
    intros A. unfold on_message. destruct (work_out_writeable vs p h) as [w|] eqn:W.
    2: { intros E. injection E as <- <-. intros [X|[]]; discriminate. }
    destruct (work_out_agrees h w A W) as [a [Ha Ew]].
    destruct m as [| |i|i q]; try (intros E; injection E as <- <-; intros [X|[]]; discriminate).
    destruct (handle known w (h_ids h) i q) as [ids [o|e]] eqn:E; intros X; injection X as <- <-; intros [Y|[]] Wr; [|discriminate].
    apply handle_out in E as (m & Eo & _ & G). assert (q = r) as -> by congruence. apply G in Wr. rewrite Wr in Ew. symmetry in Ew.
    exists a. split; [exact Ha|]. destruct vs as [|v l] eqn:V; [now left|]. right. apply existsb_exists in Ew as [i0 [Hi Hv]].
    exists i0. split; [exact Hi|now apply validator_spec].
  Qed.
  Lemma dead_writes h id s h' os mri i r : response_to_dead known h id s = (h', os) -> In (Dispatch mri i r) os -> ~ writes r.
  Proof.
    unfold response_to_dead. destruct s; [|intros E; injection E as <- <-; intros []].
    destruct (zget id (h_ids h)) as [m|]; [|intros E; injection E as <- <-; intros []].
    intros E. injection E as <- <-. destruct (String.eqb m ""); [intros []|].
    destruct (report known m id Unsubscribe) as [o|] eqn:E; intros [X|[]]; [|discriminate].
    apply report_out in E. intros (? & ? & [Y|Y]); congruence.
  Qed.
  Lemma wrun_writes os : forall h h' outs mri id r, agrees h -> wrun vs p known h os = (h', outs) ->
    In (Dispatch mri id r) (concat outs) -> writes r -> inside vs p.
  Proof.
    induction os as [|o t IH]; intros h h' outs mri id r A; cbn [wrun].
    - intros E. injection E as <- <-. intros [].
    - pose proof (wstep_agrees h o A) as A1. destruct (wstep vs p known h o) as [h1 x] eqn:S. cbn [fst] in A1.
      destruct (wrun vs p known h1 t) as [h2 xs] eqn:T. intros E. injection E as <- <-. cbn [concat]. intros I W.
      apply in_app_or in I as [I|I]; [|exact (IH _ _ _ _ _ _ A1 T I W)].
      destruct o as [m|i s]; cbn [wstep] in S; [exact (on_message_writes _ _ _ _ _ _ _ A S I W)|].
      now apply (dead_writes _ _ _ _ _ _ _ _ S I) in W.
  Qed.
End server_facts.

(* Whatever a client outside every subnet sends, nothing that writes is dispatched *)
Theorem C35_never_writes vs p known os h outs :
  outside vs p -> wrun vs p known initialize os = (h, outs) ->
  forall mri id r, In (Dispatch mri id r) (concat outs) -> ~ writes r.
Proof.
  intros [N O] E mri id r I W. destruct (wrun_writes vs p known os initialize h outs mri id r (or_introl eq_refl) E I W) as [a [A [X|[i [Hi S]]]]].
  - congruence.
  - exact (O a i A Hi S).
Qed.
Print Assumptions C35_never_writes.

(* The validators that on_report_handlers gives are never empty when validation is on *)
Theorem C35_validators up vs : report_handlers true up = Some vs -> vs <> [] /\ forall i, In i vs <-> In i up.
Proof. unfold report_handlers. destruct up; intros E; [discriminate|]. injection E as <-. split; [congruence|tauto]. Qed.
Print Assumptions C35_validators.

(* Each message of a client with an IPv4 address (or the loopback) has exactly one effect:
   its request is dispatched under its id to the block it names (an Unsubscribe: the block
   of the subscription with that id), or it is answered by an Error with its id.  A request
   to write is dispatched only if the client is inside; and what is refused is refused
   for a reason *)
Definition refused_why (vs : list iface) (p : peer) (known : string -> bool) (ids : list (Z * string)) (id : Z) (r : request) (e : werr) : Prop :=
  match e with
  | Forbidden => writes r /\ ~ inside vs p
  | DuplicateId => (exists m l, r = Subscribe m l) /\ zget id ids <> None
  | UnknownId => r = Unsubscribe /\ zget id ids = None
  | NoController => exists m, (names r m \/ r = Unsubscribe /\ zget id ids = Some m) /\ m <> "."%string /\ known m = false
  | _ => False
  end.
Lemma report_err known m id r e : report known m id r = Err e -> e = NoController /\ m <> "."%string /\ known m = false.
Proof.
  unfold report. destruct (String.eqb_spec m "."); [discriminate|]. cbn [orb]. destruct (known m) eqn:K; [discriminate|].
  intros E. injection E as <-. split; [reflexivity|split; [assumption|reflexivity]].
Qed.
Lemma handle_err vs p known w ids ids' id r e : (w = false -> ~ inside vs p) ->
  handle known w ids id r = (ids', Err e) -> refused_why vs p known ids id r e.
Proof.
  intros Hw H. destruct r as [m l|m l|m l|m l|]; cbn [handle is_write] in H.
  - injection H as <- H. apply report_err in H as (-> & A & B). exists m. split; [left; constructor|split; assumption].
  - destruct w; cbn [andb negb] in H; injection H as <- H.
    + apply report_err in H as (-> & A & B). exists m. split; [left; constructor|split; assumption].
    + subst e. split; [exists m, l; now left|now apply Hw].
  - destruct w; cbn [andb negb] in H; injection H as <- H.
    + apply report_err in H as (-> & A & B). exists m. split; [left; constructor|split; assumption].
    + subst e. split; [exists m, l; now right|now apply Hw].
  - destruct (zget id ids) eqn:Z; injection H as <- H.
    + subst e. split; [exists m, l; reflexivity|congruence].
    + apply report_err in H as (-> & A & B). exists m. split; [left; constructor|split; assumption].
  - destruct (zget id ids) as [m|] eqn:Z; injection H as <- H.
    + apply report_err in H as (-> & A & B). exists m. split; [right; split; [reflexivity|assumption]|split; assumption].
    + subst e. split; [reflexivity|assumption].
Qed.
Theorem C35_answered vs p known os h0 outs0 m h outs a :
  wrun vs p known initialize os = (h0, outs0) -> shows p a ->
  wstep vs p known h0 (Message m) = (h, outs) ->
  exists id, carries m id /\
  ((exists e, outs = [Answer id e] /\
      (forall r, m = Req id r -> refused_why vs p known (h_ids h0) id r e)) \/
   (exists r mri, m = Req id r /\ outs = [Dispatch mri id r] /\ (writes r -> inside vs p) /\
      (names r mri \/ r = Unsubscribe /\ zget id (h_ids h0) = Some mri))).
Proof.
  intros R A. assert (G : agrees vs p h0).
  { assert (X : forall os h h' o, agrees vs p h -> wrun vs p known h os = (h', o) -> agrees vs p h').
    { induction os0 as [|x t IH]; intros h1 h2 o Ag; cbn [wrun]; [intros E; now injection E as <- <-|].
      pose proof (wstep_agrees vs p known h1 x Ag) as A1. destruct (wstep vs p known h1 x) as [h3 y]. cbn [fst] in A1.
      destruct (wrun vs p known h3 t) as [h4 ys] eqn:T. intros E. injection E as <- <-. exact (IH _ _ _ A1 T). }
    exact (X os initialize h0 outs0 (or_introl eq_refl) R). }
  cbn [wstep]. intros S. unfold on_message in S. destruct (work_out_writeable vs p h0) as [w|] eqn:W.
  2: { unfold work_out_writeable in W. destruct (h_writeable h0); [discriminate|].
       apply shows_addr in A. rewrite A in W. now destruct vs. }
  destruct (work_out_agrees vs p h0 w G W) as [b [B Ew]]. destruct m as [| |i|i r].
  - injection S as <- <-. exists (-1)%Z. split; [constructor|]. left. exists DecodeErr. split; [reflexivity|discriminate].
  - injection S as <- <-. exists (-1)%Z. split; [constructor|]. left. exists FieldErr. split; [reflexivity|discriminate].
  - injection S as <- <-. exists i. split; [constructor|]. left. exists DeserialErr. split; [reflexivity|discriminate].
  - exists i. split; [constructor|]. destruct (handle known w (h_ids h0) i r) as [ids [o|e]] eqn:H; injection S as <- <-.
    + right. apply handle_out in H as (mri & -> & N & Wr). exists r, mri. split; [reflexivity|split; [reflexivity|]]. split; [|tauto].
      intros X. apply Wr in X. rewrite X in Ew. symmetry in Ew. exists b. split; [exact B|].
      destruct vs as [|v l] eqn:V; [now left|]. right. apply existsb_exists in Ew as [i0 [Hi Hv]].
      exists i0. split; [exact Hi|now apply validator_spec].
    + left. exists e. split; [reflexivity|]. intros r0 E. assert (r0 = r) as -> by congruence.
      apply (handle_err vs p known w _ ids); [|exact H]. intros -> In. pose proof (inside_true vs p b In B). congruence.
Qed.
Print Assumptions C35_answered.

(* ---- C47: a dead connection's subscriptions ---- *)
Lemma zget_zset k v d k' : zget k' (zset k v d) = match zget k' d with Some x => Some x | None => if Z.eqb k' k then Some v else None end.
Proof. unfold zset. induction d as [|[a b] r IH]; cbn [app zget]; [reflexivity|]. destruct (Z.eqb k' a); [reflexivity|exact IH]. Qed.
Lemma zget_In k m d : zget k d = Some m -> In (k, m) d.
Proof.
  induction d as [|[a b] r IH]; cbn [zget]; [discriminate|]. destruct (Z.eqb_spec k a) as [->|N].
  - intros E. injection E as ->. now left.
  - right. now apply IH.
Qed.
Lemma zget_None k d : zget k d = None <-> ~ In k (map fst d).
Proof.
  induction d as [|[a b] r IH]; cbn [zget map fst]; [split; [intros _ []|reflexivity]|].
  destruct (Z.eqb_spec k a) as [->|N].
  - split; [discriminate|]. intros H. exfalso. apply H. now left.
  - rewrite IH. split; [intros H [X|X]; [congruence|tauto]|]. intros H X. apply H. now right.
Qed.
Lemma zpop_keys k d x : In x (map fst (zpop k d)) -> In x (map fst d).
Proof.
  induction d as [|[a b] r IH]; cbn [zpop map fst]; [intros []|]. destruct (Z.eqb k a); cbn [map fst]; [now right|].
  intros [X|X]; [now left|right; now apply IH].
Qed.
Lemma zpop_In k d x : In x (zpop k d) -> In x d.
Proof.
  induction d as [|[a b] r IH]; cbn [zpop]; [intros []|]. destruct (Z.eqb k a); [now right|].
  intros [X|X]; [now left|right; now apply IH].
Qed.
Lemma zpop_nodup k d : NoDup (map fst d) -> NoDup (map fst (zpop k d)).
Proof.
  induction d as [|[a b] r IH]; cbn [zpop map fst]; [intros H; exact H|]. intros H. inversion H as [|? ? N D]; subst.
  destruct (Z.eqb k a); [exact D|]. cbn [map fst]. constructor; [|now apply IH]. intros X. now apply N, (zpop_keys k).
Qed.
Lemma zget_zpop_same k d : NoDup (map fst d) -> zget k (zpop k d) = None.
Proof.
  induction d as [|[a b] r IH]; cbn [zpop map fst]; [reflexivity|]. intros H. inversion H as [|? ? N D]; subst.
  destruct (Z.eqb_spec k a) as [->|E]; [now apply zget_None|]. cbn [zget]. destruct (Z.eqb_spec k a); [congruence|now apply IH].
Qed.
Lemma zget_zpop_other k d k' : k' <> k -> zget k' (zpop k d) = zget k' d.
Proof.
  intros N. induction d as [|[a b] r IH]; cbn [zpop zget]; [reflexivity|].
  destruct (Z.eqb_spec k a) as [->|E]; cbn [zget].
  - destruct (Z.eqb_spec k' a); [congruence|reflexivity].
  - now destruct (Z.eqb k' a).
Qed.

(* the ids kept are distinct, and each is there because a Subscribe with that id to that
   block came in *)
Definition kept_ok (os : list wop) (ids : list (Z * string)) : Prop :=
  NoDup (map fst ids) /\ forall id m, In (id, m) ids -> exists l, In (Message (Req id (Subscribe m l))) os.
Lemma NoDup_snoc {A} (l : list A) x : NoDup l -> ~ In x l -> NoDup (l ++ [x]).
Proof.
  induction l as [|a r IH]; cbn [app]; intros D N; [constructor; [intros []|constructor]|].
  inversion D as [|? ? Na Dr]; subst. constructor; [|apply IH; [exact Dr|intros X; apply N; now right]].
  intros X. apply in_app_or in X as [X|[X|[]]]; [tauto|]. apply N. now left.
Qed.
Lemma kept_weaken os o ids : kept_ok os ids -> kept_ok (os ++ [o]) ids.
Proof. intros [D K]. split; [exact D|]. intros id m I. destruct (K id m I) as [l H]. exists l. apply in_or_app. now left. Qed.
Lemma wstep_kept vs p known os h o : kept_ok os (h_ids h) -> kept_ok (os ++ [o]) (h_ids (fst (wstep vs p known h o))).
Proof.
  intros K. destruct o as [m|id s]; cbn [wstep].
  - unfold on_message. destruct (work_out_writeable vs p h) as [w|]; [|now apply kept_weaken].
    destruct m as [| |i|i r]; cbn [fst h_ids]; try (now apply kept_weaken).
    destruct r as [m l|m l|m l|m l|]; cbn [handle is_write].
    1: now apply kept_weaken.
    1,2: destruct (true && negb w); now apply kept_weaken.
    2: destruct (zget i (h_ids h)); now apply kept_weaken.
    destruct (zget i (h_ids h)) eqn:Z; cbn [fst h_ids]; [now apply kept_weaken|].
    apply zget_None in Z. destruct K as [D K]. unfold zset. split.
    + rewrite map_app. cbn [map fst]. now apply NoDup_snoc.
    + intros id' m' I. apply in_app_or in I as [I|[I|[]]].
      * destruct (K id' m' I) as [l' H]. exists l'. apply in_or_app. now left.
      * assert (id' = i) as -> by congruence. assert (m' = m) as -> by congruence. exists l. apply in_or_app. right. now left.
  - unfold response_to_dead. destruct s; cbn [fst]; [|now apply kept_weaken].
    destruct (zget id (h_ids h)) as [m|]; cbn [fst h_ids]; [|now apply kept_weaken].
    apply kept_weaken. destruct K as [D K]. split; [now apply zpop_nodup|]. intros i' m' I. apply K. now apply zpop_In in I.
Qed.
Lemma wrun_kept vs p known os : forall pre h, kept_ok pre (h_ids h) -> kept_ok (pre ++ os) (h_ids (fst (wrun vs p known h os))).
Proof.
  induction os as [|o t IH]; intros pre h K; cbn [wrun]; [now rewrite app_nil_r|].
  pose proof (wstep_kept vs p known pre h o K) as K1. destruct (wstep vs p known h o) as [h1 x]. cbn [fst] in K1.
  specialize (IH (pre ++ [o]) h1 K1). destruct (wrun vs p known h1 t) as [h2 xs]. cbn [fst] in *.
  now rewrite <- app_assoc in IH.
Qed.

(* the Unsubscribes for an id *)
Definition unsub_b (id : Z) (o : out) : bool :=
  match o with Dispatch _ i Unsubscribe => Z.eqb i id | _ => false end.
Definition dead_only (os : list wop) : Prop := forall o, In o os -> exists id s, o = DeadResponse id s.

Lemma dead_none vs p known os id : forall h, dead_only os -> zget id (h_ids h) = None ->
  filter (unsub_b id) (concat (snd (wrun vs p known h os))) = [].
Proof.
  induction os as [|o t IH]; intros h D Z; cbn [wrun]; [reflexivity|].
  destruct (D o (or_introl eq_refl)) as (i & s & ->). cbn [wstep].
  assert (D' : dead_only t) by (intros x X; apply D; now right).
  assert (G : zget id (h_ids (fst (response_to_dead known h i s))) = None /\ filter (unsub_b id) (snd (response_to_dead known h i s)) = []).
  { unfold response_to_dead. destruct s; [|now split]. destruct (zget i (h_ids h)) as [m|] eqn:E; [|now split]. cbn [fst snd h_ids].
    assert (N : id <> i) by congruence. split; [rewrite zget_zpop_other; assumption|].
    destruct (String.eqb m ""); [reflexivity|]. unfold report. destruct (_ || _)%bool; [|reflexivity].
    cbn [filter unsub_b]. destruct (Z.eqb_spec i id); [congruence|reflexivity]. }
  destruct G as [G1 G2]. destruct (response_to_dead known h i s) as [h1 x]. cbn [fst snd] in *.
  specialize (IH h1 D' G1). destruct (wrun vs p known h1 t) as [h2 xs]. cbn [snd concat] in *.
  now rewrite filter_app, G2, IH.
Qed.
Lemma dead_once vs p known os id m : forall h, NoDup (map fst (h_ids h)) -> dead_only os -> zget id (h_ids h) = Some m ->
  m <> EmptyString -> (m = "."%string \/ known m = true) ->
  filter (unsub_b id) (concat (snd (wrun vs p known h os))) =
  if existsb (fun o => match o with DeadResponse i true => Z.eqb i id | _ => false end) os then [Dispatch m id Unsubscribe] else [].
Proof.
  induction os as [|o t IH]; intros h N D Z Ne K; cbn [wrun]; [reflexivity|].
  destruct (D o (or_introl eq_refl)) as (i & s & ->). cbn [wstep existsb].
  assert (D' : dead_only t) by (intros x X; apply D; now right).
  destruct s; cbn [response_to_dead].
  2: { specialize (IH h N D' Z Ne K). destruct (wrun vs p known h t) as [h2 xs]. exact IH. }
  unfold response_to_dead. destruct (Z.eqb_spec i id) as [->|Ni]; cbn [orb].
  - rewrite Z. pose proof (dead_none vs p known t id (mkH (h_writeable h) (zpop id (h_ids h))) D' (zget_zpop_same _ _ N)) as X.
    destruct (wrun vs p known (mkH (h_writeable h) (zpop id (h_ids h))) t) as [h2 xs]. cbn [snd concat] in *.
    rewrite filter_app, X. destruct (String.eqb_spec m ""); [congruence|]. unfold report.
    assert (Y : (String.eqb m "." || known m)%bool = true).
    { destruct K as [e|e]; rewrite e; [reflexivity|apply orb_true_r]. }
    rewrite Y. cbn [filter unsub_b]. now rewrite Z.eqb_refl.
  - destruct (zget i (h_ids h)) as [m'|] eqn:E.
    2: { specialize (IH h N D' Z Ne K). destruct (wrun vs p known h t) as [h2 xs]. exact IH. }
    specialize (IH (mkH (h_writeable h) (zpop i (h_ids h)))). cbn [h_ids] in IH.
    rewrite zget_zpop_other in IH by congruence. specialize (IH (zpop_nodup _ _ N) D' Z Ne K).
    destruct (wrun vs p known (mkH (h_writeable h) (zpop i (h_ids h))) t) as [h2 xs]. cbn [snd concat] in *.
    rewrite filter_app, IH. destruct (String.eqb m' ""); [reflexivity|]. unfold report. destruct (_ || _)%bool; [|reflexivity].
    cbn [filter unsub_b]. destruct (Z.eqb_spec i id); [congruence|reflexivity].
Qed.
(* Once the connection is dead, a subscription is given one Unsubscribe, at the first update
   that can not be written, to the block it was made on; after that, updates still on their
   way do nothing more.  Other responses never unsubscribe *)
Theorem C47_dead_unsubscribes_once vs p known os dead id m :
  zget id (h_ids (fst (wrun vs p known initialize os))) = Some m -> m <> EmptyString -> (m = "."%string \/ known m = true) ->
  dead_only dead ->
  (exists l, In (Message (Req id (Subscribe m l))) os) /\
  filter (unsub_b id) (concat (snd (wrun vs p known (fst (wrun vs p known initialize os)) dead))) =
  if existsb (fun o => match o with DeadResponse i true => Z.eqb i id | _ => false end) dead then [Dispatch m id Unsubscribe] else [].
Proof.
  intros Z Ne K D. pose proof (wrun_kept vs p known os [] initialize) as X. cbn [app] in X.
  destruct X as [N S]; [split; [constructor|intros ? ? []]|]. split; [now apply S, zget_In|]. now apply dead_once.
Qed.
Print Assumptions C47_dead_unsubscribes_once.

(* Non-trivial case: two interfaces 192.168.1.5/24 and 10.0.0.1/8, client 192.168.2.7 *)
Local Open Scope string_scope. Local Open Scope list_scope.
Definition ip (a b c d : N) : N := (((a * 256 + b) * 256 + c) * 256 + d)%N.
Definition ifs : list iface := [mkIf (ip 192 168 1 5) (ip 255 255 255 0); mkIf (ip 10 0 0 1) (ip 255 0 0 0)].
Definition kn (m : string) : bool := String.eqb m "BL1".
Definition msgs : list wop :=
  [Message (Req 1 (Subscribe "BL1" [])); Message (Req 2 (Put "BL1" ["a"; "value"])); Message (Req 3 (Get "BL1" []));
   Message (Req 4 (Post "." ["m"])); Message NoId; Message (Req 1 (Subscribe "BL1" [])); Message (Req 9 (Get "XX" []));
   Message (Req 1 Unsubscribe); DeadResponse 1 true].
Example C35_ex : snd (wrun ifs (V4 (ip 192 168 2 7)) kn initialize msgs) =
  [[Dispatch "BL1" 1 (Subscribe "BL1" [])]; [Answer 2 Forbidden]; [Dispatch "BL1" 3 (Get "BL1" [])]; [Answer 4 Forbidden];
   [Answer (-1) FieldErr]; [Answer 1 DuplicateId]; [Answer 9 NoController]; [Dispatch "BL1" 1 Unsubscribe]; [Dispatch "BL1" 1 Unsubscribe]].
Proof. vm_compute. reflexivity. Qed.
Example C35_ex_outside : outside ifs (V4 (ip 192 168 2 7)).
Proof.
  split; [discriminate|]. intros a i S [<-|[<-|[]]] H; inversion S; subst; apply validator_spec in H; vm_compute in H; discriminate.
Qed.
Example C35_ex_inside : inside ifs (V4 (ip 192 168 1 200)) /\
  snd (wrun ifs (V4 (ip 192 168 1 200)) kn initialize [Message (Req 2 (Put "BL1" ["a"; "value"]))]) = [[Dispatch "BL1" 2 (Put "BL1" ["a"; "value"])]].
Proof.
  split; [|vm_compute; reflexivity]. exists (ip 192 168 1 200). split; [constructor|]. right. eexists. split; [left; reflexivity|].
  apply validator_spec. vm_compute. reflexivity.
Qed.
Example C47_ex : let h := fst (wrun ifs (V4 (ip 10 1 1 1)) kn initialize
    [Message (Req 1 (Subscribe "BL1" [])); Message (Req 2 (Put "BL1" ["a"; "value"])); Message (Req 3 (Subscribe "." []))]) in
  zget 1 (h_ids h) = Some "BL1" /\
  snd (wrun ifs (V4 (ip 10 1 1 1)) kn h [DeadResponse 2 false; DeadResponse 1 true; DeadResponse 1 true; DeadResponse 3 true; DeadResponse 1 true])
  = [[]; [Dispatch "BL1" 1 Unsubscribe]; []; [Dispatch "." 3 Unsubscribe]; []].
Proof. vm_compute. split; reflexivity. Qed.
(* An IPv6 client is never answered: on_message raises before its try (line 87) *)
Theorem C35_ipv6_unanswered_refuted : exists vs p known m id, carries m id /\
  snd (wrun vs p known initialize [Message m]) = [[Raised]].
Proof. exists ifs, NotV4, kn, (Req 3 (Get "BL1" [])), 3%Z. split; [constructor|vm_compute; reflexivity]. Qed.
Print Assumptions C35_ipv6_unanswered_refuted.
(* An id is not free again after Unsubscribe, nor after a Subscribe that was answered by an
   Error: subscribing again under it is refused *)
Theorem C35_id_not_freed_refuted : exists vs p known id,
  snd (wrun vs p known initialize [Message (Req id (Subscribe "BL1" [])); Message (Req id Unsubscribe); Message (Req id (Subscribe "BL1" []))])
    = [[Dispatch "BL1" id (Subscribe "BL1" [])]; [Dispatch "BL1" id Unsubscribe]; [Answer id DuplicateId]] /\
  snd (wrun vs p known initialize [Message (Req id (Subscribe "XX" [])); Message (Req id (Subscribe "BL1" []))])
    = [[Answer id NoController]; [Answer id DuplicateId]].
Proof. exists ifs, (V4 (ip 10 1 1 1)), kn, 1%Z. vm_compute. split; reflexivity. Qed.
Print Assumptions C35_id_not_freed_refuted.
