(* Lemmas about Mgr_Model. *)
From Coq Require Import String Bool Arith ZArith Lia List.
From Verif Require Import Base Mgr_Model Mgr_Spec.
Import ListNotations.
Local Open Scope list_scope.

Section P.
Context {V : Type}.
Variable none : V.
Variable eqv : V -> V -> bool.
Variable same : V * V -> V * V -> bool.
Notation child := (@child V).
Notation mgr := (@mgr V).
Notation attr := (@attr V).
Notation set_attr := (set_attr none eqv same).
Notation put_attr := (put_attr none eqv same).
Notation put_attrs := (put_attrs none eqv same).
Notation send_modified := (send_modified none eqv same).
Notation on_load := (on_load none eqv same).
Notation load_iteration := (load_iteration none eqv same).
Notation load_iterations := (load_iterations none eqv same).
Notation differs := (differs none eqv).
Notation report := (option (dict (V * V))).

(* what never changes about an attribute, a child *)
Definition kind (a : attr) := (a_config a, a_writeable a, a_validate a).
Definition kinds (c : child) := map (fun na => (fst na, kind (snd na))) (ch_attrs c).
Definition fixed (c c' : child) : Prop :=
  ch_name c' = ch_name c /\ ch_mri c' = ch_mri c /\ ch_nosave c' = ch_nosave c /\ kinds c' = kinds c.
Lemma fixed_refl c : fixed c c. Proof. repeat split. Qed.
Lemma fixed_trans a b c : fixed a b -> fixed b c -> fixed a c.
Proof. intros (A1 & A2 & A3 & A4) (B1 & B2 & B3 & B4). repeat split; congruence. Qed.
Lemma kinds_get c n : match dget n (ch_attrs c) with Some a => Some (kind a) | None => None end = dget n (kinds c).
Proof. unfold kinds. induction (ch_attrs c) as [|[k a] r IH]; cbn; [reflexivity|]. destruct (String.eqb n k); auto. Qed.
Lemma kinds_keys c : dkeys (kinds c) = dkeys (ch_attrs c).
Proof. unfold kinds, dkeys. rewrite map_map. reflexivity. Qed.
Lemma fixed_keys c c' : fixed c c' -> dkeys (ch_attrs c') = dkeys (ch_attrs c).
Proof. intros (_ & _ & _ & H). rewrite <- !kinds_keys. now rewrite H. Qed.
Lemma fixed_attr c c' n a : fixed c c' -> dget n (ch_attrs c) = Some a -> exists a', dget n (ch_attrs c') = Some a' /\ kind a' = kind a.
Proof.
  intros (_ & _ & _ & H) E. pose proof (kinds_get c n) as K. pose proof (kinds_get c' n) as K'. rewrite H, <- K, E in K'.
  destruct (dget n (ch_attrs c')) as [a'|]; [|discriminate]. exists a'. split; congruence.
Qed.
Lemma fixed_sym c c' : fixed c c' -> fixed c' c.
Proof. intros (A & B & C & D). repeat split; auto. Qed.
Lemma fixed_tracked c c' n : fixed c c' -> tracked c' n = tracked c n.
Proof.
  intros F. unfold tracked. pose proof F as (_ & _ & Hn & H). pose proof (kinds_get c n) as K. pose proof (kinds_get c' n) as K'. rewrite H in K'.
  rewrite Hn. destruct (dget n (ch_attrs c)) as [a|], (dget n (ch_attrs c')) as [a'|]; try congruence.
  assert (E : kind a = kind a') by congruence. unfold kind in E. now replace (a_config a') with (a_config a) by congruence.
Qed.
Lemma tracked_iff (c : child) n : tracked c n = true <-> exists a i, dget n (ch_attrs c) = Some a /\ a_config a = Some i /\ ~ In n (ch_nosave c).
Proof.
  unfold tracked. split.
  - destruct (dget n (ch_attrs c)) as [a|]; [|discriminate]. destruct (a_config a) as [i|] eqn:E; [|discriminate]. intros H.
    apply negb_true_iff in H. apply smem_false in H. exists a, i. auto.
  - intros (a & i & -> & -> & H). apply negb_true_iff. now apply smem_false.
Qed.
Lemma differs_iff (c : child) n : differs c n <-> tracked c n = true /\ exists a, dget n (ch_attrs c) = Some a /\
  eqv (match dget n (ch_saved c) with Some v => v | None => none end) (a_value a) = false.
Proof.
  rewrite tracked_iff. unfold Mgr_Spec.differs. split.
  - intros (a & i & A & B & C & D). split; [exists a, i; auto|exists a; auto].
  - intros ((a & i & A & B & C) & a' & A' & D). replace a' with a in * by congruence. exists a, i. auto.
Qed.

(* the place of a child does not change by puts *)
Definition inplace (c c' : child) : Prop :=
  ch_x c' = ch_x c /\ ch_y c' = ch_y c /\ ch_visible c' = ch_visible c /\ ch_pvis c' = ch_pvis c.
Lemma inplace_refl c : inplace c c. Proof. repeat split. Qed.
Lemma inplace_trans a b c : inplace a b -> inplace b c -> inplace a c.
Proof. intros (A1 & A2 & A3 & A4) (B1 & B2 & B3 & B4). repeat split; congruence. Qed.

(* a report is what the child has *)
Definition tells (c c' : child) (r : report) : Prop :=
  match r with Some d => d = ch_msgs c' | None => ch_msgs c' = ch_msgs c end.
Lemma tells_trans a b c r1 r2 : tells a b r1 -> tells b c r2 -> tells a c (later r1 r2).
Proof. unfold tells, later. destruct r2; [auto|]. intros H1 H2. destruct r1; congruence. Qed.

(* the messages are about what differs *)
Definition sync (c : child) : Prop := NoDup (dkeys (ch_msgs c)) /\ forall n, In n (dkeys (ch_msgs c)) <-> differs c n.

(* what a put does to a child *)
Definition moved (c c' : child) (r : report) : Prop :=
  fixed c c' /\ inplace c c' /\ ch_saved c' = ch_saved c /\ tells c c' r /\ (sync c -> sync c').
Lemma moved_refl c : moved c c None.
Proof. split; [apply fixed_refl|]. split; [apply inplace_refl|]. split; [reflexivity|]. split; [reflexivity|auto]. Qed.
Lemma moved_trans a b c r1 r2 : moved a b r1 -> moved b c r2 -> moved a c (later r1 r2).
Proof.
  intros (A1 & A2 & A3 & A4 & A5) (B1 & B2 & B3 & B4 & B5). split; [|split; [|split; [|split]]].
  - eapply fixed_trans; eauto.
  - eapply inplace_trans; eauto.
  - congruence.
  - eapply tells_trans; eauto.
  - auto.
Qed.
Lemma map_dset_same {A B} (f : string * A -> B) n v (d : dict A) a : dget n d = Some a -> (forall k, f (k, v) = f (k, a)) ->
  map f (dset n v d) = map f d.
Proof.
  intros H E. induction d as [|[k b] r IH]; cbn [dget] in H; [discriminate|]. cbn [dset].
  destruct (String.eqb n k) eqn:K; cbn [map].
  - injection H as ->. now rewrite E.
  - now rewrite IH.
Qed.
Lemma send_tells c n v : let (c', r) := send_modified c n v in tells c c' r /\ c' = with_msgs c (ch_msgs c').
Proof.
  unfold Mgr_Model.send_modified. destruct (eqv _ v); destruct (dget n (ch_msgs c)) as [b|]; try destruct (same _ b); cbn [negb]; destruct c; repeat split.
Qed.
Lemma send_sync c n v : NoDup (dkeys (ch_msgs c)) ->
  (forall k, k <> n -> (In k (dkeys (ch_msgs c)) <-> differs c k)) -> tracked c n = true ->
  (exists a, dget n (ch_attrs c) = Some a /\ a_value a = v) -> sync (fst (send_modified c n v)).
Proof.
  intros D O T (a & Ha & Hv).
  set (o := match dget n (ch_saved c) with Some w => w | None => none end).
  assert (Dn : differs c n <-> eqv o v = false).
  { rewrite differs_iff. split.
    - intros (_ & a' & Ha' & E). replace a' with a in E by congruence. now rewrite Hv in E.
    - intros E. split; [exact T|]. exists a. split; [exact Ha|]. now rewrite Hv. }
  assert (G : forall ms, NoDup (dkeys ms) -> (forall k, k <> n -> (In k (dkeys ms) <-> In k (dkeys (ch_msgs c)))) ->
     (In n (dkeys ms) <-> eqv o v = false) -> sync (with_msgs c ms)).
  { intros ms H1 H2 H3. split; [exact H1|]. intros k. change (differs (with_msgs c ms) k) with (differs c k). cbn [with_msgs ch_msgs].
    destruct (string_dec k n) as [->|N]; [rewrite H3; symmetry; exact Dn|]. rewrite (H2 k N). now apply O. }
  assert (Gc : (In n (dkeys (ch_msgs c)) <-> eqv o v = false) -> sync c).
  { intros H. specialize (G (ch_msgs c) D). destruct c; apply G; [tauto|exact H]. }
  unfold Mgr_Model.send_modified. fold o. destruct (eqv o v) eqn:E.
  - destruct (dget n (ch_msgs c)) as [b|] eqn:Em; cbn [fst].
    + apply G.
      * now apply ddel_nodup.
      * intros k N. split; intros H.
        -- eapply dkeys_ddel_sub; eauto.
        -- apply dmem_In. apply dmem_In in H. unfold dmem in *. rewrite dget_ddel by exact D. destruct (String.eqb_spec k n); [congruence|exact H].
      * split; [|discriminate]. intros H. exfalso. apply dmem_In in H. unfold dmem in H. rewrite dget_ddel, String.eqb_refl in H by exact D. discriminate.
    + apply Gc. split; [|discriminate]. intros H. apply dget_None_notin in Em. contradiction.
  - assert (S : forall m, sync (with_msgs c (dset n m (ch_msgs c)))).
    { intros m. apply G.
      - now apply dset_nodup.
      - intros k N. rewrite In_dkeys_dset. tauto.
      - rewrite In_dkeys_dset. tauto. }
    destruct (dget n (ch_msgs c)) as [b|] eqn:Em; [|apply S]. destruct (same (v, o) b); cbn [negb fst]; [|apply S].
    apply Gc. split; [reflexivity|]. intros _. eapply dget_Some_key; eauto.
Qed.
Lemma set_attr_moved c n v : moved c (fst (set_attr c n v)) (snd (set_attr c n v)).
Proof.
  unfold Mgr_Model.set_attr. destruct (dget n (ch_attrs c)) as [a|] eqn:E; [|apply moved_refl].
  set (c1 := with_attrs c (dset n (revalued a v) (ch_attrs c))).
  assert (F : fixed c c1).
  { repeat split. unfold kinds. cbn [c1 with_attrs ch_attrs]. apply (map_dset_same _ n (revalued a v) (ch_attrs c) a E). reflexivity. }
  assert (Hd : forall k, k <> n -> (differs c1 k <-> differs c k)).
  { intros k N. rewrite !differs_iff, (fixed_tracked c c1 k F). cbn [c1 with_attrs ch_attrs ch_saved]. rewrite dget_dset_other by congruence. tauto. }
  destruct (tracked c n) eqn:T; cbn [fst snd].
  - pose proof (send_tells c1 n v) as X. destruct (send_modified c1 n v) as [c2 r] eqn:Es. destruct X as [X1 X2]. cbn [fst snd].
    split; [|split; [|split; [|split]]].
    + rewrite X2. exact F.
    + rewrite X2. repeat split.
    + now rewrite X2.
    + exact X1.
    + intros [S1 S2]. replace c2 with (fst (send_modified c1 n v)) by now rewrite Es. apply send_sync.
      * exact S1.
      * intros k N. rewrite (Hd k N). apply S2.
      * now rewrite (fixed_tracked c c1 n F).
      * exists (revalued a v). cbn [c1 with_attrs ch_attrs]. rewrite dget_dset_same. split; reflexivity.
  - split; [exact F|]. split; [repeat split|]. split; [reflexivity|]. split; [reflexivity|]. intros [S1 S2]. split; [exact S1|]. intros k.
    change (ch_msgs c1) with (ch_msgs c). destruct (string_dec k n) as [->|N]; [|now rewrite (Hd k N)].
    rewrite S2, !differs_iff, (fixed_tracked c c1 n F), T. split; intros [? _]; discriminate.
Qed.
Lemma put_attr_moved c n v : moved c (fst (put_attr c n v)) (snd (put_attr c n v)).
Proof. unfold Mgr_Model.put_attr. destruct (dget n (ch_attrs c)); [apply set_attr_moved|apply moved_refl]. Qed.
Lemma put_attrs_moved l : forall c, moved c (fst (put_attrs c l)) (snd (put_attrs c l)).
Proof.
  induction l as [|[n v] r IH]; intros c; cbn [Mgr_Model.put_attrs]; [apply moved_refl|].
  pose proof (put_attr_moved c n v) as H. destruct (put_attr c n v) as [c1 r1]. specialize (IH c1). destruct (put_attrs c1 r) as [c2 r2].
  eapply moved_trans; eauto.
Qed.

(* what a put to attributes gives *)
Lemma send_attrs c n v : ch_attrs (fst (send_modified c n v)) = ch_attrs c.
Proof. pose proof (send_tells c n v) as H. destruct (send_modified c n v) as [c' r]. destruct H as [_ H]. cbn [fst]. now rewrite H. Qed.
Lemma put_attr_get c n v k : dget k (ch_attrs (fst (put_attr c n v))) =
  match dget k (ch_attrs c) with
  | Some a => if String.eqb k n then Some (revalued a (a_validate a v)) else Some a
  | None => None
  end.
Proof.
  unfold Mgr_Model.put_attr, Mgr_Model.set_attr. destruct (dget n (ch_attrs c)) as [a|] eqn:E.
  - assert (X : forall c1, ch_attrs c1 = dset n (revalued a (a_validate a v)) (ch_attrs c) -> dget k (ch_attrs c1) =
      match dget k (ch_attrs c) with Some a => if String.eqb k n then Some (revalued a (a_validate a v)) else Some a | None => None end).
    { intros c1 ->. destruct (String.eqb_spec k n) as [->|N].
      - now rewrite dget_dset_same, E.
      - rewrite dget_dset_other by congruence. now destruct (dget k (ch_attrs c)). }
    destruct (tracked c n); cbn [fst]; [|apply X; reflexivity]. apply X. rewrite send_attrs. reflexivity.
  - cbn [fst]. destruct (String.eqb_spec k n) as [->|N]; [now rewrite E|]. now destruct (dget k (ch_attrs c)).
Qed.
Lemma put_attrs_get l : forall c k, NoDup (map fst l) -> dget k (ch_attrs (fst (put_attrs c l))) =
  match dget k (ch_attrs c) with
  | Some a => match dget k l with Some v => Some (revalued a (a_validate a v)) | None => Some a end
  | None => None
  end.
Proof.
  induction l as [|[n v] r IH]; intros c k D; cbn [Mgr_Model.put_attrs].
  - cbn [fst dget]. now destruct (dget k (ch_attrs c)).
  - inversion D as [|? ? Dn Dd]; subst. pose proof (put_attr_get c n v k) as H. destruct (put_attr c n v) as [c1 r1]. cbn [fst] in H.
    specialize (IH c1 k Dd). destruct (put_attrs c1 r) as [c2 r2]. cbn [fst] in *. rewrite IH, H. cbn [dget].
    destruct (dget k (ch_attrs c)) as [a|]; [|reflexivity]. destruct (String.eqb_spec k n) as [->|N]; [|reflexivity].
    replace (dget n r) with (@None V); [reflexivity|]. symmetry. now apply dget_None_notin.
Qed.

(* ---- on_layout ---- *)
Variable vstr : string -> V.
Notation sever := (sever none vstr eqv same).
Notation on_layout := (on_layout none vstr eqv same).
Notation layout_rows := (layout_rows none vstr eqv same).
Lemma last_row_cons n r l : last_row n (r :: l) = match last_row n l with Some v => Some v | None => if String.eqb (r_name r) n then Some r else None end.
Proof.
  unfold last_row. cbn [rev]. induction (rev l) as [|x t IH]; cbn [app find]; [now destruct (String.eqb (r_name r) n)|].
  destruct (String.eqb (r_name x) n); auto.
Qed.
(* same, but the place may change *)
Definition shifted (c c' : child) (r : report) : Prop :=
  fixed c c' /\ ch_saved c' = ch_saved c /\ tells c c' r /\ (sync c -> sync c').
Lemma shifted_trans a b c r1 r2 : shifted a b r1 -> shifted b c r2 -> shifted a c (later r1 r2).
Proof.
  intros (A1 & A3 & A4 & A5) (B1 & B3 & B4 & B5). split; [|split; [|split]].
  - eapply fixed_trans; eauto.
  - congruence.
  - eapply tells_trans; eauto.
  - auto.
Qed.
Lemma moved_shifted c c' r : moved c c' r -> shifted c c' r.
Proof. intros (A & B & C & D & E). exact (conj A (conj C (conj D E))). Qed.
Lemma with_place_shifted c x y v : shifted c (with_place c x y v) None.
Proof. split; [repeat split|]. split; [reflexivity|]. split; [reflexivity|]. intros [A B]. exact (conj A B). Qed.
Lemma with_pvis_shifted c p : shifted c (with_pvis c p) None.
Proof. split; [repeat split|]. split; [reflexivity|]. split; [reflexivity|]. intros [A B]. exact (conj A B). Qed.
Lemma later_none (r : report) : later r None = r. Proof. reflexivity. Qed.
Lemma layout_rows_spec ports l : forall c, let c' := fst (layout_rows ports c l) in
  shifted c c' (snd (layout_rows ports c l)) /\
  match last_row (ch_name c) l with
  | Some v => ch_x c' = r_x v /\ ch_y c' = r_y v /\ ch_visible c' = Some (r_visible v)
  | None => ch_x c' = ch_x c /\ ch_y c' = ch_y c /\ ch_visible c' = ch_visible c
  end.
Proof.
  induction l as [|r t IH]; intros c; cbn [Mgr_Model.layout_rows]; cbn zeta.
  - cbn [fst snd]. split; [apply moved_shifted, moved_refl|]. unfold last_row. cbn. repeat split.
  - rewrite last_row_cons. destruct (String.eqb (r_name r) (ch_name c)) eqn:E.
    + set (cr := match ch_visible c with Some true => if r_visible r then (c, None) else sever c ports None | _ => (c, None) end).
      assert (M : moved c (fst cr) (snd cr)).
      { unfold cr. destruct (ch_visible c) as [[|]|]; [destruct (r_visible r)| |]; try apply moved_refl. apply put_attrs_moved. }
      destruct cr as [c0 r0]. cbn [fst snd] in M.
      set (c1 := with_place c0 (r_x r) (r_y r) (Some (r_visible r))).
      specialize (IH c1). destruct (layout_rows ports c1 t) as [c2 r2]. cbn [fst snd] in *. destruct IH as [I1 I2].
      assert (S : shifted c c1 r0). { rewrite <- (later_none r0). eapply shifted_trans; [apply moved_shifted; exact M|apply with_place_shifted]. }
      split; [eapply shifted_trans; eauto|].
      assert (N : ch_name c1 = ch_name c) by apply M. rewrite N in I2. destruct (last_row (ch_name c) t); exact I2.
    + set (cr := if _ && negb (r_visible r) then sever c ports (Some (r_name r)) else (c, None)).
      assert (M : moved c (fst cr) (snd cr)).
      { unfold cr. destruct (_ && negb (r_visible r)); [apply put_attrs_moved|apply moved_refl]. }
      destruct cr as [c0 r0]. cbn [fst snd] in M.
      set (c1 := with_pvis c0 (dset (r_name r) (r_visible r) (ch_pvis c0))).
      specialize (IH c1). destruct (layout_rows ports c1 t) as [c2 r2]. cbn [fst snd] in *. destruct IH as [I1 I2].
      assert (S : shifted c c1 r0). { rewrite <- (later_none r0). eapply shifted_trans; [apply moved_shifted; exact M|apply with_pvis_shifted]. }
      split; [eapply shifted_trans; eauto|].
      assert (N : ch_name c1 = ch_name c) by apply M. rewrite N in I2. destruct (last_row (ch_name c) t); [exact I2|].
      destruct M as (_ & (P1 & P2 & P3 & _) & _). cbn [c1 with_pvis ch_x ch_y ch_visible] in I2. rewrite <- P1, <- P2, <- P3. exact I2.
Qed.
Lemma on_layout_spec ports value c : let c' := fst (on_layout ports value c) in
  shifted c c' (snd (on_layout ports value c)) /\ ch_visible c' <> None /\
  (ch_visible c <> None -> row_of c' = placed value (row_of c)).
Proof.
  cbn zeta. unfold Mgr_Model.on_layout. pose proof (layout_rows_spec ports value c) as H. destruct (layout_rows ports c value) as [c1 r1].
  cbn [fst snd] in H. destruct H as [S P].
  set (c2 := if match ch_pvis c with [] => true | _ => false end then with_pvis c1 (calc_visibility vstr eqv ports (ch_pvis c1)) else c1).
  assert (S2 : shifted c c2 r1).
  { unfold c2. destruct (match ch_pvis c with [] => true | _ => false end); [|exact S]. rewrite <- (later_none r1).
    eapply shifted_trans; [exact S|apply with_pvis_shifted]. }
  assert (P2 : ch_x c2 = ch_x c1 /\ ch_y c2 = ch_y c1 /\ ch_visible c2 = ch_visible c1).
  { unfold c2. destruct (match ch_pvis c with [] => true | _ => false end); repeat split. }
  destruct P2 as (X2 & Y2 & V2). clearbody c2.
  destruct (ch_visible c2) as [b|] eqn:Ev; cbn [fst snd].
  - split; [exact S2|]. split; [congruence|]. intros Hv. unfold placed. cbn [row_of r_name].
    destruct S2 as ((N & Mr & _) & _). unfold row_of. rewrite N, Mr, X2, Y2. rewrite V2 in Ev. rewrite Ev.
    destruct (last_row (ch_name c) value) as [v|]; destruct P as (A & B & C); rewrite A, B, C; reflexivity.
  - split; [|split].
    + rewrite <- (later_none r1). eapply shifted_trans; [exact S2|apply with_place_shifted].
    + cbn [with_place ch_visible]. discriminate.
    + intros Hv. exfalso. rewrite <- V2 in P. destruct (last_row (ch_name c) value) as [v|]; destruct P as (A & B & C); congruence.
Qed.

(* ---- on_load ---- *)
Lemma insert_In n l x : In x (insert_nat n l) <-> x = n \/ In x l.
Proof.
  induction l as [|m r IH]; cbn [insert_nat]; [cbn; intuition|]. destruct (Nat.ltb n m); [cbn; intuition|].
  destruct (Nat.eqb_spec n m) as [->|]; cbn [In]; [intuition|]. rewrite IH. intuition.
Qed.
Fixpoint increasing (l : list nat) : Prop :=
  match l with [] => True | n :: r => (forall m, In m r -> n < m) /\ increasing r end.
Lemma insert_increasing n l : increasing l -> increasing (insert_nat n l).
Proof.
  induction l as [|m r IH]; cbn [insert_nat]; [cbn; intuition|]. intros [H1 H2]. destruct (Nat.ltb_spec n m) as [L|L].
  - cbn [increasing]. split; [|split; assumption]. intros k [<-|Hk]; [exact L|]. specialize (H1 k Hk). lia.
  - destruct (Nat.eqb_spec n m) as [->|N]; [split; assumption|]. cbn [increasing]. split; [|now apply IH].
    intros k Hk. apply insert_In in Hk as [->|Hk]; [lia|now apply H1].
Qed.
Lemma increasing_nodup l : increasing l -> NoDup l.
Proof. induction l as [|n r IH]; intros H; constructor; destruct H as [H1 H2]; auto. intros Hi. specialize (H1 n Hi). lia. Qed.
Lemma iterations_spec (rest : list (nat * (string * V))) : let is := fold_left (fun l x => insert_nat (fst x) l) rest [] in
  increasing is /\ forall i, In i is <-> In i (map fst rest).
Proof.
  cbn zeta. assert (G : forall l, increasing l -> increasing (fold_left (fun l x => insert_nat (fst x) l) rest l) /\
    forall i, In i (fold_left (fun l x => insert_nat (fst x) l) rest l) <-> In i (map fst rest) \/ In i l).
  { induction rest as [|x r IH]; intros l H; cbn [fold_left map]; [split; [exact H|cbn; tauto]|].
    destruct (IH (insert_nat (fst x) l) (insert_increasing _ _ H)) as [I1 I2]. split; [exact I1|]. intros i. rewrite I2, insert_In. cbn [In]. intuition. }
  destruct (G [] I) as [A B]. split; [exact A|]. intros i. rewrite B. cbn. tauto.
Qed.
Lemma load_iteration_moved rest c i : moved c (fst (load_iteration rest c i)) (snd (load_iteration rest c i)).
Proof. apply put_attrs_moved. Qed.
Lemma load_iterations_moved rest is : forall c, moved c (fst (load_iterations rest c is)) (snd (load_iterations rest c is)).
Proof.
  induction is as [|i t IH]; intros c; cbn [Mgr_Model.load_iterations]; [apply moved_refl|].
  pose proof (load_iteration_moved rest c i) as H. destruct (load_iteration rest c i) as [c1 r1]. specialize (IH c1).
  destruct (load_iterations rest c1 t) as [c2 r2]. eapply moved_trans; eauto.
Qed.
(* the value an attribute gets *)
Definition loaded (a : attr) (v : V) : attr := if eqv (a_value a) v then a else revalued a (a_validate a v).
Lemma NoDup_map_filter {A B} (f : A -> B) p l : NoDup (map f l) -> NoDup (map f (filter p l)).
Proof.
  induction l as [|x r IH]; cbn; intros H; [exact H|]. inversion H as [|? ? Hn Hd]; subst. destruct (p x); cbn; [|auto].
  constructor; [|auto]. intros Hi. apply Hn. apply in_map_iff in Hi as (y & E & Hy). apply filter_In in Hy as [Hy _]. apply in_map_iff. eauto.
Qed.
Lemma dget_filter_none k (p : string * V -> bool) l : dget k l = None -> dget k (filter p l) = None.
Proof.
  induction l as [|[n v] r IH]; cbn [dget filter]; [auto|]. destruct (String.eqb k n) eqn:E; [discriminate|]. intros H.
  destruct (p (n, v)); cbn [dget]; [rewrite E|]; auto.
Qed.
Lemma dget_filter k (p : string * V -> bool) l v : NoDup (map fst l) -> dget k l = Some v -> dget k (filter p l) = if p (k, v) then Some v else None.
Proof.
  induction l as [|[n w] r IH]; cbn [dget filter map fst]; intros D H; [discriminate|]. inversion D as [|? ? Dn Dd]; subst.
  destruct (String.eqb_spec k n) as [->|N].
  - injection H as ->. destruct (p (n, v)) eqn:E; cbn [dget]; [now rewrite String.eqb_refl|]. apply dget_filter_none. now apply dget_None_notin.
  - destruct (p (n, w)); cbn [dget]; [destruct (String.eqb_spec k n); [congruence|]|]; apply IH; auto.
Qed.
Lemma load_iteration_get rest c i k : NoDup (map (fun x => fst (snd x)) rest) ->
  dget k (ch_attrs (fst (load_iteration rest c i))) =
  match dget k (ch_attrs c) with
  | Some a => match dget k (map snd (filter (fun x => Nat.eqb (fst x) i) rest)) with Some v => Some (loaded a v) | None => Some a end
  | None => None
  end.
Proof.
  intros D. unfold Mgr_Model.load_iteration. set (l := map snd (filter (fun x => Nat.eqb (fst x) i) rest)).
  assert (Dl : NoDup (map fst l)).
  { unfold l. rewrite map_map. now apply (NoDup_map_filter (fun x : nat * (string * V) => fst (snd x))). }
  rewrite put_attrs_get by now apply NoDup_map_filter. destruct (dget k (ch_attrs c)) as [a|] eqn:Ea; [|reflexivity].
  destruct (dget k l) as [v|] eqn:El.
  - rewrite (dget_filter k _ l v Dl El). cbn [fst snd]. rewrite Ea. unfold loaded. destruct (eqv (a_value a) v); reflexivity.
  - now rewrite dget_filter_none.
Qed.
Lemma iteration_get (rest : list (nat * (string * V))) i k v : NoDup (map (fun x => fst (snd x)) rest) ->
  In (i, (k, v)) rest -> forall j, dget k (map snd (filter (fun x => Nat.eqb (fst x) j) rest)) = if Nat.eqb j i then Some v else None.
Proof.
  induction rest as [|[i' [k' v']] r IH]; intros D H j; [destruct H|]. cbn [map fst snd] in D. inversion D as [|? ? Dn Dd]; subst. cbn [filter fst].
  destruct H as [H|H].
  - injection H as -> -> ->.
    assert (N : dget k (map snd (filter (fun x => Nat.eqb (fst x) j) r)) = None).
    { apply dget_None_notin. unfold dkeys. rewrite map_map. intros X. apply Dn. apply in_map_iff in X as (y & E & Hy). apply filter_In in Hy as [Hy _].
      apply in_map_iff. exists y. auto. }
    rewrite (Nat.eqb_sym j i). destruct (Nat.eqb i j); cbn [map snd dget]; [now rewrite String.eqb_refl|exact N].
  - assert (N : k <> k'). { intros ->. apply Dn. apply in_map_iff. exists (i, (k', v)). auto. }
    destruct (Nat.eqb i' j); cbn [map snd dget]; [destruct (String.eqb_spec k k'); [contradiction|]|]; now apply IH.
Qed.
Lemma load_iterations_get rest is : forall c k i v, NoDup (map (fun x => fst (snd x)) rest) -> NoDup is -> In (i, (k, v)) rest ->
  dget k (ch_attrs (fst (load_iterations rest c is))) =
  match dget k (ch_attrs c) with
  | Some a => if existsb (Nat.eqb i) is then Some (loaded a v) else Some a
  | None => None
  end.
Proof.
  induction is as [|j t IH]; intros c k i v D Di H; cbn [Mgr_Model.load_iterations existsb].
  - cbn [fst]. now destruct (dget k (ch_attrs c)).
  - inversion Di as [|? ? Dn Dd]; subst. pose proof (load_iteration_get rest c j k D) as G. destruct (load_iteration rest c j) as [c1 r1]. cbn [fst] in G.
    specialize (IH c1 k i v D Dd H). destruct (load_iterations rest c1 t) as [c2 r2]. cbn [fst] in *. rewrite IH, G.
    rewrite (iteration_get rest i k v D H j). destruct (dget k (ch_attrs c)) as [a|]; [|reflexivity].
    rewrite (Nat.eqb_sym i j). destruct (Nat.eqb_spec j i) as [->|N]; cbn [orb]; [|reflexivity].
    replace (existsb (Nat.eqb i) t) with false; [reflexivity|]. symmetry. apply not_true_iff_false. intros X. apply existsb_exists in X as (x & Hx & E).
    apply Nat.eqb_eq in E. subst. contradiction.
Qed.
Lemma load_iterations_other rest is : forall c k, NoDup (map (fun x => fst (snd x)) rest) -> ~ In k (map (fun x => fst (snd x)) rest) ->
  dget k (ch_attrs (fst (load_iterations rest c is))) = dget k (ch_attrs c).
Proof.
  induction is as [|j t IH]; intros c k D H; cbn [Mgr_Model.load_iterations]; [reflexivity|].
  pose proof (load_iteration_get rest c j k D) as G. destruct (load_iteration rest c j) as [c1 r1]. cbn [fst] in G.
  specialize (IH c1 k D H). destruct (load_iterations rest c1 t) as [c2 r2]. cbn [fst] in *. rewrite IH, G.
  destruct (dget k (ch_attrs c)) as [a|]; [|reflexivity]. replace (dget k _) with (@None V); [reflexivity|]. symmetry. apply dget_None_notin.
  unfold dkeys. rewrite map_map. intros X. apply H. apply in_map_iff in X as (y & E & Hy). apply filter_In in Hy as [Hy _]. apply in_map_iff. eauto.
Qed.
Lemma restorable_In (c : child) init (st : dict V) i k v : In (i, (k, v)) (restorable c init st) <->
  In (k, v) st /\ init && String.eqb k "design" = false /\ exists a, dget k (ch_attrs c) = Some a /\ a_config a = Some i.
Proof.
  unfold restorable. rewrite in_flat_map. split.
  - intros ([k' v'] & H1 & H2). cbn [fst] in H2. destruct (init && String.eqb k' "design") eqn:E; [destruct H2|].
    destruct (dget k' (ch_attrs c)) as [a|] eqn:Ea; [|destruct H2]. destruct (a_config a) as [j|] eqn:Ec; [|destruct H2].
    destruct H2 as [H2|[]]. injection H2 as <- <- <-. split; [exact H1|]. split; [exact E|]. eauto.
  - intros (H1 & H2 & a & Ha & Hc). exists (k, v). split; [exact H1|]. cbn [fst]. rewrite H2, Ha, Hc. now left.
Qed.
Lemma restorable_nodup (c : child) init (st : dict V) : NoDup (map fst st) -> NoDup (map (fun x => fst (snd x)) (restorable c init st)).
Proof.
  induction st as [|[k v] r IH]; intros D; [constructor|]. inversion D as [|? ? Dn Dd]; subst. unfold restorable. cbn [flat_map fst].
  fold (restorable c init r). assert (N : ~ In k (map (fun x => fst (snd x)) (restorable c init r))).
  { intros X. apply in_map_iff in X as ([i [k' v']] & E & H). cbn in E. subst. apply restorable_In in H as [H _]. apply Dn. apply in_map_iff. exists (k, v'). auto. }
  destruct (init && String.eqb k "design"); [now apply IH|]. destruct (dget k (ch_attrs c)) as [a|]; [|now apply IH].
  destruct (a_config a); [|now apply IH]. cbn [app map snd fst]. constructor; [exact N|now apply IH].
Qed.
(* what a load (not at init) leaves *)
Lemma on_load_attr (st : dict V) c k a : NoDup (map fst st) -> dget k (ch_attrs c) = Some a ->
  dget k (ch_attrs (fst (on_load false st c))) =
  Some (match dget k st, a_config a with Some v, Some _ => loaded a v | _, _ => a end).
Proof.
  intros D Ha. unfold Mgr_Model.on_load.
  pose proof (iterations_spec (restorable c false st)) as [Hi Hm].
  set (is := fold_left (fun l x => insert_nat (fst x) l) (restorable c false st) []) in *.
  pose proof (restorable_nodup c false st D) as Dr.
  assert (G : dget k (ch_attrs (fst (load_iterations (restorable c false st) (with_saved c st) is))) =
     Some (match dget k st, a_config a with Some v, Some _ => loaded a v | _, _ => a end)).
  { destruct (dget k st) as [v|] eqn:Es; [destruct (a_config a) as [i|] eqn:Ec|].
    - assert (H : In (i, (k, v)) (restorable c false st)).
      { apply restorable_In. split; [now apply dget_Some_In|]. split; [reflexivity|]. eauto. }
      rewrite (load_iterations_get _ is (with_saved c st) k i v Dr (increasing_nodup is Hi) H). cbn [with_saved ch_attrs]. rewrite Ha.
      replace (existsb (Nat.eqb i) is) with true; [reflexivity|]. symmetry. apply existsb_exists. exists i. split; [|apply Nat.eqb_refl].
      apply Hm. apply in_map_iff. exists (i, (k, v)). auto.
    - rewrite load_iterations_other; [exact Ha|exact Dr|]. intros X. apply in_map_iff in X as ([i [k' v']] & E & H). cbn in E. subst.
      apply restorable_In in H as (_ & _ & a' & Ha' & Hc). congruence.
    - rewrite load_iterations_other; [exact Ha|exact Dr|]. intros X. apply in_map_iff in X as ([i [k' v']] & E & H). cbn in E. subst.
      apply restorable_In in H as (H & _). apply dget_None_notin in Es. apply Es. unfold dkeys. apply in_map_iff. exists (k, v'). auto. }
  destruct (load_iterations (restorable c false st) (with_saved c st) is) as [c1 r1]. exact G.
Qed.
Lemma on_load_moved st c : let c' := fst (on_load false st c) in
  fixed c c' /\ inplace c c' /\ ch_saved c' = st /\ tells c c' (snd (on_load false st c)) /\ (sync (with_saved c st) -> sync c').
Proof.
  cbn zeta. unfold Mgr_Model.on_load. set (is := fold_left _ (restorable c false st) []).
  pose proof (load_iterations_moved (restorable c false st) is (with_saved c st)) as H.
  destruct (load_iterations (restorable c false st) (with_saved c st) is) as [c1 r1]. cbn [fst snd] in *.
  destruct H as (A & B & C & D & E). exact (conj A (conj B (conj C (conj D E)))).
Qed.

(* ---- hooks ---- *)
Definition lit (m : mgr) : Prop := m_modified m = is_modified m.
Lemma got_report_fields m n r : let m' := got_report m n r in
  m_parts m' = m_parts m /\ m_ports m' = m_ports m /\ m_layout m' = m_layout m /\ m_exports m' = m_exports m /\ m_savedvis m' = m_savedvis m /\
  m_savedexp m' = m_savedexp m /\ m_own m' = m_own m /\ m_design m' = m_design m /\ m_files m' = m_files m /\
  m_partmod m' = match r with Some d => dset n d (m_partmod m) | None => m_partmod m end /\ (lit m -> lit m').
Proof. destruct r; cbn; repeat split; auto. Qed.
Lemma hooked_spec (f : child -> child * report) m : let m' := hooked f m in
  m_parts m' = map (fun c => fst (f c)) (m_parts m) /\ m_ports m' = m_ports m /\ m_layout m' = m_layout m /\ m_exports m' = m_exports m /\
  m_savedvis m' = m_savedvis m /\ m_savedexp m' = m_savedexp m /\ m_own m' = m_own m /\ m_design m' = m_design m /\ m_files m' = m_files m /\
  (lit m -> lit m').
Proof.
  cbn zeta. unfold hooked. set (m0 := mkM _ _ _ _ _ _ _ _ _ _ _).
  assert (G : forall (l : list (child * report)) (m : mgr), let m' := fold_left (fun m cr => got_report m (ch_name (fst cr)) (snd cr)) l m in
     m_parts m' = m_parts m /\ m_ports m' = m_ports m /\ m_layout m' = m_layout m /\ m_exports m' = m_exports m /\ m_savedvis m' = m_savedvis m /\
     m_savedexp m' = m_savedexp m /\ m_own m' = m_own m /\ m_design m' = m_design m /\ m_files m' = m_files m /\ (lit m -> lit m')).
  { induction l as [|[c r] t IH]; intros m1; cbn [fold_left]; [repeat split; auto|].
    destruct (IH (got_report m1 (ch_name (fst (c, r))) (snd (c, r)))) as (A1 & A2 & A3 & A4 & A5 & A6 & A7 & A8 & A9 & A10).
    destruct (got_report_fields m1 (ch_name (fst (c, r))) (snd (c, r))) as (B1 & B2 & B3 & B4 & B5 & B6 & B7 & B8 & B9 & B10 & B11).
    repeat split; try congruence. auto. }
  destruct (G (map f (m_parts m)) m0) as (A1 & A2 & A3 & A4 & A5 & A6 & A7 & A8 & A9 & A10).
  repeat split; try assumption. rewrite A1. cbn [m0 m_parts]. apply map_map.
Qed.
Lemma hooked_partmod (f : child -> child * report) m c : NoDup (map ch_name (m_parts m)) -> (forall c, In c (m_parts m) -> ch_name (fst (f c)) = ch_name c) ->
  In c (m_parts m) -> dget (ch_name c) (m_partmod (hooked f m)) = match snd (f c) with Some d => Some d | None => dget (ch_name c) (m_partmod m) end.
Proof.
  intros D N H. unfold hooked. set (m0 := mkM _ _ _ _ _ _ _ _ _ _ _). change (m_partmod m) with (m_partmod m0). clearbody m0.
  revert m0. induction (m_parts m) as [|c1 r IH]; intros m0; [destruct H|]. cbn [map fold_left]. cbn [map] in D. inversion D as [|? ? Dn Dd]; subst.
  assert (Other : forall (l : list child) (m1 : mgr) k, ~ In k (map ch_name l) -> (forall c, In c l -> ch_name (fst (f c)) = ch_name c) ->
     dget k (m_partmod (fold_left (fun m cr => got_report m (ch_name (fst cr)) (snd cr)) (map f l) m1)) = dget k (m_partmod m1)).
  { induction l as [|c2 t IHl]; intros m1 k Hk Hn; cbn [map fold_left]; [reflexivity|]. rewrite IHl; [|intros X; apply Hk; now right|intros; apply Hn; now right].
    destruct (got_report_fields m1 (ch_name (fst (f c2))) (snd (f c2))) as (_ & _ & _ & _ & _ & _ & _ & _ & _ & B & _). rewrite B.
    destruct (snd (f c2)); [|reflexivity]. apply dget_dset_other. rewrite Hn by now left. intros E. apply Hk. left. exact E. }
  destruct H as [<-|H].
  - rewrite Other; [|exact Dn|intros; apply N; now right].
    destruct (got_report_fields m0 (ch_name (fst (f c1))) (snd (f c1))) as (_ & _ & _ & _ & _ & _ & _ & _ & _ & B & _). rewrite B.
    rewrite N by now left. destruct (snd (f c1)); [apply dget_dset_same|reflexivity].
  - rewrite IH; [|exact Dd|intros; apply N; now right|exact H]. destruct (snd (f c)); [reflexivity|].
    destruct (got_report_fields m0 (ch_name (fst (f c1))) (snd (f c1))) as (_ & _ & _ & _ & _ & _ & _ & _ & _ & B & _). rewrite B.
    destruct (snd (f c1)); [|reflexivity]. apply dget_dset_other. rewrite N by now left. intros E. apply Dn. rewrite E. now apply in_map.
Qed.
End P.
