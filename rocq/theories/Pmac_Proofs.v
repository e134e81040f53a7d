(* Proofs about the PMAC profile model. *)
From Coq Require Import String Ascii Bool ZArith QArith Qabs Qround Lia Lqa List Permutation.
From Verif Require Import Base Pmac_Model Pmac_Spec.
Import ListNotations.
Local Open Scope list_scope.
Local Open Scope nat_scope.

(* ---------------- lists ---------------- *)
Lemma last_of_snoc {A} (l : list A) x : last_of (l ++ [x]) = Some x.
Proof. unfold last_of. rewrite rev_app_distr. reflexivity. Qed.

Lemma last_of_nil_iff {A} (l : list A) : last_of l = None <-> l = [].
Proof.
  unfold last_of. split; intro H.
  - destruct (rev l) eqn:E; [|discriminate].
    rewrite <- (rev_involutive l), E. reflexivity.
  - subst. reflexivity.
Qed.

Lemma last_of_app {A} (l1 l2 : list A) : l2 <> [] -> last_of (l1 ++ l2) = last_of l2.
Proof.
  intro H. destruct (exists_last H) as (l & x & ->).
  rewrite app_assoc, !last_of_snoc. reflexivity.
Qed.

Lemma last_of_map {A B} (f : A -> B) l : last_of (map f l) = option_map f (last_of l).
Proof.
  unfold last_of. rewrite <- map_rev. destruct (rev l); reflexivity.
Qed.

Lemma last_of_Some {A} (l : list A) x : last_of l = Some x -> exists r, l = r ++ [x].
Proof.
  unfold last_of. intro H. destruct (rev l) eqn:E; [discriminate|].
  injection H as <-. exists (rev l0). rewrite <- (rev_involutive l), E. reflexivity.
Qed.

Lemma set_last_snoc {A} (l : list A) x y : set_last (l ++ [x]) y = Some (l ++ [y]).
Proof. unfold set_last. rewrite rev_app_distr. cbn. rewrite rev_involutive. reflexivity. Qed.

Lemma dset_app_last {A} a (l l' : A) (d1 d2 : dict A) :
  ~ In a (map fst d1) -> dset a l' (d1 ++ (a, l) :: d2) = d1 ++ (a, l') :: d2.
Proof.
  induction d1 as [|[k v] d1 IH]; cbn; intro H.
  - rewrite String.eqb_refl. reflexivity.
  - destruct (String.eqb_spec a k) as [->|N].
    + exfalso. apply H. left. reflexivity.
    + rewrite IH; [reflexivity|]. intro Hin. apply H. right. exact Hin.
Qed.

Lemma dget_app_skip {A} a (d1 d2 : dict A) :
  ~ In a (map fst d1) -> dget a (d1 ++ d2) = dget a d2.
Proof.
  induction d1 as [|[k v] d1 IH]; cbn; intro H; [reflexivity|].
  destruct (String.eqb_spec a k) as [->|N].
  - exfalso. apply H. left. reflexivity.
  - apply IH. intro Hin. apply H. right. exact Hin.
Qed.

Lemma over_axes_cols m g f c c' :
  NoDup (map fst m) -> NoDup (map snd m) ->
  (forall n a, In (n, a) m -> g (f n) (c n) = Ok (c' n)) ->
  over_axes m g (points_at m f) (map (fun na => (snd na, c (fst na))) m)
  = Ok (map (fun na => (snd na, c' (fst na))) m).
Proof.
  intros N1 N2 Hg.
  assert (G : forall todo done, m = done ++ todo ->
    over_axes m g (points_at todo f)
      (map (fun na => (snd na, c' (fst na))) done ++ map (fun na => (snd na, c (fst na))) todo)
    = Ok (map (fun na => (snd na, c' (fst na))) m)).
  { induction todo as [|[n a] todo IH]; intros dn E.
    - cbn. rewrite E, !app_nil_r. reflexivity.
    - cbn [points_at map over_axes fst snd]. unfold cs_of.
      assert (Hd : dget n m = Some a).
      { apply dget_In_nodup; [exact N1|]. rewrite E. apply in_or_app. right. left. reflexivity. }
      rewrite Hd.
      assert (Hn : ~ In a (map fst (map (fun na => (snd na, c' (fst na))) dn))).
      { rewrite map_map. cbn. intro Hin. rewrite E, map_app in N2.
        cbn in N2. apply NoDup_remove_2 in N2. apply N2. apply in_or_app. left. exact Hin. }
      rewrite dget_app_skip by exact Hn. cbn [dget]. rewrite String.eqb_refl.
      rewrite (Hg n a) by (rewrite E; apply in_or_app; right; left; reflexivity).
      rewrite dset_app_last by exact Hn.
      specialize (IH (dn ++ [(n, a)])). rewrite map_app in IH. cbn in IH.
      rewrite <- app_assoc in IH. specialize (IH E).
      rewrite <- app_assoc in IH. exact IH. }
  specialize (G m [] eq_refl). exact G.
Qed.

(* an error in the first axis *)
Lemma over_axes_err m g f c e :
  NoDup (map fst m) -> NoDup (map snd m) -> m <> [] ->
  (forall n a, In (n, a) m -> g (f n) (c n) = Err e) ->
  over_axes m g (points_at m f) (map (fun na => (snd na, c (fst na))) m) = Err e.
Proof.
  intros N1 N2 Hm Hg. destruct m as [|[n a] m]; [congruence|].
  cbn [points_at map over_axes fst snd]. unfold cs_of. cbn [dget]. rewrite !String.eqb_refl.
  rewrite (Hg n a) by (left; reflexivity). reflexivity.
Qed.

(* ---------------- nsplit ---------------- *)
Lemma Qfloor_plus1 (q : Q) : Qfloor (q + 1) = (Qfloor q + 1)%Z.
Proof.
  destruct q as [n d]. unfold Qfloor, Qplus. cbn [Qnum Qden].
  rewrite Pos.mul_1_r. rewrite Z.mul_1_r, Z.mul_1_l.
  rewrite <- (Z.mul_1_l (Zpos d)) at 1.
  apply Z.div_add. lia.
Qed.

Lemma Qfloor_nonneg (q : Q) : (0 <= q)%Q -> (0 <= Qfloor q)%Z.
Proof.
  intro H. change 0%Z with (Qfloor 0). apply Qfloor_resp_le. exact H.
Qed.

Lemma nsplit_pieces t : (0 <= t)%Q -> nsplit t = pieces t.
Proof.
  intro H. unfold nsplit, pieces, MAX_MOVE_TIME. rewrite Qfloor_plus1.
  assert (0 <= Qfloor (t / 4))%Z.
  { apply Qfloor_nonneg. apply Qle_shift_div_l; [reflexivity|]. lra. }
  lia.
Qed.

Lemma gt4_nonneg t : Qle_bool t 4 = false -> (4 < t)%Q.
Proof.
  intro H. apply Qnot_le_lt. intro C. apply Qle_bool_iff in C. congruence.
Qed.

(* ---------------- the simulation ---------------- *)
Section Sim.
  Variable PP : nat.
  Variable m : mapping.
  Hypothesis N1 : NoDup (map fst m).
  Hypothesis N2 : NoDup (map snd m).

  Lemma axis_columns_snoc E e :
    axis_columns m (E ++ [e]) =
    map (fun na => (snd na, map (fun e => e_pos e (fst na)) E ++ [e_pos e (fst na)])) m.
  Proof.
    unfold axis_columns. apply map_ext. intros [n a]. cbn. rewrite map_app. reflexivity.
  Qed.

  Lemma append_axes_cols E f :
    append_axes m (points_at m f) (axis_columns m E)
    = Ok (map (fun na => (snd na, map (fun e => e_pos e (fst na)) E ++ [f (fst na)])) m).
  Proof.
    unfold append_axes, axis_columns.
    apply (over_axes_cols m _ f (fun n => map (fun e => e_pos e n) E)
                          (fun n => map (fun e => e_pos e n) E ++ [f n])); auto.
  Qed.

  Lemma stretch_axes_cols E p f k :
    last_entry E = Some p ->
    stretch_axes m k (points_at m f) (axis_columns m E)
    = Ok (map (fun na => (snd na, map (fun e => e_pos e (fst na)) E ++
                          sections (e_pos p (fst na)) (f (fst na)) k)) m).
  Proof.
    intro HL. unfold stretch_axes, axis_columns.
    apply (over_axes_cols m _ f (fun n => map (fun e => e_pos e n) E)
             (fun n => map (fun e => e_pos e n) E ++ sections (e_pos p n) (f n) k)); auto.
    intros n a _. rewrite last_of_map. unfold last_entry in HL. rewrite HL. reflexivity.
  Qed.

  Lemma fix_axes_cols E e f :
    fix_axes m (points_at m f) (axis_columns m (E ++ [e]))
    = Ok (map (fun na => (snd na, map (fun e => e_pos e (fst na)) E ++ [f (fst na)])) m).
  Proof.
    rewrite axis_columns_snoc. unfold fix_axes.
    apply (over_axes_cols m _ f (fun n => map (fun e => e_pos e n) E ++ [e_pos e n])
                          (fun n => map (fun e => e_pos e n) E ++ [f n])); auto.
    intros n a _. rewrite set_last_snoc. reflexivity.
  Qed.

  Definition same_rest (st st' : prof) : Prop :=
    pf_since st' = pf_since st /\ pf_end st' = pf_end st /\ pf_tail st' = pf_tail st /\
    pf_sent st' = pf_sent st.

  (* current part kept apart *)
  Definition holds_at (st : prof) (chunks : list (list entry)) (cur : list entry) : Prop :=
    Forall2 (block_of m) (pf_sent st) chunks /\
    Forall (fun C => length C <= PP) chunks /\
    pf_time st = map e_time cur /\ pf_mode st = map e_mode cur /\
    pf_prog st = map e_prog cur /\ pf_axes st = axis_columns m cur /\
    pf_lookup st = map e_step (concat chunks ++ cur).

  Lemma holds_iff st E :
    holds PP m st E <-> exists chunks cur, E = concat chunks ++ cur /\ holds_at st chunks cur.
  Proof.
    unfold holds, holds_at. split; intros (ch & cur & HE & H); exists ch, cur;
      subst E; intuition.
  Qed.

  Lemma extend_current prefix cur e E' :
    (cur = [] -> prefix = []) ->
    extend (prefix ++ cur) e = Some E' ->
    exists cur', extend cur e = Some cur' /\ E' = prefix ++ cur' /\ cur' <> [].
  Proof.
    intros Hl H. unfold extend in *. destruct (Qle_bool (e_time e) 4).
    - injection H as <-. exists (cur ++ [e]). rewrite app_assoc.
      split; [reflexivity|]. split; [reflexivity|]. destruct cur; discriminate.
    - destruct cur as [|c cur].
      + rewrite (Hl eq_refl) in H. cbn in H. discriminate.
      + unfold last_entry in *. rewrite last_of_app in H by discriminate.
        destruct (last_of (c :: cur)) eqn:E; [|discriminate].
        injection H as <-. exists ((c :: cur) ++ cut e0 e).
        rewrite app_assoc. repeat split. discriminate.
  Qed.

  Lemma extend_current_none prefix cur e :
    (cur = [] -> prefix = []) ->
    extend (prefix ++ cur) e = None -> extend cur e = None /\ cur = [].
  Proof.
    intros Hl H. unfold extend in *. destruct (Qle_bool (e_time e) 4); [discriminate|].
    destruct cur as [|c cur]; [auto|].
    unfold last_entry in *. rewrite last_of_app in H by discriminate.
    destruct (last_of (c :: cur)) eqn:E; [discriminate|].
    apply last_of_nil_iff in E. discriminate.
  Qed.

  Lemma map_const {A B} (x : B) (l : list A) : map (fun _ => x) l = repeat x (length l).
  Proof. induction l; cbn; congruence. Qed.

  Lemma cut_map_time p e : map e_time (cut p e) =
    repeat (e_time e / inject_Z (Z.of_nat (pieces (e_time e))))%Q (pieces (e_time e)).
  Proof.
    unfold cut. set (n := pieces (e_time e)).
    rewrite map_app, map_map. cbn [map e_time].
    rewrite map_const, seq_length. fold n.
    replace n with (n - 1 + 1) at 5 by (unfold n, pieces; lia).
    rewrite repeat_app. reflexivity.
  Qed.

  (* adding a point, current part only *)
  Lemma add_cur st chunks cur e :
    holds_at st chunks cur ->
    match extend cur e with
    | Some cur' =>
      exists st', add_profile_point m st (e_time e) (e_mode e) (e_prog e) (e_step e)
                    (points_at m (e_pos e)) = Ok st' /\
                  holds_at st' chunks cur' /\ same_rest st st'
    | None => add_profile_point m st (e_time e) (e_mode e) (e_prog e) (e_step e)
                    (points_at m (e_pos e)) = Err NoStretch
    end.
  Proof.
    intros (H1 & H2 & Ht & Hm & Hp & Ha & Hl).
    unfold extend, add_profile_point. change MAX_MOVE_TIME with 4%Q.
    destruct (Qle_bool (e_time e) 4) eqn:E4; cbn [negb].
    - unfold set_point. cbn [pf_axes]. rewrite Ha, append_axes_cols.
      eexists. split; [reflexivity|]. split.
      + unfold holds_at. cbn. rewrite Ht, Hm, Hp, Hl, app_assoc, !map_app.
        rewrite axis_columns_snoc. repeat split; auto.
      + repeat split.
    - destruct (last_entry cur) as [p|] eqn:EL.
      + rewrite Ht. destruct cur as [|c cur0]; [discriminate|]. cbn [map].
        change (e_time c :: map e_time cur0) with (map e_time (c :: cur0)).
        remember (c :: cur0) as cur eqn:Ecur.
        assert (Hns : nsplit (e_time e) = pieces (e_time e)).
        { apply nsplit_pieces. apply gt4_nonneg in E4. lra. }
        rewrite Hns. rewrite Ha, (stretch_axes_cols cur p (e_pos e)) by exact EL.
        rewrite Hl, last_of_map, last_of_app by (rewrite Ecur; discriminate).
        unfold last_entry in EL. rewrite EL. cbn [option_map].
        unfold set_point. cbn [pf_axes].
        set (n := pieces (e_time e)).
        set (int := map (fun i => mkEntry (e_time e / inject_Z (Z.of_nat n)) 0 0 (e_step p)
                        (fun a => between (e_pos p a) (e_pos e a) i n)) (seq 1 (n - 1))).
        assert (Hax : map (fun na : string * string => (snd na, map (fun e => e_pos e (fst na)) cur ++
                        sections (e_pos p (fst na)) (e_pos e (fst na)) n)) m
                      = axis_columns m (cur ++ int)).
        { unfold axis_columns. apply map_ext. intros [x y]. cbn. f_equal.
          rewrite map_app. f_equal. unfold int. rewrite map_map. reflexivity. }
        rewrite Hax, append_axes_cols.
        eexists. split; [reflexivity|]. split.
        * unfold holds_at. cbn [pf_sent pf_time pf_mode pf_prog pf_axes pf_lookup].
          assert (Hcut : cut p e = int ++ [mkEntry (e_time e / inject_Z (Z.of_nat n))
                                             (e_mode e) (e_prog e) (e_step e) (e_pos e)])
            by reflexivity.
          split; [exact H1|]. split; [exact H2|].
          split; [rewrite (map_app e_time cur (cut p e)), cut_map_time; reflexivity|].
          rewrite Hcut.
          rewrite Hm, Hp, !map_app. cbn [map e_mode e_prog e_step].
          unfold int. rewrite !map_map. cbn [e_mode e_prog e_step].
          rewrite !map_const, seq_length, <- !app_assoc.
          split; [reflexivity|]. split; [reflexivity|]. split; [|reflexivity].
          fold int. rewrite app_assoc, axis_columns_snoc. reflexivity.
        * repeat split.
      + unfold last_entry in EL. apply last_of_nil_iff in EL. rewrite Ht, EL. reflexivity.
  Qed.

  (* full trajectories; live: nothing kept only if nothing at all *)
  Definition live (st : prof) (E : list entry) : Prop := pf_time st = [] -> E = [].

  Lemma add_sim st E e :
    holds PP m st E -> live st E ->
    match extend E e with
    | Some E' =>
      exists st', add_profile_point m st (e_time e) (e_mode e) (e_prog e) (e_step e)
                    (points_at m (e_pos e)) = Ok st' /\
                  holds PP m st' E' /\ same_rest st st' /\ pf_time st' <> []
    | None => add_profile_point m st (e_time e) (e_mode e) (e_prog e) (e_step e)
                    (points_at m (e_pos e)) = Err NoStretch
    end.
  Proof.
    intros HH HL. apply holds_iff in HH as (ch & cur & -> & Hat).
    assert (Hlive : cur = [] -> concat ch = []).
    { intros ->. destruct Hat as (_ & _ & Ht & _). cbn in Ht. specialize (HL Ht).
      rewrite app_nil_r in HL. exact HL. }
    pose proof (add_cur st ch cur e Hat) as HA.
    destruct (extend (concat ch ++ cur) e) as [E'|] eqn:EE.
    - apply extend_current in EE as (cur' & EC & -> & Hne); [|exact Hlive].
      rewrite EC in HA. destruct HA as (st' & HA & Hat' & Hs).
      exists st'. split; [exact HA|]. split.
      + apply holds_iff. exists ch, cur'. auto.
      + split; [exact Hs|]. destruct Hat' as (_ & _ & Ht & _). rewrite Ht.
        destruct cur'; [congruence|discriminate].
    - apply extend_current_none in EE as [EC _]; [|exact Hlive].
      rewrite EC in HA. exact HA.
  Qed.

  (* whatever is kept: success gives the extended trajectory *)
  Lemma add_sound st E e st' :
    holds PP m st E ->
    add_profile_point m st (e_time e) (e_mode e) (e_prog e) (e_step e)
                    (points_at m (e_pos e)) = Ok st' ->
    exists E', extend E e = Some E' /\ holds PP m st' E'.
  Proof.
    intros HH HO. apply holds_iff in HH as (ch & cur & -> & Hat).
    pose proof (add_cur st ch cur e Hat) as HA.
    destruct (extend cur e) as [cur'|] eqn:EC.
    - destruct HA as (s & HA & Hat' & _). rewrite HO in HA. injection HA as <-.
      exists (concat ch ++ cur'). split; [|apply holds_iff; exists ch, cur'; auto].
      unfold extend in *. destruct (Qle_bool (e_time e) 4).
      + injection EC as <-. rewrite <- app_assoc. reflexivity.
      + destruct cur as [|c cur]; [discriminate|].
        unfold last_entry in *. rewrite last_of_app by discriminate.
        destruct (last_of (c :: cur)); [|discriminate].
        injection EC as <-. rewrite <- app_assoc. reflexivity.
    - rewrite HO in HA. discriminate.
  Qed.

  Lemma amend_snoc E e mode prog f :
    amend (E ++ [e]) mode prog f = Some (E ++ [mkEntry (e_time e) mode prog (e_step e) f]).
  Proof. unfold amend. rewrite rev_app_distr. cbn. rewrite rev_involutive. reflexivity. Qed.

  Lemma fix_at st ch cur e mode prog f :
    holds_at st ch (cur ++ [e]) ->
    exists st', fix_last m st mode prog (points_at m f) = Ok st' /\
      holds_at st' ch (cur ++ [mkEntry (e_time e) mode prog (e_step e) f]) /\ same_rest st st'.
  Proof.
    intros (H1 & H2 & Ht & Hm & Hp & Ha & Hl).
    unfold fix_last. rewrite Ha, fix_axes_cols, Hm, Hp, !map_app. cbn [map].
    rewrite !set_last_snoc. eexists. split; [reflexivity|]. split; [|repeat split].
    unfold holds_at. cbn. rewrite Ht, Hl, !map_app. cbn [map e_time e_step].
    rewrite axis_columns_snoc. repeat split; auto.
  Qed.

  Lemma fix_sim st E mode prog f :
    holds PP m st E -> pf_time st <> [] ->
    exists st' E', amend E mode prog f = Some E' /\
      fix_last m st mode prog (points_at m f) = Ok st' /\ holds PP m st' E' /\
      same_rest st st' /\ pf_time st' <> [].
  Proof.
    intros HH Hne. apply holds_iff in HH as (ch & cur & -> & Hat).
    assert (Hc : cur <> []).
    { intros ->. destruct Hat as (_ & _ & Ht & _). cbn in Ht. congruence. }
    destruct (exists_last Hc) as (c & e & ->).
    destruct (fix_at st ch c e mode prog f Hat) as (st' & HF & Hat' & Hs).
    exists st', (concat ch ++ (c ++ [mkEntry (e_time e) mode prog (e_step e) f])).
    split. { rewrite app_assoc, amend_snoc, <- app_assoc. reflexivity. }
    split; [exact HF|]. split; [apply holds_iff; eauto|]. split; [exact Hs|].
    destruct Hat' as (_ & _ & Ht & _). rewrite Ht, map_app. destruct (map e_time c); discriminate.
  Qed.

  Lemma fix_sound st E mode prog f st' :
    holds PP m st E -> fix_last m st mode prog (points_at m f) = Ok st' ->
    exists E', amend E mode prog f = Some E' /\ holds PP m st' E'.
  Proof.
    intros HH HO.
    assert (Hne : pf_time st <> []).
    { intro Hz. destruct HH as (ch & cur & _ & _ & _ & Ht & Hm & _ & _ & _).
      rewrite Hz in Ht. destruct cur; [|discriminate].
      unfold fix_last in HO. rewrite Hm in HO. cbn in HO.
      destruct (fix_axes m (points_at m f) (pf_axes st)); discriminate. }
    destruct (fix_sim st E mode prog f HH Hne) as (s & E' & HA & HF & Hh & _).
    rewrite HO in HF. injection HF as <-. eauto.
  Qed.

  Lemma axis_columns_split k cur :
    axis_columns m (firstn k cur) =
    map (fun kl => (fst kl, firstn k (snd kl))) (axis_columns m cur) /\
    axis_columns m (skipn k cur) =
    map (fun kl => (fst kl, skipn k (snd kl))) (axis_columns m cur).
  Proof.
    unfold axis_columns. rewrite !map_map. cbn [fst snd].
    split; apply map_ext; intro na; f_equal; [symmetry; apply firstn_map|symmetry; apply skipn_map].
  Qed.

  Lemma write_sim st E : holds PP m st E -> holds PP m (write_profile_points PP st) E.
  Proof.
    intro HH. apply holds_iff in HH as (ch & cur & -> & H1 & H2 & Ht & Hm & Hp & Ha & Hl).
    apply holds_iff. exists (ch ++ [firstn PP cur]), (skipn PP cur).
    assert (HE : concat (ch ++ [firstn PP cur]) ++ skipn PP cur = concat ch ++ cur).
    { rewrite concat_app. cbn. rewrite app_nil_r, <- app_assoc, firstn_skipn. reflexivity. }
    split; [symmetry; exact HE|].
    unfold holds_at, write_profile_points. cbn. rewrite HE, Ht, Hm, Hp, Ha.
    destruct (axis_columns_split PP cur) as [A1 A2].
    repeat split.
    - apply Forall2_app; [exact H1|]. constructor; [|constructor].
      unfold block_of. cbn. rewrite A1, !firstn_map. repeat split.
    - apply Forall_app. split; [exact H2|]. constructor; [|constructor].
      rewrite firstn_length. lia.
    - apply skipn_map.
    - apply skipn_map.
    - apply skipn_map.
    - symmetry. exact A2.
    - exact Hl.
  Qed.

  Lemma holds_init : holds PP m (prof_init (map snd m)) [].
  Proof.
    exists [], []. cbn. repeat split; auto.
    unfold axis_columns. rewrite map_map. reflexivity.
  Qed.

  Lemma pop_run_sound os : forall st E st',
    holds PP m st E -> pop_run PP m st (map (request m) os) = Ok st' ->
    exists E', sop_run E os = Some E' /\ holds PP m st' E'.
  Proof.
    induction os as [|o os IH]; intros st E st' HH HR; cbn in HR.
    - injection HR as <-. exists E. auto.
    - destruct (pop_step PP m st (request m o)) as [st1|] eqn:E1; [|discriminate].
      assert (H1 : exists E1, sop_step E o = Some E1 /\ holds PP m st1 E1).
      { destruct o as [e|mode prog f|]; cbn in E1.
        - apply add_sound with (1 := HH) in E1. exact E1.
        - apply fix_sound with (1 := HH) in E1. exact E1.
        - injection E1 as <-. exists E. split; [reflexivity|]. apply write_sim, HH. }
      destruct H1 as (E1' & HS & HH1). cbn. rewrite HS. eapply IH; eauto.
  Qed.
End Sim.

(* ---------------- consequences ---------------- *)
Lemma axis_columns_fst m C : map fst (axis_columns m C) = map snd m.
Proof. unfold axis_columns. rewrite map_map. reflexivity. Qed.

Lemma axis_columns_len m C a l : In (a, l) (axis_columns m C) -> length l = length C.
Proof.
  unfold axis_columns. intro H. apply in_map_iff in H as (na & E & _).
  injection E as _ <-. apply map_length.
Qed.

Lemma ticks_of_length o ts : length (ticks_of o ts) = length ts.
Proof.
  revert o. induction ts; intro o; cbn; [reflexivity|].
  destruct (negb _); cbn; rewrite IHts; reflexivity.
Qed.

Lemma holds_aligned PP m st E :
  holds PP m st E -> aligned m st /\ Forall (block_aligned PP m) (pf_sent st) /\
  length (pf_lookup st) =
    length (pf_time st) + fold_right (fun b s => length (b_ticks b) + s) 0 (pf_sent st).
Proof.
  intros (ch & cur & -> & H1 & H2 & Ht & Hm & Hp & Ha & Hl). split.
  - unfold aligned. rewrite Ht, Hm, Hp, Ha, !map_length.
    repeat split; auto using axis_columns_fst.
    apply axis_columns_len.
  - split.
    + clear - H1 H2. induction H1 as [|b C bs ch HB _ IH]; [constructor|].
      inversion H2; subst. constructor; [|auto].
      destruct HB as (B1 & B2 & B3 & B4). unfold block_aligned.
      rewrite B1, B2, B3, B4, ticks_of_length, !map_length.
      repeat split; auto using axis_columns_fst. apply axis_columns_len.
    + rewrite Hl, Ht, map_length, app_length, map_length.
      assert (length (concat ch) = fold_right (fun b s => length (b_ticks b) + s) 0 (pf_sent st)).
      { clear - H1. induction H1 as [|b C bs ch HB _ IH]; [reflexivity|].
        cbn. rewrite app_length, IH. destruct HB as (B1 & _).
        rewrite B1, ticks_of_length, map_length. reflexivity. }
      lia.
Qed.

(* times and steps of the trajectory *)
Lemma qsum_app l1 l2 : (qsum (l1 ++ l2) == qsum l1 + qsum l2)%Q.
Proof. unfold qsum. induction l1; cbn; [ring|]. rewrite IHl1. ring. Qed.

Lemma qsum_repeat x n : (qsum (repeat x n) == inject_Z (Z.of_nat n) * x)%Q.
Proof.
  unfold qsum. induction n; [cbn; ring|]. cbn [repeat fold_right]. rewrite IHn.
  rewrite Nat2Z.inj_succ, <- Z.add_1_l, inject_Z_plus. ring.
Qed.

Lemma extend_time E e E' : extend E e = Some E' ->
  (qsum (map e_time E') == qsum (map e_time E) + e_time e)%Q.
Proof.
  unfold extend. destruct (Qle_bool (e_time e) 4); intro H.
  - injection H as <-. rewrite map_app, qsum_app. cbn. ring.
  - destruct (last_entry E); [|discriminate]. injection H as <-.
    rewrite map_app, qsum_app, cut_map_time, qsum_repeat.
    apply Qplus_inj_l. field. unfold pieces.
    intro C. unfold Qeq in C. cbn in C. lia.
Qed.

Lemma amend_shape E mode prog f E' : amend E mode prog f = Some E' ->
  map e_time E' = map e_time E /\ map e_step E' = map e_step E.
Proof.
  unfold amend. destruct (rev E) as [|e r] eqn:ER; [discriminate|].
  intro H. injection H as <-. rewrite <- (rev_involutive E), ER. cbn.
  rewrite !map_app. auto.
Qed.

Lemma sop_run_time os : forall E E', sop_run E os = Some E' ->
  (qsum (map e_time E') == qsum (map e_time E) + qsum (asked os))%Q.
Proof.
  induction os as [|o os IH]; intros E E' H; cbn in H.
  - injection H as <-. cbn. ring.
  - destruct (sop_step E o) as [E1|] eqn:E1E; [|discriminate].
    rewrite (IH _ _ H). destruct o as [e|mode prog f|]; cbn in E1E.
    + rewrite (extend_time _ _ _ E1E).
      assert (HQ : (qsum (asked (SAdd e :: os)) == e_time e + qsum (asked os))%Q) by reflexivity.
      rewrite HQ. ring.
    + destruct (amend_shape _ _ _ _ _ E1E) as [HT _]. rewrite HT. reflexivity.
    + injection E1E as <-. reflexivity.
Qed.

Lemma pieces_short t : (0 <= t)%Q -> (t / inject_Z (Z.of_nat (pieces t)) <= 4)%Q.
Proof.
  intro H. apply Qle_shift_div_r.
  - unfold pieces, Qlt. cbn. lia.
  - pose proof (Qlt_floor (t / 4)) as HF.
    assert (0 <= Qfloor (t / 4))%Z.
    { apply Qfloor_nonneg. apply Qle_shift_div_l; [reflexivity|]. lra. }
    assert (HE : inject_Z (Z.of_nat (pieces t)) = inject_Z (Qfloor (t / 4) + 1)).
    { unfold pieces. f_equal. lia. }
    rewrite HE.
    assert (HT : (t == 4 * (t / 4))%Q) by (field).
    rewrite HT at 1. apply Qmult_le_l; [reflexivity|]. lra.
Qed.

Lemma extend_short E e E' : extend E e = Some E' ->
  Forall (fun x => (e_time x <= 4)%Q) E -> Forall (fun x => (e_time x <= 4)%Q) E'.
Proof.
  unfold extend. destruct (Qle_bool (e_time e) 4) eqn:E4; intros H HF.
  - injection H as <-. apply Forall_app. split; [exact HF|]. constructor; [|constructor].
    apply Qle_bool_iff. exact E4.
  - destruct (last_entry E) as [p|]; [|discriminate]. injection H as <-.
    apply Forall_app. split; [exact HF|].
    assert (Hc : Forall (fun q => (q <= 4)%Q) (map e_time (cut p e))).
    { rewrite cut_map_time. apply Forall_forall. intros x Hx. apply repeat_spec in Hx. subst x.
      apply pieces_short. apply gt4_nonneg in E4. lra. }
    rewrite Forall_map in Hc. exact Hc.
Qed.

Lemma amend_short E mode prog f E' : amend E mode prog f = Some E' ->
  Forall (fun x => (e_time x <= 4)%Q) E -> Forall (fun x => (e_time x <= 4)%Q) E'.
Proof.
  intros H HF. apply amend_shape in H as [HT _].
  assert (G : forall l, Forall (fun x => (e_time x <= 4)%Q) l
                        <-> Forall (fun q => (q <= 4)%Q) (map e_time l)).
  { intro l. rewrite Forall_map. reflexivity. }
  apply G. rewrite HT. apply G. exact HF.
Qed.

Lemma sop_run_short os : forall E E', sop_run E os = Some E' ->
  Forall (fun x => (e_time x <= 4)%Q) E -> Forall (fun x => (e_time x <= 4)%Q) E'.
Proof.
  induction os as [|o os IH]; intros E E' H HF; cbn in H.
  - injection H as <-. exact HF.
  - destruct (sop_step E o) as [E1|] eqn:E1E; [|discriminate].
    eapply IH; [exact H|]. destruct o as [e|mode prog f|]; cbn in E1E.
    + eapply extend_short; eauto.
    + eapply amend_short; eauto.
    + injection E1E as <-. exact HF.
Qed.

(* steps *)
Lemma nondecreasing_app l1 l2 :
  nondecreasing (l1 ++ l2) <->
  nondecreasing l1 /\ nondecreasing l2 /\
  (forall x y r, last_of l1 = Some x -> l2 = y :: r -> (x <= y)%Z).
Proof.
  induction l1 as [|a l1 IH].
  - cbn. split.
    + intro H. split; [exact I|]. split; [exact H|]. intros x y r Hx. discriminate.
    + intros (_ & H & _). exact H.
  - cbn [app nondecreasing]. rewrite IH. destruct l1 as [|b l1]; cbn [app].
    + destruct l2 as [|c l2].
      * split; intros _; repeat split; intros; discriminate.
      * split.
        -- intros (H1 & _ & H2 & _). split; [split; exact I|]. split; [exact H2|].
           intros x y r Hx Hy. injection Hx as <-. injection Hy as <- _. exact H1.
        -- intros (_ & H2 & H3). split; [eapply H3; reflexivity|].
           split; [exact I|]. split; [exact H2|].
           intros x y r Hx. discriminate.
    + change (a :: b :: l1) with ([a] ++ (b :: l1)). rewrite last_of_app by discriminate. tauto.
Qed.

Lemma steps_extend E e E' : extend E e = Some E' ->
  exists k s, map e_step E' = map e_step E ++ repeat s k ++ [e_step e] /\
              (k = 0 \/ exists r, map e_step E = r ++ [s]).
Proof.
  unfold extend. destruct (Qle_bool (e_time e) 4); intro H.
  - injection H as <-. exists 0, 0%Z. rewrite map_app. auto.
  - destruct (last_entry E) as [p|] eqn:EL; [|discriminate]. injection H as <-.
    exists (pieces (e_time e) - 1), (e_step p). split.
    + rewrite map_app. f_equal. unfold cut. rewrite map_app, map_map. cbn [map e_step].
      rewrite map_const, seq_length. reflexivity.
    + right. unfold last_entry in EL. apply last_of_Some in EL as (r & ->).
      exists (map e_step r). rewrite map_app. reflexivity.
Qed.

Lemma nondecreasing_snoc l x : nondecreasing l ->
  (forall r s, l = r ++ [s] -> (s <= x)%Z) -> nondecreasing (l ++ [x]).
Proof.
  intros H1 H2. apply nondecreasing_app. split; [exact H1|]. split; [cbn; auto|].
  intros a y r Ha Hy. injection Hy as <- _. apply last_of_Some in Ha as (r' & ->). eauto.
Qed.

Lemma nondecreasing_repeat l s k : nondecreasing l -> (exists r, l = r ++ [s]) ->
  nondecreasing (l ++ repeat s k) /\ exists r, l ++ repeat s k = r ++ [s].
Proof.
  revert l. induction k as [|k IH]; intros l H (r & ->).
  - cbn. rewrite app_nil_r. eauto.
  - cbn [repeat].
    replace ((r ++ [s]) ++ s :: repeat s k) with (((r ++ [s]) ++ [s]) ++ repeat s k)
      by (rewrite <- !app_assoc; reflexivity).
    apply IH; [|eauto]. apply nondecreasing_snoc; [exact H|].
    intros r' s' E. apply app_inj_tail in E as [_ <-]. lia.
Qed.

Lemma sop_run_steps os : forall E E', sop_run E os = Some E' ->
  nondecreasing (map e_step E) -> nondecreasing (steps_asked os) ->
  (forall r s x rest, map e_step E = r ++ [s] -> steps_asked os = x :: rest -> (s <= x)%Z) ->
  nondecreasing (map e_step E').
Proof.
  induction os as [|o os IH]; intros E E' H HE HO HB; cbn in H.
  - injection H as <-. exact HE.
  - destruct (sop_step E o) as [E1|] eqn:E1E; [|discriminate].
    destruct o as [e|mode prog f|]; cbn in E1E.
    + cbn [steps_asked flat_map app] in HO, HB.
      change (flat_map _ os) with (steps_asked os) in HO, HB.
      assert (HO' : nondecreasing (steps_asked os)) by (cbn in HO; tauto).
      apply steps_extend in E1E as (k & s & Hst & Hk).
      assert (HX : nondecreasing (map e_step E1) /\
                   map e_step E1 = (map e_step E ++ repeat s k) ++ [e_step e]).
      { rewrite Hst, app_assoc. split; [|reflexivity].
        destruct Hk as [-> | Hk].
        - cbn. rewrite app_nil_r. apply nondecreasing_snoc; [exact HE|].
          intros r s0 Hr. eapply HB; [exact Hr|reflexivity].
        - destruct (nondecreasing_repeat _ s k HE Hk) as [Hn (r & Hr)].
          apply nondecreasing_snoc; [exact Hn|].
          intros r' s' Hr'. rewrite Hr in Hr'. apply app_inj_tail in Hr' as [_ <-].
          destruct Hk as (r2 & Hr2). eapply HB; [exact Hr2|reflexivity]. }
      destruct HX as [HX HX2].
      apply (IH E1 E' H HX HO').
      intros r s0 x rest Hr Hx. rewrite HX2 in Hr. apply app_inj_tail in Hr as [_ <-].
      rewrite Hx in HO. cbn in HO. tauto.
    + destruct (amend_shape _ _ _ _ _ E1E) as [_ HS].
      apply (IH E1 E' H); [rewrite HS; exact HE|exact HO|].
      rewrite HS. exact HB.
    + injection E1E as <-. eapply IH; eauto.
Qed.

(* ---------------- C30 ---------------- *)
Lemma floor_frac (q : Q) : (0 <= q - inject_Z (Qfloor q) < 1)%Q.
Proof.
  pose proof (Qfloor_le q). pose proof (Qlt_floor q) as H1.
  rewrite inject_Z_plus in H1. change (inject_Z 1) with 1%Q in H1. split; lra.
Qed.

Definition zsum (l : list Z) : Z := fold_right Z.add 0%Z l.

Lemma ticks_drift ts : forall o, (- (1 # 2) < o <= 1 # 2)%Q ->
  (- (1 # 2) <= qsum (map (fun t => t * TICKS_PER_S) ts) + o - inject_Z (zsum (ticks_of o ts))
   <= 1 # 2)%Q.
Proof.
  induction ts as [|t ts IH]; intros o Ho.
  - cbn. change (inject_Z 0) with 0%Q. unfold qsum. cbn. lra.
  - cbn [ticks_of map]. pose proof (floor_frac (t * TICKS_PER_S)) as HF.
    set (x := (t * TICKS_PER_S)%Q) in *.
    set (o1 := (o + (x - inject_Z (Qfloor x)))%Q).
    assert (HQ : forall l, (qsum (x :: l) == x + qsum l)%Q) by (intro; reflexivity).
    rewrite HQ. destruct (Qle_bool o1 (1 # 2)) eqn:E; cbn [negb].
    + apply Qle_bool_iff in E. cbn [zsum fold_right].
      change (fold_right Z.add 0%Z (ticks_of o1 ts)) with (zsum (ticks_of o1 ts)).
      rewrite inject_Z_plus.
      assert (Hr : (- (1 # 2) < o1 <= 1 # 2)%Q) by (split; [unfold o1; lra|exact E]).
      specialize (IH o1 Hr). assert (HE : (o1 == o + (x - inject_Z (Qfloor x)))%Q) by reflexivity.
      clearbody o1. lra.
    + assert (E' : (1 # 2 < o1)%Q).
      { apply Qnot_le_lt. intro C. apply Qle_bool_iff in C. congruence. }
      cbn [zsum fold_right].
      change (fold_right Z.add 0%Z (ticks_of (o1 - 1) ts)) with (zsum (ticks_of (o1 - 1) ts)).
      rewrite !inject_Z_plus. change (inject_Z 1) with 1%Q.
      assert (HE : (o1 == o + (x - inject_Z (Qfloor x)))%Q) by reflexivity.
      assert (Hr : (- (1 # 2) < o1 - 1 <= 1 # 2)%Q) by (clearbody o1; lra).
      specialize (IH (o1 - 1)%Q Hr). clearbody o1. lra.
Qed.

Lemma ticks_each ts : forall o, (- (1 # 2) < o <= 1 # 2)%Q ->
  Forall2 (fun t z => (Qabs (inject_Z z - t * TICKS_PER_S) < 1)%Q) ts (ticks_of o ts).
Proof.
  induction ts as [|t ts IH]; intros o Ho; cbn [ticks_of]; [constructor|].
  pose proof (floor_frac (t * TICKS_PER_S)) as HF.
  set (x := (t * TICKS_PER_S)%Q) in *.
  set (o1 := (o + (x - inject_Z (Qfloor x)))%Q).
  destruct (Qle_bool o1 (1 # 2)) eqn:E; cbn [negb].
  - apply Qle_bool_iff in E. constructor.
    + fold x. clearbody x. apply Qabs_Qlt_condition. lra.
    + apply IH. split; [|exact E]. unfold o1. clearbody x. lra.
  - assert (E' : (1 # 2 < o1)%Q).
    { apply Qnot_le_lt. intro C. apply Qle_bool_iff in C. congruence. }
    constructor.
    + fold x. unfold o1 in *. clearbody x. apply Qabs_Qlt_condition. rewrite inject_Z_plus.
      change (inject_Z 1) with 1%Q. lra.
    + apply IH. unfold o1 in *. clearbody x. lra.
Qed.

Lemma ticks_firstn k : forall o ts, firstn k (ticks_of o ts) = ticks_of o (firstn k ts).
Proof.
  induction k; intros o ts; [reflexivity|]. destruct ts as [|t ts]; [reflexivity|].
  cbn [ticks_of firstn]. destruct (negb _); cbn [firstn]; rewrite IHk; reflexivity.
Qed.

(* ---------------- C31 ---------------- *)
Lemma split_comma_spec s a b : split_comma s = Some (a, b) <->
  s = String.append a (String.append "," b) /\ no_comma a.
Proof.
  revert a b. induction s as [|c s IH]; intros a b; cbn.
  - split; [discriminate|]. intros [H _]. destruct a; discriminate.
  - destruct (Ascii.eqb_spec c ","%char) as [->|N].
    + split.
      * intro H. injection H as <- <-. cbn. auto.
      * intros [H Ha]. destruct a as [|x a]; cbn in H.
        -- injection H as ->. reflexivity.
        -- injection H as Hx _. cbn in Ha. destruct Ha as [Ha _]. congruence.
    + destruct (split_comma s) as [[x y]|] eqn:E.
      * split.
        -- intro H. injection H as <- <-. destruct (proj1 (IH x y) eq_refl) as [-> Hx].
           cbn. auto.
        -- intros [H Ha]. destruct a as [|x' a]; cbn in H.
           ++ injection H as -> _. congruence.
           ++ injection H as <- H. cbn in Ha.
              assert (Some (x, y) = Some (a, b)) as HH by (apply IH; tauto).
              injection HH as -> ->. reflexivity.
      * split; [discriminate|]. intros [H Ha]. destruct a as [|x' a]; cbn in H.
        -- injection H as -> _. congruence.
        -- injection H as <- H. cbn in Ha.
           assert (None = Some (a, b)) as HH by (apply IH; tauto). discriminate.
Qed.

Lemma has_dup_iff l : has_dup l = false <-> NoDup l.
Proof.
  induction l; cbn; [split; [constructor|reflexivity]|].
  rewrite orb_false_iff, IHl, smem_false. split.
  - intros []. constructor; auto.
  - inversion 1; auto.
Qed.

(* row (name, cs) is usable and says (port, ax) *)
Definition row_is (cs port ax : string) : Prop :=
  cs = String.append port (String.append "," ax) /\ no_comma port /\ In ax CS_AXIS_NAMES.

Lemma cs_parts_ok cs port ax :
  (cs_parts cs = Ok (port, ax) /\ smem ax CS_AXIS_NAMES = true) <-> row_is cs port ax.
Proof.
  unfold cs_parts, row_is. rewrite smem_In. destruct cs as [|c cs].
  - split.
    + intros [H Hin]. injection H as <- <-. exfalso. cbn in Hin.
      repeat destruct Hin as [Hin|Hin]; try discriminate. contradiction.
    + intros (H & _). destruct port; discriminate.
  - destruct (split_comma (String c cs)) as [[x y]|] eqn:E.
    + split.
      * intros [H Hin]. injection H as <- <-. apply split_comma_spec in E. tauto.
      * intros (H & Hn & Hin). split; [|exact Hin].
        assert (Some (x, y) = Some (port, ax)) as HH.
        { rewrite <- E. apply split_comma_spec. auto. }
        injection HH as -> ->. reflexivity.
    + split; [intros [H _]; discriminate|]. intros (H & Hn & Hin).
      assert (None = Some (port, ax)) as HH.
      { rewrite <- E. apply split_comma_spec. auto. }
      discriminate.
Qed.

Lemma map_rows_ok axes rows : forall ports m ports' m',
  map_rows axes rows ports m = Ok (ports', m') ->
  (forall a v, dget a m' = Some v ->
     dget a m = Some v \/
     exists cs, In (a, cs) rows /\ In a axes /\ row_is cs (fst v) (snd v)) /\
  (forall a v, dget a m = Some v -> dmem a m' = true) /\
  (forall a cs, In (a, cs) rows -> In a axes ->
     dmem a m' = true /\ exists port ax, row_is cs port ax /\ In port ports') /\
  (forall p, In p ports -> In p ports') /\
  (NoDup ports -> NoDup ports') /\
  (forall p, In p ports' -> In p ports \/
     exists a cs ax, In (a, cs) rows /\ In a axes /\ row_is cs p ax) /\
  (NoDup (dkeys m) -> NoDup (dkeys m')) /\
  (forall a, In a (dkeys m') -> In a (dkeys m) \/ In a axes).
Proof.
  induction rows as [|[a0 cs0] rows IH]; intros ports m ports' m' H; cbn [map_rows] in H.
  - injection H as <- <-.
    split; [|split; [|split; [|split; [|split; [|split; [|split]]]]]]; auto.
    + intros a v Hv. apply dmem_In. eapply dget_Some_key; eauto.
    + intros a cs [].
  - destruct (smem a0 axes) eqn:Ea.
    + apply smem_In in Ea.
      destruct (cs_parts cs0) as [[port ax]|] eqn:Ec; [|discriminate].
      destruct (smem ax CS_AXIS_NAMES) eqn:Ex; [|discriminate].
      assert (HR : row_is cs0 port ax) by (apply cs_parts_ok; auto).
      apply IH in H as (I1 & I2 & I3 & I4 & I5 & I6 & I7 & I8).
      assert (Hport : In port (if smem port ports then ports else ports ++ [port])).
      { destruct (smem port ports) eqn:Ep; [apply smem_In; exact Ep|].
        apply in_or_app. right. left. reflexivity. }
      assert (H0 : dmem a0 m' = true).
      { eapply I2. apply dget_dset_same. }
      split; [|split; [|split; [|split; [|split; [|split; [|split]]]]]].
      * intros a v Hv. destruct (I1 a v Hv) as [Hd | (cs & Hin & Hr)].
        -- destruct (string_dec a a0) as [->|N].
           ++ rewrite dget_dset_same in Hd. injection Hd as <-.
              right. exists cs0. split; [left; reflexivity|]. auto.
           ++ rewrite dget_dset_other in Hd by auto. left. exact Hd.
        -- right. exists cs. split; [right; exact Hin|exact Hr].
      * intros a v Hv. destruct (string_dec a a0) as [->|N]; [exact H0|].
        eapply (I2 a v). rewrite dget_dset_other by auto. exact Hv.
      * intros a cs [Heq|Hin] Hax.
        -- injection Heq as <- <-. split; [exact H0|]. exists port, ax. split; [exact HR|].
           apply I4. exact Hport.
        -- apply I3; auto.
      * intros p Hp. apply I4. destruct (smem port ports); [exact Hp|].
        apply in_or_app. left. exact Hp.
      * intro Hn. apply I5. destruct (smem port ports) eqn:Ep; [exact Hn|].
        apply smem_false in Ep. apply NoDup_rev in Hn.
        rewrite <- (rev_involutive (ports ++ [port])). apply NoDup_rev.
        rewrite rev_app_distr. cbn. constructor; [|exact Hn]. rewrite <- in_rev. exact Ep.
      * intros p Hp. destruct (I6 p Hp) as [Hp' | (a & cs & x & Hin & Hr)].
        -- destruct (smem port ports); [left; exact Hp'|].
           apply in_app_or in Hp' as [Hp' | [<- | []]]; [left; exact Hp'|].
           right. exists a0, cs0, ax. split; [left; reflexivity|]. auto.
        -- right. exists a, cs, x. split; [right; exact Hin|exact Hr].
      * intro Hn. apply I7. apply dset_nodup. exact Hn.
      * intros a Ha. destruct (I8 a Ha) as [Hd|Hd]; [|right; exact Hd].
        apply In_dkeys_dset in Hd as [-> | Hd]; auto.
    + apply smem_false in Ea.
      apply IH in H as (I1 & I2 & I3 & I4 & I5 & I6 & I7 & I8).
      split; [|split; [|split; [|split; [|split; [|split; [|split]]]]]]; auto.
      * intros a v Hv. destruct (I1 a v Hv) as [Hd | (cs & Hin & Hr)]; [left; exact Hd|].
        right. exists cs. split; [right; exact Hin|exact Hr].
      * intros a cs [Heq|Hin] Hax; [injection Heq as <- <-; contradiction|]. apply I3; auto.
      * intros p Hp. destruct (I6 p Hp) as [Hp' | (a & cs & x & Hin & Hr)]; [left; exact Hp'|].
        right. exists a, cs, x. split; [right; exact Hin|exact Hr].
Qed.

Lemma map_rows_total axes rows :
  (forall a cs, In (a, cs) rows -> In a axes -> exists port ax, row_is cs port ax) ->
  forall ports m, exists r, map_rows axes rows ports m = Ok r.
Proof.
  induction rows as [|[a0 cs0] rows IH]; intros H ports m; cbn [map_rows]; [eauto|].
  assert (H' : forall a cs, In (a, cs) rows -> In a axes -> exists port ax, row_is cs port ax).
  { intros a cs Hin. apply H. right. exact Hin. }
  destruct (smem a0 axes) eqn:Ea; [|apply IH; exact H'].
  apply smem_In in Ea. destruct (H a0 cs0) as (port & ax & HR); [left; reflexivity|exact Ea|].
  apply cs_parts_ok in HR as [-> ->]. apply IH. exact H'.
Qed.

Lemma row_is_inj cs p1 a1 p2 a2 : row_is cs p1 a1 -> row_is cs p2 a2 -> p1 = p2 /\ a1 = a2.
Proof.
  intros H1 H2. apply cs_parts_ok in H1 as [H1 _]. apply cs_parts_ok in H2 as [H2 _].
  rewrite H1 in H2. injection H2 as -> ->. auto.
Qed.

Lemma NoDup_fst_inj {A B} (l : list (A * B)) a b c :
  NoDup (map fst l) -> In (a, b) l -> In (a, c) l -> b = c.
Proof.
  induction l as [|[x y] l IH]; cbn; intros Hn H1 H2; [contradiction|].
  inversion Hn as [|? ? Hx Hn']; subst.
  destruct H1 as [H1|H1], H2 as [H2|H2].
  - congruence.
  - injection H1 as -> ->. exfalso. apply Hx. apply in_map_iff. exists (a, c). auto.
  - injection H2 as -> ->. exfalso. apply Hx. apply in_map_iff. exists (a, b). auto.
  - auto.
Qed.

Lemma mapping_sound rows axes m :
  cs_axis_mapping rows axes = Ok m ->
  exists port letter, one_cs rows axes port letter /\
    (forall a, In a (dkeys m) <-> In a axes) /\ NoDup (dkeys m) /\
    (forall a, In a axes -> dget a m = Some (port, letter a)).
Proof.
  unfold cs_axis_mapping. destruct (map_rows axes rows [] []) as [[ports m']|] eqn:E; [|discriminate].
  destruct (forallb (fun a => dmem a m') axes) eqn:Ef; cbn [negb]; [|discriminate].
  destruct (Nat.ltb 1 (length ports)) eqn:El; [discriminate|].
  destruct (has_dup _) eqn:Ed; [discriminate|]. intro H. injection H as ->.
  apply Nat.ltb_ge in El. apply has_dup_iff in Ed.
  rewrite forallb_forall in Ef.
  apply map_rows_ok in E as (I1 & I2 & I3 & I4 & I5 & I6 & I7 & I8).
  assert (Hnd : NoDup (dkeys m)) by (apply I7; constructor).
  assert (Hkeys : forall a, In a (dkeys m) <-> In a axes).
  { intro a. split.
    - intro Ha. destruct (I8 a Ha) as [[]|]; auto.
    - intro Ha. apply dmem_In. apply Ef. exact Ha. }
  assert (Hval : forall a v, dget a m = Some v ->
             exists cs, In (a, cs) rows /\ In a axes /\ row_is cs (fst v) (snd v)).
  { intros a v Hv. destruct (I1 a v Hv) as [Hd|Hd]; [discriminate|exact Hd]. }
  assert (Hport : forall a v, dget a m = Some v -> In (fst v) ports).
  { intros a v Hv. destruct (Hval a v Hv) as (cs & Hin & Hax & Hr).
    destruct (I3 a cs Hin Hax) as (_ & p & x & Hr' & Hp).
    destruct (row_is_inj _ _ _ _ _ Hr Hr') as [-> _]. exact Hp. }
  set (letter := fun a => match dget a m with Some v => snd v | None => ""%string end).
  set (port := match ports with p :: _ => p | [] => ""%string end).
  assert (Hget : forall a, In a axes -> dget a m = Some (port, letter a)).
  { intros a Ha. apply Hkeys in Ha. destruct (dget a m) as [[p x]|] eqn:Eg.
    - unfold letter. rewrite Eg. cbn. f_equal. f_equal.
      pose proof (Hport a (p, x) Eg) as Hp. cbn in Hp. unfold port.
      destruct ports as [|p0 [|p1 ports]]; cbn in Hp, El; [contradiction| |lia].
      destruct Hp as [Hp|[]]. congruence.
    - exfalso. apply dget_None_notin in Eg. contradiction. }
  exists port, letter. split; [|auto].
  split; [|split].
  - unfold port. destruct ports as [|p0 ports]; [exact I|].
    destruct (I6 p0) as [[] | (a & cs & x & _ & _ & Hr)]; [left; reflexivity|].
    unfold row_is in Hr. tauto.
  - intros a Ha. pose proof (Hget a Ha) as Hg.
    destruct (Hval _ _ Hg) as (cs & Hin & _ & Hr1 & Hr2 & Hr3). cbn in Hr1, Hr3.
    subst cs. split; [exact Hin|exact Hr3].
  - intros a b Ha Hb Hl. pose proof (Hget a Ha) as Ga. pose proof (Hget b Hb) as Gb.
    apply dget_Some_In in Ga. apply dget_Some_In in Gb.
    rewrite Hl in Ga. clear Hl. revert Ga Gb. generalize (letter b) as lb. generalize port as pt.
    clear - Ed. intros pt lb Ga Gb. induction m as [|[k v] m IH]; [contradiction|].
    cbn in Ed. inversion Ed as [|? ? Hx Hn]; subst.
    destruct Ga as [Ga|Ga], Gb as [Gb|Gb].
    + congruence.
    + injection Ga as <- ->. exfalso. apply Hx. apply in_map_iff.
      exists (b, (pt, lb)). auto.
    + injection Gb as <- ->. exfalso. apply Hx. apply in_map_iff.
      exists (a, (pt, lb)). auto.
    + auto.
Qed.

Lemma NoDup_map_on {A B} (f : A -> B) l :
  NoDup l -> (forall x y, In x l -> In y l -> f x = f y -> x = y) -> NoDup (map f l).
Proof.
  induction 1 as [|x l Hx Hn IH]; intro Hf; cbn; constructor.
  - intro Hin. apply in_map_iff in Hin as (y & Hy & Hyl).
    assert (y = x) by (apply Hf; [right; exact Hyl|left; reflexivity|exact Hy]).
    subst. contradiction.
  - apply IH. intros a b Ha Hb. apply Hf; right; assumption.
Qed.

Lemma mapping_complete rows axes port letter :
  NoDup (map fst rows) -> one_cs rows axes port letter ->
  exists m, cs_axis_mapping rows axes = Ok m.
Proof.
  intros Hn (Hp & Hrows & Hinj).
  assert (Hrow : forall a cs, In (a, cs) rows -> In a axes -> row_is cs port (letter a)).
  { intros a cs Hin Ha. destruct (Hrows a Ha) as [Hin' Hl].
    rewrite (NoDup_fst_inj _ _ _ _ Hn Hin Hin'). repeat split; auto. }
  destruct (map_rows_total axes rows) with (ports := @nil string) (m := @nil (string * (string * string)))
    as [[ports m] E].
  { intros a cs Hin Ha. exists port, (letter a). auto. }
  unfold cs_axis_mapping. rewrite E.
  apply map_rows_ok in E as (I1 & I2 & I3 & I4 & I5 & I6 & I7 & I8).
  assert (Ef : forallb (fun a => dmem a m) axes = true).
  { apply forallb_forall. intros a Ha. destruct (Hrows a Ha) as [Hin _].
    apply (I3 a _ Hin Ha). }
  rewrite Ef. cbn [negb].
  assert (Hports : forall p, In p ports -> p = port).
  { intros p Hpp. destruct (I6 p Hpp) as [[] | (a & cs & x & Hin & Ha & Hr)].
    apply (row_is_inj _ _ _ _ _ Hr (Hrow a cs Hin Ha)). }
  assert (El : Nat.ltb 1 (length ports) = false).
  { apply Nat.ltb_ge. assert (Hnp : NoDup ports) by (apply I5; constructor).
    destruct ports as [|p [|q ports]]; cbn; try lia. exfalso.
    inversion Hnp as [|? ? Hx _]. apply Hx. left.
    rewrite (Hports p), (Hports q); auto; cbn; auto. }
  rewrite El.
  assert (Ed : has_dup (map (fun kv : string * (string * string) => snd (snd kv)) m) = false).
  { apply has_dup_iff.
    assert (Hnd : NoDup (dkeys m)) by (apply I7; constructor).
    assert (Hv : forall k v, In (k, v) m -> In k axes /\ snd v = letter k).
    { intros k v Hin. assert (Hg : dget k m = Some v) by (apply dget_In_nodup; auto).
      destruct (I1 k v Hg) as [Hd | (cs & Hin' & Ha & Hr)]; [discriminate|].
      split; [exact Ha|]. apply (row_is_inj _ _ _ _ _ Hr (Hrow k cs Hin' Ha)). }
    apply NoDup_map_on.
    - clear - Hnd. unfold dkeys in Hnd. apply NoDup_map_inv in Hnd. exact Hnd.
    - intros [k v] [k' v'] H1 H2 Heq. cbn in Heq.
      destruct (Hv k v H1) as [A1 L1]. destruct (Hv k' v' H2) as [A2 L2].
      assert (k = k') by (apply Hinj; auto; congruence). subst k'.
      f_equal. apply (NoDup_fst_inj m k); auto. }
  rewrite Ed. eauto.
Qed.
