From Coq Require Import String Bool ZArith QArith Lia List Permutation.
From Verif Require Import Base Expo_Model Dval_Model Dval_Spec.
Import ListNotations.
Local Open Scope nat_scope.
Local Open Scope list_scope.

Lemma has_rowb p t : existsb (fun x => String.eqb (r_name x) (p_name p)) t = true <-> has_row p t.
Proof.
  rewrite existsb_exists. split.
  - intros (x & I & E). apply String.eqb_eq in E. exists x; auto.
  - intros (x & I & E). exists x. split; [exact I|]. apply String.eqb_eq, E.
Qed.
Lemma has_rowb_false p t : existsb (fun x => String.eqb (r_name x) (p_name p)) t = false <-> ~ has_row p t.
Proof.
  rewrite <- has_rowb. destruct (existsb _ t); intuition congruence.
Qed.

Lemma args_none p g ax t : ~ has_row p t -> configure_args p g ax t = Ok None.
Proof.
  induction t as [|x t IH]; intros H; cbn; [reflexivity|].
  destruct (String.eqb (r_name x) (p_name p)) eqn:E.
  - apply String.eqb_eq in E. destruct H. exists x. split; [left; reflexivity|exact E].
  - cbn. apply IH. intros (y & I & Y). apply H. exists y. split; [right; exact I|exact Y].
Qed.

Lemma args_one p g ax t r : NoDup (map r_name t) -> In r t -> r_name r = p_name p ->
  configure_args p g ax t = configure_args p g ax [r].
Proof.
  induction t as [|x t IH]; intros N I E; [destruct I|].
  inversion N as [|? ? NI N']; subst. destruct I as [->|I].
  - cbn [configure_args]. destruct (String.eqb (r_name r) (p_name p) && r_enable r) eqn:B; [reflexivity|].
    rewrite (args_none p g ax t); [reflexivity|]. intros (y & Iy & Ey). apply NI.
    rewrite E, <- Ey. apply in_map, Iy.
  - cbn [configure_args]. destruct (String.eqb (r_name x) (p_name p)) eqn:B.
    + apply String.eqb_eq in B. destruct NI. rewrite B, <- E. apply in_map, I.
    + cbn [andb]. rewrite (IH N' I E). reflexivity.
Qed.

(* The table that a part with the row r in it asks for. *)
Definition lift (p : dpart) (t : list drow) (w : tweak) : tweak :=
  match w with TDet [r] => TDet (new_table p r t) | x => x end.

Lemma new_one p r r' : r_name r = p_name p -> new_table p r' [r] = [r'].
Proof.
  intros E. unfold new_table. cbn. apply String.eqb_eq in E. rewrite E. reflexivity.
Qed.

Lemma validate_one p g ax t r : NoDup (map r_name t) -> In r t -> r_name r = p_name p ->
  on_validate p g ax t = match on_validate p g ax [r] with Ok ts => Ok (map (lift p t) ts) | Err m => Err m end.
Proof.
  intros N I E.
  assert (B1 : existsb (fun x => String.eqb (r_name x) (p_name p)) t = true) by (apply has_rowb; exists r; auto).
  assert (B2 : existsb (fun x => String.eqb (r_name x) (p_name p)) [r] = true)
    by (apply has_rowb; exists r; split; [left; reflexivity|exact E]).
  unfold on_validate. rewrite (args_one p g ax t r N I E), B1, B2. cbn [negb].
  destruct (configure_args p g ax [r]) as [[[[[f cg] cax] e]|]|m]; [|reflexivity|reflexivity].
  destruct (p_faulty p); [reflexivity|].
  destruct (match e with Some _ => true | None => false end && negb (p_multi p) && negb (c_expo (p_child p))); [reflexivity|].
  destruct (settle_frames p (g_dur g) cg cax e f) as [n|m]; [|reflexivity].
  destruct ((1 <? n)%Z && negb (p_multi p)); [reflexivity|].
  destruct (do_validate (p_child p) cg cax e (if c_frames (p_child p) then Some n else None)) as [[rg re]|m]; [|reflexivity].
  rewrite (new_one p r _ E). f_equal. rewrite map_app. f_equal.
  - destruct rg; reflexivity.
  - destruct (_ || _ || _); reflexivity.
Qed.

Lemma validate_none p g ax t : ~ has_row p t ->
  on_validate p g ax t = Ok [TDet (t ++ [mkRow false (p_name p) (p_mri p) 0 0])].
Proof.
  intros H. unfold on_validate. rewrite (args_none p g ax t H). unfold new_table.
  rewrite (proj2 (has_rowb_false p t) H). cbn [negb]. do 4 f_equal.
  rewrite <- (map_id t) at 2. apply map_ext_in. intros x I.
  destruct (String.eqb (r_name x) (p_name p)) eqn:B; [|reflexivity].
  apply String.eqb_eq in B. destruct H. exists x; auto.
Qed.

Lemma validate_name p g ax t t' : on_validate p g ax t = Ok [TDet t'] ->
  exists r, t' = new_table p r t /\ r_name r = p_name p.
Proof.
  unfold on_validate. destruct (configure_args p g ax t) as [[[[[f cg] cax] e]|]|m]; [| |discriminate].
  - destruct (p_faulty p); [discriminate|].
    destruct (match e with Some _ => true | None => false end && negb (p_multi p) && negb (c_expo (p_child p))); [discriminate|].
    destruct (settle_frames p (g_dur g) cg cax e f) as [n|m]; [|discriminate].
    destruct ((1 <? n)%Z && negb (p_multi p)); [discriminate|].
    destruct (do_validate (p_child p) cg cax e (if c_frames (p_child p) then Some n else None)) as [[rg re]|m]; [|discriminate].
    destruct rg; cbn [app].
    + destruct (_ || _ || _); discriminate.
    + destruct (_ || _ || _); [|discriminate]. intros E. injection E as <-. eexists. split; [reflexivity|reflexivity].
  - destruct (negb _); [|discriminate]. intros E. injection E as <-. eexists. split; [reflexivity|reflexivity].
Qed.

Lemma off_quiet p g ax r : r_name r = p_name p -> r_enable r = false -> on_validate p g ax [r] = Ok [].
Proof.
  intros E F. unfold on_validate. cbn [configure_args existsb]. apply String.eqb_eq in E. rewrite E, F. reflexivity.
Qed.

Section run.
  Variables (ps : list dpart) (g : cgen) (ax : list string).
  Hypothesis names : NoDup (map p_name ps).

  (* What holds of the table all the time. *)
  Definition inv (t : list drow) : Prop :=
    NoDup (map r_name t) /\ forall p r, In p ps -> In r t -> r_name r = p_name p -> exists r', steady p g ax r r'.

  Lemma find_row t r p : NoDup (map r_name t) -> In r t -> r_name r = p_name p ->
    find (fun r => String.eqb (r_name r) (p_name p)) t = Some r.
  Proof.
    induction t as [|x t IH]; intros N I E; [destruct I|]. inversion N as [|? ? NI N']; subst. cbn.
    destruct I as [->|I].
    - apply String.eqb_eq in E. rewrite E. reflexivity.
    - destruct (String.eqb (r_name x) (p_name p)) eqn:B; [|exact (IH N' I E)].
      apply String.eqb_eq in B. destruct NI. rewrite B, <- E. apply in_map, I.
  Qed.
  Lemma find_no_row t p : ~ has_row p t -> find (fun r => String.eqb (r_name r) (p_name p)) t = None.
  Proof.
    intros H. destruct (find _ t) as [r|] eqn:F; [|reflexivity]. apply find_some in F as [I E].
    apply String.eqb_eq in E. destruct H. exists r; auto.
  Qed.
  Lemma has_row_dec p t : has_row p t \/ ~ has_row p t.
  Proof.
    destruct (existsb (fun x => String.eqb (r_name x) (p_name p)) t) eqn:B; [left; apply has_rowb, B|right; apply has_rowb_false, B].
  Qed.

  (* The table that p asks for in t. *)
  Definition wants (p : dpart) (t t' : list drow) : Prop :=
    (exists r r', In r t /\ r_name r = p_name p /\ on_validate p g ax [r] = Ok [TDet [r']] /\ t' = new_table p r' t)
    \/ (~ has_row p t /\ t' = t ++ [mkRow false (p_name p) (p_mri p) 0 0]).

  Lemma part_says t p : inv t -> In p ps ->
    (content p g ax t = true /\ on_validate p g ax t = Ok [])
    \/ (content p g ax t = false /\ exists t', on_validate p g ax t = Ok [TDet t'] /\ wants p t t').
  Proof.
    intros [N S] I. destruct (has_row_dec p t) as [(r & Ir & E)|H].
    - unfold content. rewrite (find_row t r p N Ir E), (validate_one p g ax t r N Ir E).
      destruct (S p r I Ir E) as (r' & [[-> Q]|Q] & _); rewrite Q.
      + left. auto.
      + right. split; [reflexivity|]. exists (new_table p r' t). split; [reflexivity|]. left. exists r, r'. auto.
    - right. unfold content. rewrite (find_no_row t p H), (validate_none p g ax t H). split; [reflexivity|].
      eexists. split; [reflexivity|]. right. auto.
  Qed.

  Lemma hooks_says t l : inv t -> incl l ps -> exists ts,
    hooks l ax (mkParams g t) = Ok (map TDet ts) /\ length ts = askers l g ax t
    /\ forall t', In t' ts -> exists p, In p l /\ content p g ax t = false /\ wants p t t'.
  Proof.
    intros V. induction l as [|p l IH]; intros L.
    - exists []. split; [reflexivity|]. split; [reflexivity|]. intros t' [].
    - destruct IH as (ts & H & Hl & Hw); [intros x X; apply L; right; exact X|].
      cbn [hooks d_gen d_table]. rewrite H. unfold askers in *. cbn [filter].
      destruct (part_says t p V (L p (or_introl eq_refl))) as [[C E]|(C & t1 & E & W)]; rewrite E, C; cbn [negb].
      + exists ts. split; [reflexivity|]. split; [exact Hl|]. intros t' I. destruct (Hw t' I) as (q & Q & R).
        exists q. split; [right; exact Q|exact R].
      + exists (t1 :: ts). split; [reflexivity|]. split; [cbn; rewrite Hl; reflexivity|].
        intros t' [<-|I]; [exists p; split; [left; reflexivity|split; [exact C|exact W]]|].
        destruct (Hw t' I) as (q & Q & R). exists q. split; [right; exact Q|exact R].
  Qed.

  Lemma map_TDet_perm ts us : Permutation (map TDet ts) us -> exists l, us = map TDet l /\ Permutation ts l.
  Proof.
    intros P. apply Permutation_sym, Permutation_map_inv in P as (l & -> & Q). exists l. auto.
  Qed.
  Lemma apply_last ts t : ts <> [] -> exists t', In t' ts /\ apply_tweaks (map TDet ts) (mkParams g t) = mkParams g t'.
  Proof.
    intros H. unfold apply_tweaks.
    replace (gen_tweaks (map TDet ts)) with (@nil cgen).
    2:{ clear H. induction ts as [|x r IH]; [reflexivity|]. cbn. exact IH. }
    revert t. induction ts as [|x r IH]; intros t; [destruct H; reflexivity|]. cbn [map fold_left d_gen].
    destruct r as [|y r].
    - exists x. split; [left; reflexivity|reflexivity].
    - destruct (IH ltac:(discriminate) x) as (t' & I & E). exists t'. split; [right; exact I|exact E].
  Qed.

  Lemma same_part p q : In p ps -> In q ps -> p_name p = p_name q -> p = q.
  Proof.
    clear - names. induction ps as [|x l IH]; intros I J E; [destruct I|].
    inversion names as [|? ? NI N']; subst. destruct I as [->|I], J as [->|J].
    - reflexivity.
    - destruct NI. rewrite E. apply in_map, J.
    - destruct NI. rewrite <- E. apply in_map, I.
    - apply IH; auto.
  Qed.

  Lemma new_names p r t : has_row p t -> r_name r = p_name p -> map r_name (new_table p r t) = map r_name t.
  Proof.
    intros H E. unfold new_table. rewrite (proj2 (has_rowb p t) H), map_map. apply map_ext. intros x.
    destruct (String.eqb (r_name x) (p_name p)) eqn:B; [|reflexivity]. apply String.eqb_eq in B. congruence.
  Qed.
  Lemma new_in p r t x : has_row p t -> In x (new_table p r t) <-> (x = r \/ In x t /\ r_name x <> p_name p).
  Proof.
    intros H. unfold new_table. rewrite (proj2 (has_rowb p t) H), in_map_iff. split.
    - intros (y & E & I). destruct (String.eqb (r_name y) (p_name p)) eqn:B; [left; congruence|].
      subst y. right. split; [exact I|]. apply String.eqb_neq, B.
    - intros [->|[I B]].
      + destruct H as (y & I & E). exists y. apply String.eqb_eq in E. rewrite E. auto.
      + exists x. apply String.eqb_neq in B. rewrite B. auto.
  Qed.

  (* What one tweak of the table does. *)
  Lemma wants_step t p t' : inv t -> In p ps -> wants p t t' ->
    inv t' /\ content p g ax t' = true /\ (forall q, In q ps -> q <> p -> content q g ax t' = content q g ax t).
  Proof.
    intros [N S] Ip [(r & r' & I & E & V & ->)|[H ->]].
    - assert (HR : has_row p t) by (exists r; auto).
      destruct (validate_name _ _ _ _ _ V) as (r1 & R1 & R2). rewrite (new_one p r r1 E) in R1. injection R1 as ->.
      assert (St : on_validate p g ax [r1] = Ok []).
      { destruct (S p r Ip I E) as (r2 & [[-> Q]|Q] & R); rewrite V in Q; [discriminate|]. injection Q as <-. exact R. }
      pose proof (new_names p r1 t HR R2) as NN.
      assert (N1 : NoDup (map r_name (new_table p r1 t))) by (rewrite NN; exact N).
      split; [split; [exact N1|]|split].
      + intros q x Iq Ix Ex. apply (new_in p r1 t x HR) in Ix as [->|[Ix Nx]].
        * assert (q = p) as -> by (apply same_part; auto; congruence). exists r1. split; [left; auto|exact St].
        * exact (S q x Iq Ix Ex).
      + unfold content. rewrite (find_row _ r1 p N1); [|apply (new_in p r1 t r1 HR); auto|exact R2]. rewrite St. reflexivity.
      + intros q Iq D.
        assert (Dn : p_name q <> p_name p) by (intros Z; apply D, same_part; auto).
        unfold content. destruct (has_row_dec q t) as [(x & Ix & Ex)|Hq].
        * rewrite (find_row t x q N Ix Ex). rewrite (find_row _ x q N1); [reflexivity| |exact Ex].
          apply (new_in p r1 t x HR). right. split; [exact Ix|congruence].
        * rewrite (find_no_row t q Hq). rewrite find_no_row; [reflexivity|]. intros (x & Ix & Ex).
          apply (new_in p r1 t x HR) in Ix as [->|[Ix Nx]]; [congruence|]. apply Hq. exists x; auto.
    - set (r1 := mkRow false (p_name p) (p_mri p) 0 0).
      assert (St : on_validate p g ax [r1] = Ok []) by (apply off_quiet; reflexivity).
      assert (N1 : NoDup (map r_name (t ++ [r1]))).
      { rewrite map_app. cbn [map]. apply (Permutation_NoDup (Permutation_cons_append _ _)).
        constructor; [|exact N]. cbn. intros Z. apply in_map_iff in Z as (x & Ex & Ix). apply H. exists x; auto. }
      split; [split; [exact N1|]|split].
      + intros q x Iq Ix Ex. apply in_app_iff in Ix as [Ix|[<-|[]]]; [exact (S q x Iq Ix Ex)|].
        assert (q = p) as -> by (apply same_part; auto; symmetry; exact Ex). exists r1. split; [left; auto|exact St].
      + unfold content. rewrite (find_row _ r1 p N1); [|apply in_app_iff; right; left; reflexivity|reflexivity].
        rewrite St. reflexivity.
      + intros q Iq D.
        assert (Dn : p_name q <> p_name p) by (intros Z; apply D, same_part; auto).
        unfold content. destruct (has_row_dec q t) as [(x & Ix & Ex)|Hq].
        * rewrite (find_row t x q N Ix Ex). rewrite (find_row _ x q N1); [reflexivity| |exact Ex].
          apply in_app_iff; left; exact Ix.
        * rewrite (find_no_row t q Hq). rewrite find_no_row; [reflexivity|]. intros (x & Ix & Ex).
          apply in_app_iff in Ix as [Ix|[<-|[]]]; [|cbn in Ex; congruence]. apply Hq. exists x; auto.
  Qed.

  Lemma askers_step t p t' : inv t -> In p ps -> content p g ax t = false -> wants p t t' ->
    askers ps g ax t = S (askers ps g ax t').
  Proof.
    intros V I C W. destruct (wants_step t p t' V I W) as (_ & C1 & O). clear V W.
    unfold askers. clear - names I C C1 O. induction ps as [|x l IH]; [destruct I|].
    inversion names as [|? ? NI N']; subst. destruct I as [->|I].
    - cbn [filter]. rewrite C, C1. cbn [negb length]. f_equal. f_equal. apply filter_ext_in. intros q Iq.
      rewrite (O q (or_intror Iq)); [reflexivity|]. intros ->. destruct NI. apply in_map, Iq.
    - cbn [filter]. rewrite (O x (or_introl eq_refl)).
      2:{ intros ->. destruct NI. apply in_map, I. }
      pose proof (IH N' I (fun q Q => O q (or_intror Q))) as Z.
      destruct (negb (content x g ax t)); cbn [length]; rewrite Z; reflexivity.
  Qed.

  Lemma settled_refl t : inv t -> askers ps g ax t = 0 -> settled ps g ax t t.
  Proof.
    intros [N S] A.
    assert (Q : forall p, In p ps -> content p g ax t = true).
    { intros p I. destruct (content p g ax t) eqn:C; [reflexivity|]. unfold askers in A.
      apply length_zero_iff_nil in A.
      assert (In p (filter (fun p => negb (content p g ax t)) ps)) as Z by (apply filter_In; rewrite C; auto).
      rewrite A in Z. destruct Z. }
    assert (HR : forall p, In p ps -> has_row p t).
    { intros p I. specialize (Q p I). unfold content in Q. destruct (find _ t) as [r|] eqn:F; [|discriminate].
      apply find_some in F as [Ir E]. apply String.eqb_eq in E. exists r; auto. }
    exists t, []. split; [rewrite app_nil_r; reflexivity|]. split; [|split; [|constructor]].
    - assert (G : forall l, incl l t -> Forall2 (fun r r' => (forall p, In p ps -> p_name p = r_name r -> steady p g ax r r')
                            /\ ((forall p, In p ps -> p_name p <> r_name r) -> r' = r)) l l).
      { induction l as [|x l IH]; intros L; constructor; [|apply IH; intros y Y; apply L; right; exact Y].
        split; [|auto]. intros p I E. assert (Ix : In x t) by (apply L; left; reflexivity).
        specialize (Q p I). unfold content in Q. rewrite (find_row t x p N Ix (eq_sym E)) in Q.
        assert (Z : on_validate p g ax [x] = Ok []) by (destruct (on_validate p g ax [x]) as [[|]|]; congruence).
        split; [left; auto|exact Z]. }
      apply G. intros y Y; exact Y.
    - intros r. split; [intros []|]. intros (p & I & Z & _). destruct Z. exact (HR p I).
  Qed.

  Lemma settled_step t p t' u : inv t -> In p ps -> wants p t t' -> settled ps g ax t' u -> settled ps g ax t u.
  Proof.
    intros V Ip W (rows & added & -> & F & A & ND). pose proof V as [N S]. destruct W as [(r & r1 & I & E & Vr & ->)|[H ->]].
    - assert (HR : has_row p t) by (exists r; auto).
      destruct (validate_name _ _ _ _ _ Vr) as (r2 & R1 & R2). rewrite (new_one p r r2 E) in R1. injection R1 as ->.
      assert (St : on_validate p g ax [r2] = Ok []).
      { destruct (S p r Ip I E) as (r3 & [[-> Q]|Q] & R); rewrite Vr in Q; [discriminate|]. injection Q as <-. exact R. }
      exists rows, added. split; [reflexivity|]. split; [|split; [|exact ND]].
      + unfold new_table in F. rewrite (proj2 (has_rowb p t) HR) in F.
        assert (G : forall l l', incl l t -> Forall2 (fun r r' => (forall p, In p ps -> p_name p = r_name r -> steady p g ax r r')
                            /\ ((forall p, In p ps -> p_name p <> r_name r) -> r' = r))
                   (map (fun x => if String.eqb (r_name x) (p_name p) then r2 else x) l) l' ->
                   Forall2 (fun r r' => (forall p, In p ps -> p_name p = r_name r -> steady p g ax r r')
                            /\ ((forall p, In p ps -> p_name p <> r_name r) -> r' = r)) l l').
        { induction l as [|x l IH]; intros l' L F2; cbn [map] in F2; inversion F2 as [|? y ? l2 [P1 P2] F3]; subst; constructor.
          - destruct (String.eqb (r_name x) (p_name p)) eqn:B; [|split; [exact P1|exact P2]].
            apply String.eqb_eq in B.
            assert (x = r) as ->.
            { assert (Ix : In x t) by (apply L; left; reflexivity).
              pose proof (find_row t x p N Ix B) as Q1. rewrite (find_row t r p N I E) in Q1. congruence. }
            destruct (P1 p Ip (eq_sym R2)) as [[[-> _]|Q] Q2]; [|rewrite St in Q; discriminate].
            split.
            + intros q Iq Eq. assert (q = p) as -> by (apply same_part; auto; congruence).
              split; [right; exact Vr|exact St].
            + intros Z. exfalso. exact (Z p Ip (eq_sym B)).
          - apply IH; [intros z Z; apply L; right; exact Z|exact F3]. }
        apply (G t rows); [intros z Z; exact Z|exact F].
      + intros x. rewrite A. split; intros (q & Iq & Nq & ->); exists q; (split; [exact Iq|split; [|reflexivity]]).
        * intros (y & Iy & Ey). apply Nq. destruct (String.eqb (p_name q) (p_name p)) eqn:B.
          -- apply String.eqb_eq in B. exists r2. split; [apply (new_in p r2 t r2 HR); auto|congruence].
          -- apply String.eqb_neq in B. exists y. split; [apply (new_in p r2 t y HR); right; split; [exact Iy|congruence]|exact Ey].
        * intros (y & Iy & Ey). apply (new_in p r2 t y HR) in Iy as [->|[Iy Ny]].
          -- apply Nq. exists r. split; [exact I|congruence].
          -- apply Nq. exists y; auto.
    - set (x := mkRow false (p_name p) (p_mri p) 0 0) in *.
      assert (St : on_validate p g ax [x] = Ok []) by (apply off_quiet; reflexivity).
      apply Forall2_app_inv_l in F as (rows1 & xs & F1 & F2 & ->).
      inversion F2 as [|? x' ? xs' [P1 _] F3]; subst. inversion F3; subst.
      assert (x' = x) as ->.
      { destruct (P1 p Ip eq_refl) as [[[-> _]|Q] _]; [reflexivity|]. rewrite St in Q. discriminate. }
      exists rows1, (x :: added). split; [rewrite <- app_assoc; reflexivity|]. split; [exact F1|]. split.
      + intros y. cbn [In]. rewrite A. split.
        * intros [<-|(q & Iq & Nq & ->)]; [exists p; auto|]. exists q. split; [exact Iq|]. split; [|reflexivity].
          intros (z & Iz & Ez). apply Nq. exists z. split; [apply in_app_iff; auto|exact Ez].
        * intros (q & Iq & Nq & ->). destruct (String.eqb (p_name q) (p_name p)) eqn:B.
          -- apply String.eqb_eq in B. assert (q = p) as -> by (apply same_part; auto). left. reflexivity.
          -- apply String.eqb_neq in B. right. exists q. split; [exact Iq|]. split; [|reflexivity].
             intros (z & Iz & Ez). apply in_app_iff in Iz as [Iz|[<-|[]]]; [apply Nq; exists z; auto|].
             cbn in Ez. congruence.
      + constructor; [|exact ND]. intros Z. apply A in Z as (q & Iq & Nq & Eq). apply Nq. exists x.
        split; [apply in_app_iff; right; left; reflexivity|]. rewrite Eq. reflexivity.
  Qed.

  Lemma validates_ends n t o : inv t -> validates ps ax n (mkParams g t) o ->
    (askers ps g ax t < n -> exists u, o = Settled (mkParams g u) /\ settled ps g ax t u)
    /\ (n <= askers ps g ax t -> o = NotConsistent).
  Proof.
    revert t. induction n as [|n IH]; intros t V H.
    - inversion H; subst. split; [lia|auto].
    - destruct (hooks_says t ps V (fun x X => X)) as (ts & Hh & Hl & Hw).
      inversion H as [|? ? m Em|? ? Ed|? ? a us ? Ea Pa Na Hv]; subst.
      + rewrite Hh in Em. discriminate.
      + rewrite Hh in Ed. injection Ed as Ed. apply map_eq_nil in Ed. subst ts. cbn in Hl. split; [|lia].
        intros _. exists t. split; [reflexivity|]. apply settled_refl; [exact V|congruence].
      + rewrite Hh in Ea. injection Ea as <-. apply map_TDet_perm in Pa as (l & -> & Pl).
        destruct (apply_last l t) as (t' & It & Et); [intros ->; apply Na; reflexivity|].
        rewrite Et in Hv. apply (Permutation_in t' (Permutation_sym Pl)) in It.
        destruct (Hw t' It) as (p & Ip & C & W). pose proof (askers_step t p t' V Ip C W) as AS.
        destruct (wants_step t p t' V Ip W) as (V' & _ & _).
        destruct (IH t' V' Hv) as [I1 I2]. split.
        * intros L. destruct I1 as (u & -> & Su); [lia|]. exists u. split; [reflexivity|].
          exact (settled_step t p t' u V Ip W Su).
        * intros L. apply I2. lia.
  Qed.

  (* It does end: in each round some order of the answers. *)
  Lemma validates_some n t : inv t -> exists o, validates ps ax n (mkParams g t) o.
  Proof.
    revert t. induction n as [|n IH]; intros t V; [eexists; constructor|].
    destruct (hooks_says t ps V (fun x X => X)) as (ts & Hh & Hl & Hw). destruct ts as [|t0 r].
    - eexists. apply V_done. exact Hh.
    - destruct (apply_last (t0 :: r) t) as (t' & It & Et); [discriminate|].
      destruct (Hw t' It) as (p & Ip & C & W). destruct (wants_step t p t' V Ip W) as (V' & _ & _).
      destruct (IH t' V') as (o & Ho). exists o.
      apply (V_again _ _ _ _ (map TDet (t0 :: r)) (map TDet (t0 :: r))); [exact Hh|apply Permutation_refl|discriminate|].
      rewrite Et. exact Ho.
  Qed.
End run.
