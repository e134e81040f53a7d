(* C78: the detectors table that validation gives back. *)
From Coq Require Import String Bool ZArith QArith Qround Lqa Lia List Permutation.
From Verif Require Import Base Expo_Model Expo_Props Dval_Model Dval_Spec Dval_Proofs.
Import ListNotations.
Local Open Scope list_scope.
Local Open Scope Q_scope.

(* ---- for any children that come to an end and leave the generator alone ---- *)
(* The parts may answer in any order.  If fewer parts than rounds ask for a change, the table
   given back has every row as its part wants it, the rows of no part unchanged, and a row that
   switches off each part that had none; the generator is as it was.  If not, validation fails. *)
Theorem C78_table ps axes g t o :
  NoDup (map p_name ps) -> NoDup (map r_name t) ->
  (forall p r, In p ps -> In r t -> r_name r = p_name p -> exists r', steady p g axes r r') ->
  validates ps axes 10 (mkParams g t) o ->
  ((askers ps g axes t <= 9)%nat -> exists u, o = Settled (mkParams g u) /\ settled ps g axes t u)
  /\ ((10 <= askers ps g axes t)%nat -> o = NotConsistent).
Proof.
  intros N1 N2 S V. destruct (validates_ends ps g axes N1 10 t o) as [A B]; [split; assumption|exact V|].
  split; intros L; [apply A|apply B]; lia.
Qed.
Print Assumptions C78_table.

(* ---- for detectors with an exposure, and detectors without ---- *)
(* A detector: its name, mri, whether something multiplies its triggers; readout and minimum
   period if it takes an exposure. *)
Record det := mkDet { k_name : string; k_mri : string; k_multi : bool; k_kind : option (info * Q) }.
Definition part_of (k : det) : dpart :=
  mkPart (k_name k) (k_mri k) false (k_multi k) (match k_kind k with Some (i, mp) => detector i mp | None => plain end).

(* The row asks for something to be filled in. *)
Definition row_open (k : det) (r : drow) : bool :=
  r_enable r && ((r_frames r <? 1)%Z || (Qle_bool (r_expo r) 0 && match k_kind k with Some _ => true | None => false end)).
Definition guessed (dur e : Q) (i : info) : Z := Qfloor (dur / (e + (dur - calculate_exposure i dur 0))).
Definition filled (k : det) (dur : Q) (r : drow) : drow :=
  if row_open k r then
    let f := if (r_frames r <? 1)%Z then
               match k_kind k with Some (i, _) => if Qle_bool (r_expo r) 0 then 1%Z else guessed dur (r_expo r) i | None => 1%Z end
             else r_frames r in
    let e := match k_kind k with
             | Some (i, _) => if Qle_bool (r_expo r) 0 then calculate_exposure i (frame_duration dur f) 0 else r_expo r
             | None => 0 end in
    mkRow true (r_name r) (r_mri r) e f
  else r.

(* A row that can be used: the mri is right, and with the frames and the exposure that are given
   the detector can do it. *)
Definition usable (k : det) (dur : Q) (r : drow) : Prop :=
  r_mri r = k_mri k /\
  (r_enable r = true ->
   ((1 < r_frames r)%Z -> k_multi k = true) /\
   match k_kind k with
   | None => r_expo r <= 0 \/ (k_multi k = true /\ (1 <= r_frames r)%Z)
   | Some (i, mp) =>
       sane i /\ 0 <= mp /\
       if (r_frames r <? 1)%Z then
         (r_expo r <= 0 /\ (mp <= dur \/ mp <= 0) /\ 0 < calculate_exposure i dur 0)
         \/ (0 < r_expo r /\ fits i dur (min_exposure i) /\ min_exposure i <= r_expo r /\
             (1 <= guessed dur (r_expo r) i)%Z /\ ((1 < guessed dur (r_expo r) i)%Z -> k_multi k = true) /\
             (mp <= frame_duration dur (guessed dur (r_expo r) i) \/ mp <= 0))
       else
         let d := frame_duration dur (r_frames r) in
         (mp <= d \/ mp <= 0) /\
         ((r_expo r <= 0 /\ 0 < calculate_exposure i d 0) \/ (0 < r_expo r /\ good i mp d (r_expo r)))
   end).

Lemma good_chosen i mp d : sane i -> ~ d == 0 -> (mp <= d \/ mp <= 0) -> good i mp d (calculate_exposure i d 0).
Proof.
  intros S D M. destruct (chosen_no_request i d S D) as (A & B & C). split; [exact A|]. split; [|exact M].
  destruct (Qlt_le_dec d (calculate_minimum_duration i (min_exposure i))) as [L|L].
  - right. apply C. intros F. apply (min_duration_spec i _ d S) in F. lra.
  - left. apply B. now apply min_duration_spec.
Qed.
Lemma frame_pos dur f : 0 < dur -> (1 <= f)%Z -> 0 < frame_duration dur f.
Proof.
  intros D F. unfold frame_duration. destruct (1 <? f)%Z; [|exact D].
  pose proof (inject_pos f F) as P. apply Qlt_shift_div_l; lra.
Qed.
Lemma frame_le dur f : 0 < dur -> (1 <= f)%Z -> frame_duration dur f <= dur.
Proof.
  intros D F. unfold frame_duration. destruct (1 <? f)%Z eqn:L; [|lra].
  pose proof (inject_pos f F) as P. apply Qle_shift_div_r; [lra|].
  rewrite <- (Qmult_1_r dur) at 1. rewrite !(Qmult_comm dur). apply Qmult_le_compat_r; lra.
Qed.

Lemma row_on p g ax r : r_name r = p_name p -> r_mri r = p_mri p -> r_enable r = true ->
  configure_args p g ax [r] =
  Ok (Some (r_frames r, (if (1 <? r_frames r)%Z then multiplied (r_name r ++ "_frames_per_step") (r_frames r) g else g),
            (if (1 <? r_frames r)%Z then ax ++ [(r_name r ++ "_frames_per_step")%string] else ax),
            (if qlt 0 (r_expo r) then Some (r_expo r) else None))).
Proof.
  intros E M B. cbn [configure_args]. apply String.eqb_eq in E, M. rewrite E, M, B. reflexivity.
Qed.
Lemma dur_eq s f g : g_dur (if (1 <? f)%Z then multiplied s f g else g) = frame_duration (g_dur g) f.
Proof. unfold frame_duration. destruct (1 <? f)%Z; reflexivity. Qed.

Lemma qeq_refl q : Qeq_bool q q = true.
Proof. apply Qeq_bool_iff. reflexivity. Qed.


(* One row, in terms of what the child says: [n] frames are settled on. *)
Lemma validate_row p g ax r cg cax e n rg re :
  configure_args p g ax [r] = Ok (Some (r_frames r, cg, cax, e)) -> r_name r = p_name p -> p_faulty p = false ->
  (e = None \/ p_multi p = true \/ c_expo (p_child p) = true) ->
  settle_frames p (g_dur g) cg cax e (r_frames r) = Ok n -> ((1 < n)%Z -> p_multi p = true) ->
  c_validate (p_child p) cg cax (if c_expo (p_child p) then e else None) (if c_frames (p_child p) then Some n else None) = Ok (rg, re) ->
  on_validate p g ax [r] =
    let asked := match e with Some x => x | None => 0 end in
    let differs := match re with Some x => negb (Qeq_bool asked x) | None => false end in
    let e' := match re with Some x => if differs then x else asked | None => asked end in
    Ok ((match rg with Some x => [TGen x] | None => [] end)
        ++ (if differs || (r_frames r <? 1)%Z then [TDet [mkRow true (p_name p) (p_mri p) e' n]] else [])).
Proof.
  intros A E F X S N C. cbn zeta.
  assert (HB : existsb (fun x => String.eqb (r_name x) (p_name p)) [r] = true)
    by (apply has_rowb; exists r; split; [left; reflexivity|exact E]).
  unfold on_validate. rewrite HB, A, F, S. cbn [negb].
  assert (match e with Some _ => true | None => false end && negb (p_multi p) && negb (c_expo (p_child p)) = false) as ->.
  { destruct X as [->|[->| ->]]; [reflexivity|rewrite andb_false_r; reflexivity|rewrite andb_false_r; reflexivity]. }
  assert ((1 <? n)%Z && negb (p_multi p) = false) as ->.
  { destruct (Z.ltb_spec 1 n) as [L|L]; [rewrite (N L); reflexivity|reflexivity]. }
  unfold do_validate. rewrite C, orb_false_r, (new_one p r _ E). reflexivity.
Qed.

Lemma detector_says i mp g ax e f d x : g_dur g = d ->
  det_validate i mp (match f with Some n => n | None => 1%Z end) d (match e with Some y => y | None => 0 end) = Some (d, x) ->
  c_validate (detector i mp) g ax e f = Ok (None, Some x).
Proof.
  intros E V. cbn [c_validate detector]. rewrite E, V, qeq_refl. reflexivity.
Qed.

Lemma guess_some i dur e : sane i -> 0 < dur -> 0 < e -> fits i dur (min_exposure i) ->
  guess_frames dur e (calculate_exposure i dur 0) = Some (guessed dur e i).
Proof.
  intros Si D Lt Fm. unfold guess_frames, guessed. destruct (Qeq_bool _ 0) eqn:Z; [|reflexivity]. exfalso.
  apply qeq_true in Z. destruct (chosen_no_request i dur Si ltac:(lra)) as (_ & Q & _). destruct (Q Fm) as [Q1 _].
  unfold fits in Q1. destruct Si as (S1 & S2 & S3 & S4).
  assert (Acc : 0 <= frequency_accuracy i * dur / 1000000).
  { unfold Qdiv. apply Qmult_le_0_compat; [|discriminate]. apply Qmult_le_0_compat; lra. }
  lra.
Qed.

(* What the part of a detector says to a row that can be used. *)
Lemma row_says k g ax r : 0 < g_dur g -> r_name r = k_name k -> usable k (g_dur g) r ->
  on_validate (part_of k) g ax [r] = Ok (if row_open k r then [TDet [filled k (g_dur g) r]] else []).
Proof.
  intros D E [M U]. destruct (r_enable r) eqn:B.
  2:{ rewrite (off_quiet (part_of k) g ax r E B). unfold row_open. rewrite B. reflexivity. }
  destruct (U eq_refl) as [Mu K]. clear U. set (dur := g_dur g) in *.
  pose proof (row_on (part_of k) g ax r E M B) as A.
  set (cg := if (1 <? r_frames r)%Z then multiplied (r_name r ++ "_frames_per_step") (r_frames r) g else g) in A.
  assert (Dc : g_dur cg = frame_duration dur (r_frames r)) by apply dur_eq.
  set (cax := if (1 <? r_frames r)%Z then ax ++ [(r_name r ++ "_frames_per_step")%string] else ax) in A. clearbody cg cax.
  assert (HC : p_child (part_of k) = match k_kind k with Some (i, mp) => detector i mp | None => plain end) by reflexivity.
  assert (HM : p_multi (part_of k) = k_multi k) by reflexivity.
  assert (HN : p_name (part_of k) = r_name r) by (symmetry; exact E).
  assert (HI : p_mri (part_of k) = r_mri r) by (symmetry; exact M).
  assert (HF : p_faulty (part_of k) = false) by reflexivity.
  unfold filled, row_open. rewrite B. cbn [andb].
  remember (part_of k) as p eqn:Hp. clear Hp. destruct (k_kind k) as [[i mp]|].
  - destruct K as (Si & Mp & K).
    assert (HE : c_expo (p_child p) = true) by (rewrite HC; reflexivity).
    assert (HR : c_frames (p_child p) = true) by (rewrite HC; reflexivity).
    destruct (r_frames r <? 1)%Z eqn:F1b.
    + (* frames to be guessed *)
      pose proof F1b as F1. apply Z.ltb_lt in F1.
      assert (Dc1 : g_dur cg = dur) by (rewrite Dc; unfold frame_duration; destruct (Z.ltb_spec 1 (r_frames r)); [lia|reflexivity]).
      destruct K as [(Le & M1 & Px)|(Lt & Fm & Me & N1 & Nm & M1)].
      * assert (Q1 : qlt 0 (r_expo r) = false) by (apply qlt_false; exact Le). rewrite Q1 in A.
        assert (Qle_bool (r_expo r) 0 = true) as -> by (apply Qle_bool_iff; exact Le).
        destruct (C38_duration_given i mp 1 dur Si Mp ltac:(lra) M1) as [Y _]. destruct (Y Px) as [V _].
        rewrite (validate_row p g ax r cg cax None 1%Z None (Some (calculate_exposure i dur 0)) A (eq_sym HN) HF (or_introl eq_refl));
          [|unfold settle_frames; rewrite F1b; reflexivity|lia|rewrite HE, HR, HC; exact (detector_says i mp cg cax None (Some 1%Z) dur _ Dc1 V)].
        cbn zeta. assert (Qeq_bool 0 (calculate_exposure i dur 0) = false) as -> by (apply qeq_false; lra).
        rewrite HN, HI. reflexivity.
      * assert (Q1 : qlt 0 (r_expo r) = true) by (apply qlt_true; exact Lt). rewrite Q1 in A.
        assert (Qle_bool (r_expo r) 0 = false) as -> by (apply qle_false; exact Lt).
        pose proof (guess_some i dur (r_expo r) Si D Lt Fm) as Gs.
        destruct (C38_guessed_frames i dur (r_expo r) _ Si D Lt Fm Gs) as (Y1 & _ & _). specialize (Y1 N1).
        pose proof (fits_longer i _ dur _ Si Y1 (frame_le dur _ D N1)) as Fe.
        assert (Mg : mp <= dur \/ mp <= 0).
        { destruct M1 as [M1|M1]; [left|right; exact M1]. pose proof (frame_le dur _ D N1). lra. }
        destruct (chosen_no_request i dur Si ltac:(lra)) as (_ & Q & _). destruct (Q Fm) as [_ Q2]. specialize (Q2 _ Fe).
        destruct (C38_duration_given i mp 1 dur Si Mp ltac:(lra) Mg) as [Y _]. destruct (Y ltac:(lra)) as [V _].
        assert (Gd : good i mp dur (r_expo r)) by (split; [exact Me|split; [left; exact Fe|exact Mg]]).
        destruct (C38_both_given i mp (guessed dur (r_expo r) i) dur (r_expo r) Mp ltac:(lra) ltac:(lra)) as [W _]. specialize (W Gd).
        rewrite (validate_row p g ax r cg cax (Some (r_expo r)) (guessed dur (r_expo r) i) None (Some (r_expo r)) A (eq_sym HN) HF (or_intror (or_intror HE))).
        -- cbn zeta. rewrite qeq_refl, HN, HI, F1b. cbn [negb orb]. reflexivity.
        -- unfold settle_frames, do_validate. rewrite F1b, HE, HC.
           rewrite (detector_says i mp cg cax None None dur _ Dc1 V). fold dur. rewrite Gs. reflexivity.
        -- rewrite HM. exact Nm.
        -- rewrite HE, HR, HC. exact (detector_says i mp cg cax (Some (r_expo r)) (Some _) dur _ Dc1 W).
    + pose proof F1b as F1. apply Z.ltb_ge in F1. destruct K as [M1 K]. set (d := frame_duration dur (r_frames r)) in *.
      assert (Pd : 0 < d) by (apply frame_pos; assumption).
      assert (SF : forall e, settle_frames p (g_dur g) cg cax e (r_frames r) = Ok (r_frames r))
        by (intros e; unfold settle_frames; rewrite F1b; reflexivity).
      destruct K as [[Le Px]|[Lt Gd]].
      * assert (Q1 : qlt 0 (r_expo r) = false) by (apply qlt_false; exact Le). rewrite Q1 in A.
        assert (Qle_bool (r_expo r) 0 = true) as -> by (apply Qle_bool_iff; exact Le).
        destruct (C38_duration_given i mp (r_frames r) d Si Mp ltac:(lra) M1) as [Y _]. destruct (Y Px) as [V _].
        rewrite (validate_row p g ax r cg cax None (r_frames r) None (Some (calculate_exposure i d 0)) A (eq_sym HN) HF (or_introl eq_refl) (SF None));
          [|rewrite HM; exact Mu|rewrite HE, HR, HC; exact (detector_says i mp cg cax None (Some _) d _ Dc V)].
        cbn zeta. assert (Qeq_bool 0 (calculate_exposure i d 0) = false) as -> by (apply qeq_false; lra).
        rewrite HN, HI. reflexivity.
      * assert (Q1 : qlt 0 (r_expo r) = true) by (apply qlt_true; exact Lt). rewrite Q1 in A.
        assert (Qle_bool (r_expo r) 0 = false) as -> by (apply qle_false; exact Lt).
        destruct (C38_both_given i mp (r_frames r) d (r_expo r) Mp ltac:(lra) ltac:(lra)) as [W _]. specialize (W Gd).
        rewrite (validate_row p g ax r cg cax (Some (r_expo r)) (r_frames r) None (Some (r_expo r)) A (eq_sym HN) HF (or_intror (or_intror HE)) (SF _));
          [|rewrite HM; exact Mu|rewrite HE, HR, HC; exact (detector_says i mp cg cax (Some (r_expo r)) (Some _) d _ Dc W)].
        cbn zeta. rewrite qeq_refl, F1b. reflexivity.
  - assert (HE : c_expo (p_child p) = false) by (rewrite HC; reflexivity).
    assert (HR : c_frames (p_child p) = false) by (rewrite HC; reflexivity).
    rewrite andb_false_r, orb_false_r.
    set (n := if (r_frames r <? 1)%Z then 1%Z else r_frames r).
    set (e := if qlt 0 (r_expo r) then Some (r_expo r) else None) in A.
    assert (Ke : e = None \/ k_multi k = true /\ (1 <= r_frames r)%Z).
    { destruct K as [K|K]; [left|right; exact K]. unfold e. apply qlt_false in K. rewrite K. reflexivity. }
    rewrite (validate_row p g ax r cg cax e n None None A (eq_sym HN) HF).
    + cbn zeta. cbn [orb app]. destruct (r_frames r <? 1)%Z eqn:F1; [|reflexivity]. rewrite HN, HI.
      destruct Ke as [-> |[_ X]]; [reflexivity|]. apply Z.ltb_lt in F1. lia.
    + rewrite HM. tauto.
    + unfold settle_frames, n. destruct (r_frames r <? 1)%Z eqn:F1; [|reflexivity].
      destruct Ke as [-> |[_ X]]; [reflexivity|]. apply Z.ltb_lt in F1. lia.
    + rewrite HM. unfold n. destruct (r_frames r <? 1)%Z; [lia|exact Mu].
    + rewrite HE, HR, HC. reflexivity.
Qed.

Lemma filled_name k dur r : r_name (filled k dur r) = r_name r.
Proof. unfold filled. destruct (row_open k r); reflexivity. Qed.

(* A row that has been filled in is usable, and asks for nothing more. *)
Lemma filled_usable k dur r : 0 < dur -> usable k dur r -> usable k dur (filled k dur r) /\ row_open k (filled k dur r) = false.
Proof.
  intros D [M U]. unfold filled. destruct (row_open k r) eqn:O; [|split; [split; [exact M|exact U]|exact O]].
  unfold row_open in O. apply andb_true_iff in O as [B O]. destruct (U B) as [Mu K]. clear U.
  destruct (k_kind k) as [[i mp]|] eqn:EK.
  - destruct K as (Si & Mp & K).
    destruct (r_frames r <? 1)%Z eqn:F1b.
    + destruct K as [(Le & M1 & Px)|(Lt & Fm & Me & N1 & Nm & M1)].
      * assert (Qle_bool (r_expo r) 0 = true) as -> by (apply Qle_bool_iff; exact Le).
        change (frame_duration dur 1) with dur. split.
        -- split; [exact M|]. cbn [r_frames r_expo r_enable]. intros _. split; [lia|]. rewrite EK. split; [exact Si|]. split; [exact Mp|].
           change (1 <? 1)%Z with false. cbv iota zeta. change (frame_duration dur 1) with dur. split; [exact M1|].
           right. split; [exact Px|]. apply good_chosen; [exact Si|lra|exact M1].
        -- unfold row_open. cbn [r_enable r_frames r_expo]. rewrite EK.
           assert (Qle_bool (calculate_exposure i dur 0) 0 = false) as -> by (apply qle_false; exact Px). reflexivity.
      * assert (Qe : Qle_bool (r_expo r) 0 = false) by (apply qle_false; exact Lt). rewrite Qe.
        pose proof (guess_some i dur (r_expo r) Si D Lt Fm) as Gs.
        destruct (C38_guessed_frames i dur (r_expo r) _ Si D Lt Fm Gs) as (Y1 & _ & _). specialize (Y1 N1).
        set (n := guessed dur (r_expo r) i) in *. clearbody n.
        assert (Nf : (n <? 1)%Z = false) by (apply Z.ltb_ge; exact N1). split.
        -- split; [exact M|]. cbn [r_frames r_expo r_enable]. intros _. split; [exact Nm|]. rewrite EK. split; [exact Si|]. split; [exact Mp|].
           rewrite Nf. cbv zeta. split; [exact M1|]. right. split; [exact Lt|]. split; [exact Me|]. split; [left; exact Y1|exact M1].
        -- unfold row_open. cbn [r_enable r_frames r_expo]. rewrite EK, Qe, Nf. reflexivity.
    + cbn [orb] in O. rewrite andb_true_r in O. rewrite O. apply Qle_bool_iff in O.
      pose proof F1b as F1. apply Z.ltb_ge in F1. destruct K as [M1 K]. set (d := frame_duration dur (r_frames r)) in *.
      assert (Pd : 0 < d) by (apply frame_pos; assumption).
      destruct K as [[_ Px]|[Lt _]]; [|lra]. split.
      * split; [exact M|]. cbn [r_frames r_expo r_enable]. intros _. split; [exact Mu|]. rewrite EK. split; [exact Si|]. split; [exact Mp|].
        rewrite F1b. cbv zeta. fold d. split; [exact M1|]. right. split; [exact Px|]. apply good_chosen; [exact Si|lra|exact M1].
      * unfold row_open. cbn [r_enable r_frames r_expo]. rewrite EK, F1b.
        assert (Qle_bool (calculate_exposure i d 0) 0 = false) as -> by (apply qle_false; exact Px). reflexivity.
  - rewrite andb_false_r, orb_false_r in O. rewrite O. split.
    + split; [exact M|]. cbn [r_frames r_expo r_enable]. intros _. split; [lia|]. rewrite EK. left. lra.
    + unfold row_open. cbn [r_enable r_frames r_expo]. rewrite EK. reflexivity.
Qed.

Lemma says_filled k g ax r : 0 < g_dur g -> r_name r = k_name k -> usable k (g_dur g) r ->
  steady (part_of k) g ax r (filled k (g_dur g) r).
Proof.
  intros D E U. destruct (filled_usable k (g_dur g) r D U) as [U' O']. split.
  - unfold says. rewrite (row_says k g ax r D E U). destruct (row_open k r) eqn:O; [right; reflexivity|left].
    split; [|reflexivity]. unfold filled. rewrite O. reflexivity.
  - rewrite (row_says k g ax _ D (eq_trans (filled_name k _ r) E) U'), O'. reflexivity.
Qed.
Lemma says_fun p g ax r a b : says p g ax r a -> says p g ax r b -> a = b.
Proof. unfold says. intros [[-> A]|A] [[-> B]|B]; congruence. Qed.

(* The detectors that ask for something: no row, or a row with something to be filled in. *)
Definition asks (t : list drow) (k : det) : bool :=
  match find (fun r => String.eqb (r_name r) (k_name k)) t with Some r => row_open k r | None => true end.

Lemma askers_eq ks t g ax : 0 < g_dur g -> (forall k r, In k ks -> In r t -> r_name r = k_name k -> usable k (g_dur g) r) ->
  askers (map part_of ks) g ax t = length (filter (asks t) ks).
Proof.
  intros D U. unfold askers. induction ks as [|k ks IH]; [reflexivity|]. cbn [map filter].
  assert (negb (content (part_of k) g ax t) = asks t k) as ->.
  { unfold content, asks. change (p_name (part_of k)) with (k_name k).
    destruct (find (fun r => String.eqb (r_name r) (k_name k)) t) as [r|] eqn:F; [|reflexivity].
    apply find_some in F as [I E]. apply String.eqb_eq in E.
    rewrite (row_says k g ax r D E (U k r (or_introl eq_refl) I E)). destruct (row_open k r); reflexivity. }
  specialize (IH (fun k' r K => U k' r (or_intror K))). destruct (asks t k); cbn [length]; rewrite IH; reflexivity.
Qed.

(* Detectors of which each has at most one row that can be used, and no more than nine that ask
   for something: the exposure of each row that was left open is the longest that fits its frame,
   frames that were left open are as many as fit, and all that was given is as it was. *)
Theorem C78_detectors ks axes g t o :
  NoDup (map k_name ks) -> NoDup (map r_name t) -> 0 < g_dur g ->
  (forall k r, In k ks -> In r t -> r_name r = k_name k -> usable k (g_dur g) r) ->
  validates (map part_of ks) axes 10 (mkParams g t) o ->
  ((length (filter (asks t) ks) <= 9)%nat -> exists rows added,
     o = Settled (mkParams g (rows ++ added))
     /\ Forall2 (fun r r' => (forall k, In k ks -> k_name k = r_name r -> r' = filled k (g_dur g) r)
                             /\ ((forall k, In k ks -> k_name k <> r_name r) -> r' = r)) t rows
     /\ (forall r, In r added <-> exists k, In k ks /\ ~ (exists x, In x t /\ r_name x = k_name k) /\ r = mkRow false (k_name k) (k_mri k) 0 0)
     /\ NoDup added)
  /\ ((10 <= length (filter (asks t) ks))%nat -> o = NotConsistent).
Proof.
  intros N1 N2 D U V.
  assert (Np : map p_name (map part_of ks) = map k_name ks) by (rewrite map_map; reflexivity).
  destruct (C78_table (map part_of ks) axes g t o) as [A B].
  - rewrite Np. exact N1.
  - exact N2.
  - intros p r Ip Ir E. apply in_map_iff in Ip as (k & <- & Ik). exists (filled k (g_dur g) r).
    apply says_filled; [exact D|exact E|exact (U k r Ik Ir E)].
  - exact V.
  - rewrite (askers_eq ks t g axes D U) in A, B. split; [|exact B]. intros L.
    destruct (A L) as (u & -> & rows & added & -> & F & Ad & ND). exists rows, added. split; [reflexivity|].
    split; [|split; [|exact ND]].
    + assert (G : forall l l', incl l t -> Forall2 (fun r r' => (forall p, In p (map part_of ks) -> p_name p = r_name r -> steady p g axes r r')
                 /\ ((forall p, In p (map part_of ks) -> p_name p <> r_name r) -> r' = r)) l l' ->
                 Forall2 (fun r r' => (forall k, In k ks -> k_name k = r_name r -> r' = filled k (g_dur g) r)
                 /\ ((forall k, In k ks -> k_name k <> r_name r) -> r' = r)) l l').
      { intros l l' L0 F0. induction F0 as [|r r' l l' [P1 P2] F0 IH]; constructor.
        - split.
          + intros k Ik E. destruct (P1 (part_of k) (in_map part_of ks k Ik) E) as [S1 _].
            destruct (says_filled k g axes r D (eq_sym E) (U k r Ik (L0 r (or_introl eq_refl)) (eq_sym E))) as [S2 _].
            exact (says_fun _ _ _ _ _ _ S1 S2).
          + intros Z. apply P2. intros p Ip. apply in_map_iff in Ip as (k & <- & Ik). exact (Z k Ik).
        - apply IH. intros y Y. apply L0. right. exact Y. }
      apply G; [intros y Y; exact Y|exact F].
    + intros r. rewrite Ad. split.
      * intros (p & Ip & Np' & ->). apply in_map_iff in Ip as (k & <- & Ik). exists k. auto.
      * intros (k & Ik & Nk & ->). exists (part_of k). split; [apply in_map, Ik|]. split; [exact Nk|reflexivity].
Qed.
Print Assumptions C78_detectors.

(* What is filled in fits. *)
Theorem C78_fits k i mp dur r : 0 < dur -> usable k dur r -> k_kind k = Some (i, mp) -> r_enable r = true ->
  let r' := filled k dur r in
  (1 <= r_frames r')%Z /\ 0 < r_expo r' /\ good i mp (frame_duration dur (r_frames r')) (r_expo r')
  /\ ((1 <= r_frames r)%Z -> r_frames r' = r_frames r) /\ (0 < r_expo r -> r_expo r' = r_expo r)
  /\ ((r_frames r < 1)%Z -> 0 < r_expo r ->
      dur < inject_Z (r_frames r' + 1) * (r_expo r + (dur - calculate_exposure i dur 0))).
Proof.
  intros D U EK B. cbn zeta. destruct (filled_usable k dur r D U) as [[_ U'] O'].
  assert (B' : r_enable (filled k dur r) = true) by (unfold filled; destruct (row_open k r); [reflexivity|exact B]).
  destruct (U' B') as [_ K]. rewrite EK in K. destruct K as (Si & Mp & K).
  unfold row_open in O'. rewrite B', EK, andb_true_r in O'. apply orb_false_iff in O' as [O1 O2]. rewrite O1 in K.
  apply Z.ltb_ge in O1. apply qle_false in O2. cbv zeta in K. destruct K as [M1 [[X _]|[_ Gd]]]; [lra|].
  split; [exact O1|]. split; [exact O2|]. split; [exact Gd|]. split; [|split].
  - intros L. unfold filled. destruct (row_open k r); [|reflexivity]. cbn [r_frames].
    destruct (Z.ltb_spec (r_frames r) 1); [lia|reflexivity].
  - intros L. unfold filled. destruct (row_open k r); [|reflexivity]. cbn [r_expo]. rewrite EK.
    apply qle_false in L. rewrite L. reflexivity.
  - intros F L. destruct U as [_ U]. destruct (U B) as [_ K]. rewrite EK in K. destruct K as (_ & _ & K).
    assert (Fb : (r_frames r <? 1)%Z = true) by (apply Z.ltb_lt; exact F). rewrite Fb in K.
    destruct K as [(Le & _)|(Lt & Fm & _)]; [lra|].
    destruct (C38_guessed_frames i dur (r_expo r) _ Si D Lt Fm (guess_some i dur (r_expo r) Si D Lt Fm)) as (_ & _ & Y).
    assert (r_frames (filled k dur r) = guessed dur (r_expo r) i) as ->; [|exact Y].
    unfold filled, row_open. rewrite B, Fb, EK. cbn [andb orb r_frames]. apply qle_false in L. rewrite L. reflexivity.
Qed.
Print Assumptions C78_fits.

(* ---- it happens ---- *)
Definition ex_k (n : string) : det := mkDet n (n ++ ":MRI") true (Some (ex_i, 1 # 1000)).
Definition ex_g : cgen := mkGen [(["y"%string], 3%Z); (["x"%string], 2%Z)] [] 1.
Definition ex_ks : list det := [ex_k "FAST"; mkDet "SLOW" "SLOW:MRI" false None; ex_k "IDLE"].
Definition ex_t : list drow := [mkRow true "FAST" "FAST:MRI" (1 # 10) 0; mkRow true "SLOW" "SLOW:MRI" 0 1].

Lemma ex_sane : sane ex_i.
Proof. unfold sane. repeat split; vm_compute; try reflexivity; discriminate. Qed.
Example C78_ex : NoDup (map k_name ex_ks) /\ NoDup (map r_name ex_t)
  /\ (forall k r, In k ex_ks -> In r ex_t -> r_name r = k_name k -> usable k (g_dur ex_g) r)
  /\ length (filter (asks ex_t) ex_ks) = 2%nat
  /\ filled (ex_k "FAST") 1 (mkRow true "FAST" "FAST:MRI" (1 # 10) 0) = mkRow true "FAST" "FAST:MRI" (1 # 10) 9
  /\ exists o, validates (map part_of ex_ks) ["x"%string; "y"%string] 10 (mkParams ex_g ex_t) o.
Proof.
  assert (N1 : NoDup (map k_name ex_ks)).
  { cbn. repeat constructor; cbn; intuition discriminate. }
  assert (N2 : NoDup (map r_name ex_t)).
  { cbn. repeat constructor; cbn; intuition discriminate. }
  assert (U : forall k r, In k ex_ks -> In r ex_t -> r_name r = k_name k -> usable k (g_dur ex_g) r).
  { intros k r [<-|[<-|[<-|[]]]] [<-|[<-|[]]] E; try discriminate E; (split; [reflexivity|intros _]).
    - split; [intros X; discriminate X|]. cbn [k_kind ex_k]. split; [exact ex_sane|]. split; [vm_compute; discriminate|].
      cbn [r_frames]. change (0 <? 1)%Z with true. cbv iota. right. cbn [r_expo]. change (g_dur ex_g) with 1.
      split; [reflexivity|]. split; [unfold fits; vm_compute; discriminate|]. split; [vm_compute; discriminate|].
      split; [vm_compute; discriminate|]. split; [reflexivity|]. left. vm_compute. discriminate.
    - split; [intros X; discriminate X|]. left. cbn. lra. }
  split; [exact N1|]. split; [exact N2|]. split; [exact U|]. split; [vm_compute; reflexivity|]. split; [vm_compute; reflexivity|].
  apply validates_some.
  - rewrite map_map. exact N1.
  - split; [exact N2|]. intros p r Ip Ir E. apply in_map_iff in Ip as (k & <- & Ik).
    eexists. apply says_filled; [reflexivity|exact E|exact (U k r Ik Ir E)].
Qed.

(* ---- where it is false ---- *)
(* Ten detectors, each with a row without an exposure, which each of them can do: validation
   fails, since a round fills in only one row. *)
Definition ten : list string :=
  ["a"; "b"; "c"; "d"; "e"; "f"; "g"; "h"; "i"; "j"]%string.
Theorem C78_ten_refuted : exists ks g t axes,
  NoDup (map k_name ks) /\ NoDup (map r_name t) /\ 0 < g_dur g
  /\ (forall k r, In k ks -> In r t -> r_name r = k_name k -> usable k (g_dur g) r)
  /\ length ks = 10%nat
  /\ (exists o, validates (map part_of ks) axes 10 (mkParams g t) o)
  /\ forall o, validates (map part_of ks) axes 10 (mkParams g t) o -> o = NotConsistent.
Proof.
  set (ks := map ex_k ten). set (t := map (fun n => mkRow true n (n ++ ":MRI")%string 0 1) ten).
  assert (N0 : NoDup ten) by (unfold ten; repeat constructor; cbn; intuition discriminate).
  assert (N1 : NoDup (map k_name ks)) by exact N0. assert (N2 : NoDup (map r_name t)) by exact N0.
  assert (U : forall k r, In k ks -> In r t -> r_name r = k_name k -> usable k (g_dur ex_g) r).
  { intros k r Ik Ir E. apply in_map_iff in Ik as (n & <- & _). apply in_map_iff in Ir as (m & <- & _). cbn in E. subst m.
    split; [reflexivity|]. intros _. split; [intros X; discriminate X|]. cbn [k_kind ex_k]. split; [exact ex_sane|].
    split; [vm_compute; discriminate|]. cbn [r_frames]. change (1 <? 1)%Z with false. cbv iota zeta. cbn [r_expo].
    split; [left; vm_compute; discriminate|]. left. split; [lra|vm_compute; reflexivity]. }
  exists ks, ex_g, t, ["x"%string; "y"%string]. split; [exact N1|]. split; [exact N2|]. split; [reflexivity|]. split; [exact U|].
  split; [reflexivity|]. split.
  - apply validates_some; [rewrite map_map; exact N1|]. split; [exact N2|]. intros p r Ip Ir E. apply in_map_iff in Ip as (k & <- & Ik).
    eexists. apply says_filled; [reflexivity|exact E|exact (U k r Ik Ir E)].
  - intros o V. destruct (C78_detectors ks _ ex_g t o N1 N2 ltac:(reflexivity) U V) as [_ B]. apply B. vm_compute. lia.
Qed.
Print Assumptions C78_ten_refuted.

(* A detector with two frames in a step, and a duration to be found: the generator of the scan is
   replaced by that of the detector, with the axis of its frames in it.  (CompoundGenerator
   refuses to have this axis added to it again in the next round.) *)
Theorem C78_generator_refuted : exists k g t axes d',
  (forall r, In r t -> r_frames r = 2%Z /\ r_name r = k_name k /\ r_mri r = k_mri k /\ 0 < r_expo r)
  /\ validates [part_of k] axes 10 (mkParams g t) (Settled d')
  /\ map fst (g_gens (d_gen d')) = map fst (g_gens g) ++ [[(k_name k ++ "_frames_per_step")%string]].
Proof.
  exists (ex_k "DET"), (mkGen [(["x"%string], 5%Z)] [] 0), [mkRow true "DET" "DET:MRI" (1 # 10) 2], ["x"%string].
  eexists. split; [|split].
  - intros r [<-|[]]. repeat split.
  - eapply V_again; [vm_compute; reflexivity|apply Permutation_refl|discriminate|].
    apply V_done. vm_compute. reflexivity.
  - vm_compute. reflexivity.
Qed.
Print Assumptions C78_generator_refuted.

(* When more than one part changes the generator in a round the longest of their durations is taken, so
   that it is long enough for each of them; what is scanned is that of the first. *)
Theorem C78_longest ts d g gs : gen_tweaks ts = g :: gs -> (forall x, In x (g :: gs) -> 0 <= g_dur x) ->
  let r := d_gen (apply_tweaks ts d) in
  (forall x, In x (g :: gs) -> g_dur x <= g_dur r) /\ (exists x, In x (g :: gs) /\ g_dur r == g_dur x) /\ g_gens r = g_gens g /\ g_squash r = g_squash g
  /\ d_table (apply_tweaks ts d) = d_table d.
Proof.
  intros G P r. subst r. unfold apply_tweaks. rewrite G. cbn [d_gen d_table]. unfold resolve. destruct gs as [|g2 gs].
  - split; [intros x [<-|[]]; lra|]. split; [exists g; split; [now left|reflexivity]|]. auto.
  - cbn [g_dur g_gens g_squash]. set (l := g :: g2 :: gs) in *. assert (M : forall l m, (m <= fold_left (fun m x => if qlt m (g_dur x) then g_dur x else m) l m) /\ (forall x, In x l -> g_dur x <= fold_left (fun m x => if qlt m (g_dur x) then g_dur x else m) l m)
      /\ (fold_left (fun m x => if qlt m (g_dur x) then g_dur x else m) l m = m \/ exists x, In x l /\ fold_left (fun m x => if qlt m (g_dur x) then g_dur x else m) l m = g_dur x)).
    { clear. induction l as [|a l IH]; intros m; cbn [fold_left]; [split; [lra|]; split; [intros x []|now left]|]. destruct (qlt m (g_dur a)) eqn:Q.
      - apply qlt_true in Q. destruct (IH (g_dur a)) as (A & B & C). split; [lra|]. split; [intros x [<-|I]; [exact A|now apply B]|]. destruct C as [C|(x & I & C)]; right; [exists a|exists x]; split; auto; [now left|now right].
      - apply qlt_false in Q. destruct (IH m) as (A & B & C). split; [exact A|]. split; [intros x [<-|I]; [lra|now apply B]|]. destruct C as [C|(x & I & C)]; [now left|right; exists x; split; [now right|exact C]]. }
    destruct (M l 0) as (A & B & C). split; [exact B|]. split; [|auto]. destruct C as [C|(x & I & C)]; [|exists x; split; [exact I|now rewrite C]].
    exists g. split; [now left|]. rewrite C. assert (I : In g l) by now left. specialize (B g I). specialize (P g I). rewrite C in B. lra.
Qed.
Print Assumptions C78_longest.
Example C78_longest_ex : let t x := TGen (mkGen [] [] x) in
  d_gen (apply_tweaks [t (1 # 10); TDet []; t (3 # 10); t (2 # 10)] (mkParams (mkGen [] [] 0) [])) = mkGen [] [] (3 # 10).
Proof. reflexivity. Qed.
