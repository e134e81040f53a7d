(** C40: the scan runner accounts for every scan. *)
From Coq Require Import String Bool ZArith Lia List.
From Verif Require Import Base Runner_Model.
Import ListNotations.
Local Open Scope Z_scope.
Local Open Scope list_scope.

(** ** Specification *)

(** The scans that a file asks for, in order: name and number. *)
Definition numbered (name : string) (k : Z) : list (string * Z) :=
  map (fun j => (name, 1 + Z.of_nat j)) (seq 0 (Z.to_nat k)).
Definition wanted (es : list entry) : list (string * Z) :=
  flat_map (fun e => match e with
                     | EScan n (Some k) => numbered n k
                     | EScan n None => numbered n 1
                     | _ => []
                     end) es.
(** How a scan went: what configure said comes before what run said. *)
Definition reported (a : attempt) (o : outcome) : Prop :=
  (o = OSuccess <-> a_configure a = None /\ a_run a = None) /\
  (o = OMisconfigured <-> a_configure a <> None) /\
  (o = OTimeout <-> a_configure a = None /\ a_run a = Some XTimeout) /\
  (o = ONotWriteable <-> a_configure a = None /\ a_run a = Some XNotWriteable) /\
  (o = OAborted <-> a_configure a = None /\ a_run a = Some XAborted) /\
  (o = OFail <-> a_configure a = None /\ a_run a = Some XAssert) /\
  (o = OOther <-> a_configure a = None /\ a_run a = Some XOther).
Definition succeeded (o : outcome) : bool := match o with OSuccess => true | _ => false end.
(** Each with its outcome; the scans of a run are counted from [c].  [C40_outcome] says what
    outcome_of is. *)
Fixpoint with_outcomes (world : Z -> attempt) (c : Z) (l : list (string * Z)) : list (string * Z * outcome) :=
  match l with
  | [] => []
  | (n, i) :: r => (n, i, outcome_of (world c)) :: with_outcomes world (c + 1) r
  end.
Definition good_lines (l : list (string * Z * outcome)) : Z :=
  Z.of_nat (length (filter (fun x => succeeded (snd x)) l)).
Definition bad_lines (l : list (string * Z * outcome)) : Z :=
  Z.of_nat (length (filter (fun x => negb (succeeded (snd x))) l)).

(** A well formed file: scans only, no name twice, no negative repeats. *)
Definition name_of (e : entry) : list string := match e with EScan n _ => [n] | _ => [] end.
Definition ok_entry (e : entry) : Prop :=
  match e with EScan _ None => True | EScan _ (Some k) => 0 <= k | _ => False end.
Definition good_file (es : list entry) : Prop := Forall ok_entry es /\ NoDup (flat_map name_of es).

(** No trouble with files, and the scan block can be reset. *)
Definition calm (world : Z -> attempt) : Prop :=
  forall n, a_mkdir (world n) = true /\ a_report (world n) = true /\ a_reset (world n) = None.

(** The counters agree with the report. *)
Definition accounted (r : runner) : Prop :=
  r_completed r = Z.of_nat (length (r_report r)) /\
  r_successes r = good_lines (r_report r) /\ r_failures r = bad_lines (r_report r).

(** ** Proofs *)

Definition wanted_sets (d : dict Z) : list (string * Z) := flat_map (fun kv => numbered (fst kv) (snd kv)) d.

Lemma with_outcomes_app : forall w l1 l2 c,
  with_outcomes w c (l1 ++ l2) = with_outcomes w c l1 ++ with_outcomes w (c + Z.of_nat (length l1)) l2.
Proof.
  intros w l1; induction l1 as [|[n i] r IH]; intros l2 c.
  - cbn. now rewrite Z.add_0_r.
  - cbn [app with_outcomes length]. rewrite IH. cbn [app]. do 3 f_equal. lia.
Qed.
Lemma with_outcomes_length : forall w l c, length (with_outcomes w c l) = length l.
Proof. intros w l; induction l as [|[n i] r IH]; intros c; cbn; auto. Qed.
Lemma is_succeeded : forall o, is_success o = succeeded o.
Proof. intros []; reflexivity. Qed.
Lemma good_bad : forall l, good_lines l + bad_lines l = Z.of_nat (length l).
Proof.
  unfold good_lines, bad_lines. induction l as [|x r IH]; cbn [filter length]; [reflexivity|].
  destruct (succeeded (snd x)); cbn [negb length]; lia.
Qed.

Lemma accounted_scan : forall name i a r r', accounted r -> run_scan name i a r = (r', None) ->
  accounted r' /\ r_report r' = r_report r ++ [(name, i, outcome_of a)] /\ r_configured r' = r_configured r.
Proof.
  intros name i a r r' (A1 & A2 & A3) H. unfold run_scan in H.
  destruct (negb (a_mkdir a)); [discriminate|]. destruct (a_reset a); [discriminate|].
  destruct (negb (a_report a)); [discriminate|]. injection H as <-.
  assert (E : forall b : bool, r_report (if b then abort r else r) = r_report r /\ r_completed (if b then abort r else r) = r_completed r /\
    r_successes (if b then abort r else r) = r_successes r /\ r_failures (if b then abort r else r) = r_failures r /\
    r_configured (if b then abort r else r) = r_configured r) by (intros []; cbn; auto).
  destruct (E (a_abort a)) as (E1 & E2 & E3 & E4 & E5).
  unfold accounted, good_lines, bad_lines. cbn [r_completed r_report r_successes r_failures r_configured].
  rewrite E1, E2, E3, E4, E5, A1, A2, A3. rewrite !filter_app, !app_length. unfold good_lines, bad_lines.
  cbn [filter snd]. rewrite is_succeeded. destruct (succeeded (outcome_of a)); cbn [negb length]; repeat split; lia.
Qed.

Lemma run_scan_error : forall name i a r r' e, run_scan name i a r = (r', Some e) ->
  r_report r' = r_report r /\ r_completed r' = r_completed r /\ r_successes r' = r_successes r /\
  r_failures r' = r_failures r /\ r_configured r' = r_configured r.
Proof.
  intros name i a r r' e H. unfold run_scan in H.
  destruct (negb (a_mkdir a)); [injection H as <- <-; cbn; auto|].
  destruct (a_reset a); [injection H as <- <-; cbn; auto 10|].
  destruct (negb (a_report a)); [|discriminate]. injection H as <- <-.
  destruct (a_abort a); cbn; auto 10.
Qed.

(** Going on from a state with [c] scans done, the report grows by the first [k] of [l]. *)
Definition went (w : Z -> attempt) (l : list (string * Z)) (r r' : runner) (e : option rerr) : Prop :=
  accounted r' /\ r_configured r' = r_configured r /\
  exists k, (k <= length l)%nat /\ (e = None -> k = length l) /\
    r_report r' = r_report r ++ with_outcomes w (r_completed r) (firstn k l).

Lemma went_then : forall w l1 l2 r r1 r2 e, went w l1 r r1 None -> went w l2 r1 r2 e -> accounted r ->
  went w (l1 ++ l2) r r2 e.
Proof.
  intros w l1 l2 r r1 r2 e (A1 & C1 & k1 & K1 & K2 & R1) (A2 & C2 & k2 & K3 & K4 & R2) A.
  split; [auto|]. split; [congruence|]. specialize (K2 eq_refl). subst k1.
  exists (length l1 + k2)%nat. rewrite app_length. split; [lia|]. split; [intros He; rewrite (K4 He); lia|].
  rewrite R2, R1, firstn_all. rewrite firstn_app_2, with_outcomes_app, app_assoc. f_equal. f_equal.
  destruct A as (A & _). destruct A1 as (A1 & _). rewrite A1, A, R1, firstn_all.
  rewrite app_length, with_outcomes_length. lia.
Qed.

Lemma numbered_from : forall (name : string) k i, map (fun j => (name, i + Z.of_nat j)) (seq 0 (S k)) =
  (name, i) :: map (fun j => (name, (i + 1) + Z.of_nat j)) (seq 0 k).
Proof.
  intros name k i. cbn [seq map]. f_equal; [f_equal; lia|]. rewrite <- seq_shift, map_map.
  apply map_ext. intros j. f_equal. lia.
Qed.

Lemma run_repeats_went : forall w name k i r, accounted r ->
  let '(r', e) := run_repeats w name k i r in
  went w (map (fun j => (name, i + Z.of_nat j)) (seq 0 k)) r r' e.
Proof.
  intros w name k; induction k as [|k IH]; intros i r A; cbn [run_repeats].
  - split; [auto|]. split; [auto|]. exists 0%nat. cbn. rewrite app_nil_r. auto.
  - destruct (run_scan name i (w (r_completed r)) r) as [r1 [x|]] eqn:E.
    + destruct (run_scan_error _ _ _ _ _ _ E) as (E1 & E2 & E3 & E4 & E5).
      split; [unfold accounted in *; rewrite E1, E2, E3, E4; exact A|]. split; [auto|].
      exists 0%nat. split; [lia|]. split; [discriminate|]. cbn. now rewrite app_nil_r.
    + destruct (accounted_scan _ _ _ _ _ A E) as (A1 & R1 & C1).
      specialize (IH (i + 1) r1 A1). destruct (run_repeats w name k (i + 1) r1) as [r2 e].
      rewrite numbered_from.
      apply (went_then w [(name, i)] _ r r1 r2 e); auto.
      split; [auto|]. split; [auto|]. exists 1%nat. cbn. auto.
Qed.

Lemma run_sets_went : forall w mk d r, accounted r ->
  let '(r', e) := run_sets w mk d r in went w (wanted_sets d) r r' e.
Proof.
  intros w mk d; induction d as [|[name k] d IH]; intros r A; cbn [run_sets].
  - split; [auto|]. split; [auto|]. exists 0%nat. cbn. rewrite app_nil_r. auto.
  - destruct (negb (mk name)).
    + split; [exact A|]. split; [auto|]. exists 0%nat. split; [lia|]. split; [discriminate|].
      cbn. now rewrite app_nil_r.
    + pose proof (run_repeats_went w name (Z.to_nat k) 1 r A) as H.
      destruct (run_repeats w name (Z.to_nat k) 1 r) as [r1 [x|]].
      * destruct H as (H1 & H2 & n & H3 & H4 & H5). split; [auto|]. split; [auto|].
        exists n. unfold wanted_sets. cbn [flat_map fst snd]. rewrite app_length. unfold numbered.
        split; [lia|]. split; [discriminate|]. rewrite firstn_app.
        assert (firstn (n - length (map (fun j : nat => (name, 1 + Z.of_nat j)) (seq 0 (Z.to_nat k))))
                 (flat_map (fun kv : string * Z => map (fun j : nat => (fst kv, 1 + Z.of_nat j)) (seq 0 (Z.to_nat (snd kv)))) d) = []) as X.
        { replace (n - _)%nat with 0%nat by lia. reflexivity. }
        rewrite X, app_nil_r. exact H5.
      * specialize (IH r1 (proj1 H)). destruct (run_sets w mk d r1) as [r2 e].
        exact (went_then w _ _ r r1 r2 e H IH A).
Qed.

(** ** The file *)

Lemma dset_new : forall (n : string) (v : Z) d, ~ In n (map fst d) -> dset n v d = d ++ [(n, v)].
Proof.
  intros n v d; induction d as [|[k x] d IH]; intros H; cbn in *; auto.
  destruct (String.eqb_spec n k) as [e|N]; [exfalso; auto|]. rewrite IH; auto.
Qed.

Lemma load_good : forall es r, good_file es ->
  (forall n, In n (map fst (r_sets r)) -> ~ In n (flat_map name_of es)) ->
  exists r', load_entries es r = (r', None) /\
    wanted_sets (r_sets r') = wanted_sets (r_sets r) ++ wanted es /\
    (Forall (fun kv => 0 <= snd kv) (r_sets r) -> Forall (fun kv => 0 <= snd kv) (r_sets r')) /\
    (es <> [] \/ r_sets r <> [] -> r_sets r' <> []).
Proof.
  induction es as [|e es IH]; intros r (G1 & G2) D.
  - exists r. cbn. rewrite app_nil_r. repeat split; auto. tauto.
  - inversion G1 as [|x y K1 K2]; subst. destruct e as [n k| |]; cbn in K1; try contradiction.
    cbn [flat_map name_of app] in G2, D. inversion G2 as [|x y N1 N2]; subst.
    set (v := match k with Some k => k | None => 1 end).
    assert (Dn : dset n v (r_sets r) = r_sets r ++ [(n, v)]).
    { apply dset_new. intros H. apply (D n H). now left. }
    cbn [load_entries]. fold v. rewrite Dn.
    destruct (IH (set_sets (r_sets r ++ [(n, v)]) r)) as (r' & E1 & E2 & E3 & E4).
    + exact (conj K2 N2).
    + cbn. intros m Hm. rewrite map_app in Hm. apply in_app_or in Hm. cbn in Hm.
      destruct Hm as [Hm|[<-|[]]]; auto. intros X. apply (D m Hm). now right.
    + exists r'. split; [exact E1|]. split; [|split].
      * rewrite E2. cbn [r_sets set_sets]. unfold wanted_sets at 1. rewrite flat_map_app. cbn.
        rewrite app_nil_r, <- app_assoc. f_equal. unfold v. destruct k; reflexivity.
      * intros F. apply E3. cbn. apply Forall_app. split; auto. constructor; auto. cbn. unfold v.
        destruct k; cbn in K1; lia.
      * intros _. apply E4. right. cbn. destruct (r_sets r); discriminate.
Qed.

Lemma count_sets : forall d a, Forall (fun kv : string * Z => 0 <= snd kv) d ->
  fold_left (fun a (kv : string * Z) => a + snd kv) d a = a + Z.of_nat (length (wanted_sets d)).
Proof.
  induction d as [|[n k] d IH]; intros a F; cbn [fold_left]; [cbn; lia|].
  inversion F as [|x y F1 F2]; subst. rewrite IH by auto. unfold wanted_sets. cbn [flat_map fst snd] in *.
  rewrite app_length. unfold numbered. rewrite map_length, seq_length. cbn [fst snd] in F1. lia.
Qed.

Lemma load_file_good : forall es r, good_file es -> exists r1,
  load_file (Some (Some es)) r = (r1, None) /\ wanted_sets (r_sets r1) = wanted es /\
  r_configured r1 = Z.of_nat (length (wanted es)) /\ (es <> [] -> r_sets r1 <> []).
Proof.
  intros es r G. unfold load_file.
  destruct (load_good es (set_sets [] (set_state RLoading r)) G) as (r' & E1 & E2 & E3 & E4).
  - cbn. intros n [].
  - rewrite E1. eexists. split; [reflexivity|]. cbn [r_sets r_configured]. split; [exact E2|]. split.
    + unfold count_configured. rewrite count_sets by (apply E3; constructor). now rewrite E2.
    + intros N. apply E4. auto.
Qed.

(** After a good file is loaded, a run that returns has run each scan of the file once, in order;
    the report has one line for each with what happened to it; and scansCompleted =
    scanSuccesses + scanFailures = scansConfigured, successes and failures as in the report. *)
Theorem C40_accounts : forall es r0 r1 world mk b r2, good_file es ->
  load_file (Some (Some es)) r0 = (r1, None) -> run world mk b r1 = (r2, None) ->
  r_report r2 = with_outcomes world 0 (wanted es) /\
  r_completed r2 = r_configured r2 /\ r_configured r2 = Z.of_nat (length (wanted es)) /\
  r_successes r2 = good_lines (r_report r2) /\ r_failures r2 = bad_lines (r_report r2) /\
  r_successes r2 + r_failures r2 = r_completed r2 /\ r_state r2 = RFinished.
Proof.
  intros es r0 r1 world mk b r2 G L R. destruct (load_file_good es r0 G) as (r1' & L1 & L2 & L3 & _).
  assert (r1' = r1) by congruence. subst r1'. unfold run in R.
  destruct (r_sets r1) as [|p d] eqn:Es; [discriminate|]. destruct (negb b); [discriminate|].
  rewrite <- Es in R. set (r0' := mkRunner _ _ _ _ _ _ _) in R. try rewrite Es in L2.
  assert (A : accounted r0') by (repeat split).
  pose proof (run_sets_went world mk (r_sets r0') r0' A) as H.
  destruct (run_sets world mk (r_sets r0') r0') as [r3 [x|]]; [discriminate|]. injection R as <-.
  destruct H as ((H1 & H2 & H3) & H4 & k & H5 & H6 & H7). rewrite (H6 eq_refl), firstn_all in H7.
  cbn [r0' r_sets r_report r_completed r_configured app] in H4, H7.
  rewrite Es, L2 in H7. cbn [r_report set_state r_completed r_configured r_successes r_failures r_state].
  pose proof (good_bad (r_report r3)) as GB.
  assert (Len : Z.of_nat (length (r_report r3)) = Z.of_nat (length (wanted es))).
  { rewrite H7. now rewrite with_outcomes_length. }
  repeat split; auto; lia.
Qed.
Print Assumptions C40_accounts.

Lemma calm_repeats : forall w name k i r, calm w -> snd (run_repeats w name k i r) = None.
Proof.
  intros w name k; induction k as [|k IH]; intros i r C; cbn [run_repeats]; auto.
  unfold run_scan. destruct (C (r_completed r)) as (-> & -> & ->). cbn [negb]. apply IH, C.
Qed.
Lemma calm_sets : forall w mk d r, calm w -> (forall n, mk n = true) -> snd (run_sets w mk d r) = None.
Proof.
  intros w mk d; induction d as [|[n k] d IH]; intros r C M; cbn [run_sets]; auto.
  rewrite M. cbn [negb]. pose proof (calm_repeats w n (Z.to_nat k) 1 r C) as H.
  destruct (run_repeats w n (Z.to_nat k) 1 r) as [r1 [x|]]; [discriminate|]. auto.
Qed.

(** Whatever configure and run of the scan block raise, the run goes on to its end, if files
    can be written and the scan block can be reset. *)
Theorem C40_goes_on : forall es r0 world mk, good_file es -> es <> [] -> calm world ->
  (forall n, mk n = true) -> exists r1 r2,
  load_file (Some (Some es)) r0 = (r1, None) /\ run world mk true r1 = (r2, None).
Proof.
  intros es r0 world mk G N C M. destruct (load_file_good es r0 G) as (r1 & L1 & _ & _ & L4).
  exists r1. unfold run. specialize (L4 N). destruct (r_sets r1) as [|p d] eqn:Es; [contradiction|].
  cbn [negb]. rewrite <- Es. set (r0' := mkRunner _ _ _ _ _ _ _).
  pose proof (calm_sets world mk (r_sets r0') r0' C M) as H.
  destruct (run_sets world mk (r_sets r0') r0') as [r3 [x|]]; [discriminate|].
  eexists. split; [exact L1|]. reflexivity.
Qed.
Print Assumptions C40_goes_on.

(** The outcome in the report is what happened to the scan. *)
Theorem C40_outcome : forall a, reported a (outcome_of a).
Proof.
  intros [m r c u ab rp]. unfold reported, outcome_of. cbn [a_configure a_run].
  destruct c as [x|]; [|destruct u as [[]|]]; repeat split; intros; try congruence; intuition congruence.
Qed.
Print Assumptions C40_outcome.
Example C40_outcome_ex : outcome_of (mkAttempt true None (Some XTimeout) (Some XAborted) false true) = OMisconfigured /\
  outcome_of (mkAttempt true None None (Some XAborted) false true) = OAborted.
Proof. split; reflexivity. Qed.

(** A file is accepted exactly when all its entries are scans; the runner is Configured exactly
    then, and in Fault when the file cannot be read or parsed or has an unknown key before any bad
    scan. *)
Definition is_scan (e : entry) : Prop := match e with EScan _ _ => True | _ => False end.
Theorem C40_load : forall f r0 r1 e, load_file f r0 = (r1, e) ->
  (e = None <-> exists es, f = Some (Some es) /\ Forall is_scan es) /\
  (r_state r1 = RConfigured <-> e = None) /\
  ((f = None \/ f = Some None \/
    exists es1 es2, f = Some (Some (es1 ++ EKey :: es2)) /\ Forall is_scan es1) -> r_state r1 = RFault).
Proof.
  assert (K : forall es r r1 e, r_state r = RLoading -> load_entries es r = (r1, e) ->
    (e = None <-> Forall is_scan es) /\ r_state r1 <> RConfigured /\
    (forall es1 es2, es = es1 ++ EKey :: es2 -> Forall is_scan es1 -> r_state r1 = RFault)).
  { intros es; induction es as [|x es IH]; intros r r1 e L H.
    - injection H as <- <-. split; [split; auto|]. split; [congruence|]. intros [] es2 X; discriminate.
    - destruct x as [n k| |]; cbn [load_entries] in H.
      + destruct (IH _ r1 e (eq_trans (eq_refl : r_state (set_sets _ r) = _) L) H) as (A & B & C).
        split; [|split; [exact B|]].
        * rewrite A. split; intros F; [constructor; cbn; auto | now inversion F].
        * intros [|y es1] es2 X F; [discriminate|]. injection X as <- X. inversion F; subst. eauto.
      + injection H as <- <-. split; [|split; [congruence|]].
        * split; [discriminate|]. intros F. inversion F; contradiction.
        * intros [|y es1] es2 X F; [discriminate|]. injection X as <- X. inversion F; contradiction.
      + injection H as <- <-. split; [|split; [discriminate | reflexivity]].
        split; [discriminate|]. intros F. inversion F; contradiction. }
  intros f r0 r1 e H. unfold load_file in H.
  destruct f as [[es|]|].
  - destruct (load_entries es (set_sets [] (set_state RLoading r0))) as [r' e'] eqn:E.
    destruct (K es (set_sets [] (set_state RLoading r0)) r' e' eq_refl E) as (A & B & C).
    destruct e' as [x|]; injection H as <- <-.
    + split; [|split].
      * split; [discriminate|]. intros (es' & X & F). injection X as <-. apply A in F. discriminate.
      * split; [contradiction | discriminate].
      * intros [X|[X|(es1 & es2 & X & F)]]; try discriminate. injection X as ->. eauto.
    + split; [|split].
      * split; [|auto]. intros _. exists es. split; [reflexivity | now apply A].
      * split; auto.
      * intros [X|[X|(es1 & es2 & X & F)]]; try discriminate. injection X as ->.
        assert (G : Forall is_scan (es1 ++ EKey :: es2)) by now apply A.
        apply Forall_app in G. destruct G as [_ G]. inversion G; contradiction.
  - injection H as <- <-. split; [|split].
    + split; [discriminate|]. intros (es & X & _); discriminate.
    + split; discriminate.
    + reflexivity.
  - injection H as <- <-. split; [|split].
    + split; [discriminate|]. intros (es & X & _); discriminate.
    + split; discriminate.
    + reflexivity.
Qed.
Print Assumptions C40_load.
Example C40_load_ex : snd (load_file (Some (Some [EScan "a" None; EBadScan; EKey])) new_runner) = Some EContent /\
  r_state (fst (load_file (Some (Some [EScan "a" None; EKey; EBadScan])) new_runner)) = RFault.
Proof. split; reflexivity. Qed.

(** A run that is ended by an error has run the first scans of the file, each once; the counters
    agree with the report. *)
Theorem C40_stopped : forall es r0 r1 world mk r2 e, good_file es ->
  load_file (Some (Some es)) r0 = (r1, None) -> run world mk true r1 = (r2, Some e) -> e <> EEmpty ->
  accounted r2 /\ r_successes r2 + r_failures r2 = r_completed r2 /\
  r_configured r2 = Z.of_nat (length (wanted es)) /\
  exists k, (k <= length (wanted es))%nat /\ r_report r2 = with_outcomes world 0 (firstn k (wanted es)).
Proof.
  intros es r0 r1 world mk r2 e G L R N. destruct (load_file_good es r0 G) as (r1' & L1 & L2 & L3 & _).
  assert (r1' = r1) by congruence. subst r1'. unfold run in R.
  destruct (r_sets r1) as [|p d] eqn:Es; [congruence|]. cbn [negb] in R.
  rewrite <- Es in R. set (r0' := mkRunner _ _ _ _ _ _ _) in R. try rewrite Es in L2.
  assert (A : accounted r0') by (repeat split).
  pose proof (run_sets_went world mk (r_sets r0') r0' A) as H.
  destruct (run_sets world mk (r_sets r0') r0') as [r3 [x|]]; [|discriminate].
  assert (r3 = r2) by congruence. subst r3.
  destruct H as (H1 & H4 & k & H5 & H6 & H7).
  cbn [r0' r_sets r_report r_completed r_configured app] in H4, H5, H7. rewrite Es, L2 in H5, H7.
  split; [auto|]. split. { destruct H1 as (X1 & X2 & X3). pose proof (good_bad (r_report r2)). lia. }
  split; [congruence|]. eauto.
Qed.
Print Assumptions C40_stopped.

(** Three scans: one times out, one cannot be configured, one succeeds. *)
Local Open Scope string_scope.
Local Open Scope list_scope.
Definition ex_world (n : Z) : attempt :=
  match n with
  | 0 => mkAttempt true None None (Some XTimeout) false true
  | 1 => mkAttempt true None (Some XAssert) None false true
  | _ => mkAttempt true None None None false true
  end.
Example C40_ex :
  let es := [EScan "fine" (Some 2); EScan "coarse" None] in
  good_file es /\ calm ex_world /\ wanted es = [("fine", 1); ("fine", 2); ("coarse", 1)] /\
  let r1 := fst (load_file (Some (Some es)) new_runner) in
  let r2 := fst (run ex_world (fun _ => true) true r1) in
  r_configured r1 = 3 /\
  r_report r2 = [("fine", 1, OTimeout); ("fine", 2, OMisconfigured); ("coarse", 1, OSuccess)] /\
  r_completed r2 = 3 /\ r_successes r2 = 1 /\ r_failures r2 = 2 /\ r_state r2 = RFinished.
Proof.
  cbv zeta. split.
  - split; [repeat constructor; cbn; lia|]. cbn. repeat constructor; cbn; intuition discriminate.
  - split; [|vm_compute; repeat split; reflexivity].
    intros n. destruct n as [|p|p]; cbn; auto. destruct p; cbn; auto.
Qed.
Example C40_stopped_ex :
  let w (n : Z) := if (n =? 1)%Z then mkAttempt true (Some XTimeout) None None false true else ex_world n in
  let r1 := fst (load_file (Some (Some [EScan "fine" (Some 2); EScan "coarse" None])) new_runner) in
  snd (run w (fun _ => true) true r1) = Some (EBlock XTimeout) /\
  r_completed (fst (run w (fun _ => true) true r1)) = 1.
Proof. vm_compute. split; reflexivity. Qed.

(** A negative number of repeats is taken off the number of scans configured. *)
Theorem C40_negative_repeats_refuted : exists es r1 r2, NoDup (flat_map name_of es) /\
  load_file (Some (Some es)) new_runner = (r1, None) /\
  run ex_world (fun _ => true) true r1 = (r2, None) /\ r_configured r2 = 1 /\ r_completed r2 = 3.
Proof.
  exists [EScan "a" (Some 3); EScan "b" (Some (-2))]. eexists _, _.
  split; [cbn; repeat constructor; cbn; intuition discriminate|].
  split; [vm_compute; reflexivity|]. split; [vm_compute; reflexivity|]. vm_compute. auto.
Qed.
Print Assumptions C40_negative_repeats_refuted.

(** Two scans of one name: the first is lost without notice. *)
Theorem C40_same_name_refuted : exists es r1 r2, Forall ok_entry es /\ length (wanted es) = 4%nat /\
  load_file (Some (Some es)) new_runner = (r1, None) /\
  run ex_world (fun _ => true) true r1 = (r2, None) /\ r_configured r2 = 1 /\ length (r_report r2) = 1%nat.
Proof.
  exists [EScan "a" (Some 3); EScan "a" None]. eexists _, _.
  split; [repeat constructor; cbn; lia|]. split; [reflexivity|].
  split; [vm_compute; reflexivity|]. split; [vm_compute; reflexivity|]. vm_compute. auto.
Qed.
Print Assumptions C40_same_name_refuted.

(** After a load that failed half way a run is accepted: it runs the scans before the bad entry,
    with the scansConfigured of the file before. *)
Theorem C40_failed_load_refuted : exists es1 es2 r1 r2 e r3, good_file es1 /\
  load_file (Some (Some es1)) new_runner = (r1, None) /\
  load_file (Some (Some es2)) r1 = (r2, Some e) /\
  run ex_world (fun _ => true) true r2 = (r3, None) /\ r_state r3 = RFinished /\
  r_configured r3 = 5 /\ r_completed r3 = 2.
Proof.
  exists [EScan "a" (Some 5)], [EScan "b" (Some 2); EKey]. eexists _, _, _, _.
  split. { split; [repeat constructor; cbn; lia|]. cbn. repeat constructor; cbn; auto. }
  split; [vm_compute; reflexivity|]. split; [vm_compute; reflexivity|]. split; [vm_compute; reflexivity|].
  vm_compute. auto.
Qed.
Print Assumptions C40_failed_load_refuted.

(** abort() ends only the scan in progress: the scans after it still run, and the runner ends
    Finished. *)
Theorem C40_abort_refuted : exists es world r1 r2, good_file es /\ a_abort (world 0) = true /\
  load_file (Some (Some es)) new_runner = (r1, None) /\
  run world (fun _ => true) true r1 = (r2, None) /\
  r_report r2 = [("a", 1, OAborted); ("a", 2, OSuccess); ("a", 3, OSuccess)] /\ r_state r2 = RFinished.
Proof.
  exists [EScan "a" (Some 3)], (fun n => if (n =? 0)%Z then mkAttempt true None None (Some XAborted) true true
                                          else mkAttempt true None None None false true).
  eexists _, _. split. { split; [repeat constructor; cbn; lia|]. cbn. repeat constructor; cbn; auto. }
  split; [reflexivity|]. split; [vm_compute; reflexivity|]. split; [vm_compute; reflexivity|].
  vm_compute. auto.
Qed.
Print Assumptions C40_abort_refuted.
