(* Proofs for the sequencer area: C26, C27, C28 *)
From Coq Require Import String Bool ZArith QArith Lia List.
From Verif Require Import Base Seq_Model Seq_Spec.
Import ListNotations.
Local Open Scope list_scope.
Local Open Scope Z_scope.

(* ---------------- lists ---------------- *)
Lemma set_last_snoc {A} (l : list A) x y : set_last (l ++ [x]) y = l ++ [y].
Proof.
  induction l as [|a l IH]; [reflexivity|].
  cbn [app]. destruct (l ++ [x]) eqn:E; [destruct l; discriminate|].
  simpl. simpl in IH. rewrite <- IH. reflexivity.
Qed.

Lemma snoc_of_rev {A} (l : list A) x r : rev l = x :: r -> exists i, l = i ++ [x].
Proof. intros H. exists (rev r). rewrite <- (rev_involutive l), H. reflexivity. Qed.

Lemma rev_nil_inv {A} (l : list A) : rev l = [] -> l = [].
Proof. intros H. rewrite <- (rev_involutive l), H. reflexivity. Qed.

(* ---------------- acts ---------------- *)
Lemma acts_app a b : acts (a ++ b) = acts a ++ acts b.
Proof. apply flat_map_app. Qed.

Lemma acts_one_row r : acts [r] = acts_of_row r.
Proof. unfold acts. simpl. apply app_nil_r. Qed.

Lemma acts_of_1 r : r_repeats r = 1 -> acts_of_row r = [Once (pulse_of r)].
Proof. intros H. unfold acts_of_row. rewrite H. reflexivity. Qed.

Lemma repeat_app {A} (x : A) n m : repeat x (n + m) = repeat x n ++ repeat x m.
Proof. induction n; simpl; congruence. Qed.

Lemma acts_split_first r :
  1 < r_repeats r ->
  acts_of_row r = acts_of_row (set_repeats r 1) ++ acts_of_row (set_repeats r (r_repeats r - 1)).
Proof.
  intros H. unfold acts_of_row. cbn [r_repeats set_repeats].
  destruct (Z.eqb_spec (r_repeats r) 0); [lia|].
  destruct (Z.eqb_spec 1 0); [lia|].
  destruct (Z.eqb_spec (r_repeats r - 1) 0); [lia|].
  change (pulse_of (set_repeats r 1)) with (pulse_of r).
  change (pulse_of (set_repeats r (r_repeats r - 1))) with (pulse_of r).
  rewrite <- repeat_app. f_equal. lia.
Qed.

Lemma acts_split_last r :
  1 < r_repeats r ->
  acts_of_row r = acts_of_row (set_repeats r (r_repeats r - 1)) ++ acts_of_row (set_repeats r 1).
Proof.
  intros H. unfold acts_of_row. cbn [r_repeats set_repeats].
  destruct (Z.eqb_spec (r_repeats r) 0); [lia|].
  destruct (Z.eqb_spec 1 0); [lia|].
  destruct (Z.eqb_spec (r_repeats r - 1) 0); [lia|].
  change (pulse_of (set_repeats r 1)) with (pulse_of r).
  change (pulse_of (set_repeats r (r_repeats r - 1))) with (pulse_of r).
  rewrite <- repeat_app. f_equal. lia.
Qed.

(* ---------------- durations ---------------- *)
Lemma calc_from rows a :
  fold_left (fun d r => d + r_repeats r * (r_time1 r + r_time2 r)) rows a
  = a + calc_duration rows.
Proof.
  unfold calc_duration. revert a. induction rows as [|r rows IH]; intros a; cbn [fold_left].
  - lia.
  - rewrite IH. rewrite (IH (0 + _)). lia.
Qed.

Lemma calc_app a b : calc_duration (a ++ b) = calc_duration a + calc_duration b.
Proof. unfold calc_duration at 1. rewrite fold_left_app, calc_from. reflexivity. Qed.

Definition dur_ok (s : seqrows) : Prop := (s_dur s == inject_Z (calc_duration (s_rows s)))%Q.

Lemma dur_ok_of rows : dur_ok (sr_of rows).
Proof. destruct rows; unfold dur_ok; simpl; reflexivity. Qed.

Lemma sr_of_rows rows : s_rows (sr_of rows) = rows.
Proof. destruct rows; reflexivity. Qed.

Lemma dur_ok_empty : dur_ok sr_empty.
Proof. unfold dur_ok. simpl. reflexivity. Qed.

Lemma dur_ok_extend a b : dur_ok a -> dur_ok b -> dur_ok (sr_extend a b).
Proof.
  unfold dur_ok, sr_extend. cbn [s_dur s_rows]. intros Ha Hb.
  rewrite calc_app, inject_Z_plus, Ha, Hb. reflexivity.
Qed.

Lemma calc_repeat r n :
  calc_duration (repeat r n) = Z.of_nat n * (r_repeats r * (r_time1 r + r_time2 r)).
Proof.
  induction n as [|n IH]; [reflexivity|].
  change (repeat r (S n)) with ([r] ++ repeat r n). rewrite calc_app, IH.
  unfold calc_duration. cbn [fold_left]. lia.
Qed.

Lemma dur_ok_add s count t pos half live dead trim :
  0 <= count -> dur_ok s -> dur_ok (add_seq_entry s count t pos half live dead trim).
Proof.
  unfold dur_ok, add_seq_entry. cbv zeta. cbn [s_dur s_rows]. intros Hc Hs.
  rewrite !calc_app, calc_repeat, Hs.
  rewrite <- inject_Z_plus. apply inject_Z_injective.
  unfold calc_duration at 3. cbn [fold_left r_repeats r_time1 r_time2 seq_row].
  pose proof (Z.div_mod count MAX_REPEATS ltac:(unfold MAX_REPEATS; lia)) as D.
  pose proof (Z.div_pos count MAX_REPEATS Hc ltac:(unfold MAX_REPEATS; lia)) as D'.
  rewrite Z2Nat.id by exact D'.
  set (q := count / MAX_REPEATS) in *. set (m := count mod MAX_REPEATS) in *.
  rewrite D. ring.
Qed.

(* ---------------- C26 ---------------- *)
Lemma add_seq_entry_rows s count t pos half live dead trim :
  s_rows (add_seq_entry s count t pos half live dead trim)
  = s_rows s ++ repeat (seq_row MAX_REPEATS t pos half live dead trim)
                       (Z.to_nat (count / MAX_REPEATS))
             ++ [seq_row (count mod MAX_REPEATS) t pos half live dead trim].
Proof. unfold add_seq_entry. cbv zeta. cbn [s_rows]. rewrite app_assoc. reflexivity. Qed.

Lemma sum_repeat r n :
  fold_right (fun r t => r_repeats r + t) 0 (repeat r n) = Z.of_nat n * r_repeats r.
Proof. induction n; [reflexivity|]. cbn [repeat fold_right]. rewrite IHn. lia. Qed.

Lemma fold_sum_app a b :
  fold_right (fun r t => r_repeats r + t) 0 (a ++ b)
  = fold_right (fun r t => r_repeats r + t) 0 a + fold_right (fun r t => r_repeats r + t) 0 b.
Proof. induction a; cbn [app fold_right]; lia. Qed.

Lemma repeat_flat {A B} (f : A -> list B) x n :
  flat_map f (repeat x n) = concat (repeat (f x) n).
Proof. induction n; simpl; congruence. Qed.

Lemma concat_repeat_repeat {A} (x : A) n m : concat (repeat (repeat x m) n) = repeat x (n * m).
Proof. induction n; simpl; [reflexivity|]. rewrite repeat_app. congruence. Qed.

Definition entry_pulse t pos half live dead trim : pulse :=
  mkPulse t pos half live dead (half - trim).

Lemma acts_add s count t pos half live dead trim :
  0 <= count ->
  acts (s_rows (add_seq_entry s count t pos half live dead trim))
  = acts (s_rows s)
    ++ repeat (Once (entry_pulse t pos half live dead trim)) (Z.to_nat count)
    ++ (if count mod MAX_REPEATS =? 0
        then [Forever (entry_pulse t pos half live dead trim)] else []).
Proof.
  intros Hc. rewrite add_seq_entry_rows, !acts_app. f_equal.
  pose proof (Z.div_mod count MAX_REPEATS ltac:(unfold MAX_REPEATS; lia)) as D.
  pose proof (Z.div_pos count MAX_REPEATS Hc ltac:(unfold MAX_REPEATS; lia)) as D'.
  pose proof (Z.mod_pos_bound count MAX_REPEATS ltac:(unfold MAX_REPEATS; lia)) as D2.
  set (q := count / MAX_REPEATS) in *. set (m := count mod MAX_REPEATS) in *.
  unfold acts at 1. rewrite repeat_flat.
  unfold acts_of_row at 1. cbn [r_repeats seq_row].
  destruct (Z.eqb_spec MAX_REPEATS 0); [unfold MAX_REPEATS in *; lia|].
  rewrite concat_repeat_repeat, acts_one_row.
  unfold acts_of_row. cbn [r_repeats seq_row].
  change (pulse_of (seq_row MAX_REPEATS t pos half live dead trim))
    with (entry_pulse t pos half live dead trim).
  change (pulse_of (seq_row m t pos half live dead trim))
    with (entry_pulse t pos half live dead trim).
  assert (Hq : Z.to_nat count = (Z.to_nat q * Z.to_nat MAX_REPEATS + Z.to_nat m)%nat).
  { rewrite D. rewrite Z2Nat.inj_add by (unfold MAX_REPEATS in *; lia).
    rewrite Z2Nat.inj_mul by (unfold MAX_REPEATS in *; lia). lia. }
  destruct (Z.eqb_spec m 0) as [Hm|Hm].
  - rewrite Hm in Hq. rewrite Nat.add_0_r in Hq. rewrite Hq. reflexivity.
  - rewrite Hq, repeat_app, app_nil_r. reflexivity.
Qed.

(* ---------------- split ---------------- *)
Definition finite (rows : list row) : Prop := Forall (fun r => 1 <= r_repeats r) rows.

Definition good (rows : list row) : Prop := finite rows \/ ends_in_loop rows.

Lemma split_finish_acts l f dur rem :
  r_repeats f = 1 ->
  trimmed SEQ_TABLE_SWITCH_DELAY (acts (l ++ [f])) (acts (s_rows (split_finish (l ++ [f]) dur rem)))
  /\ length (s_rows (split_finish (l ++ [f]) dur rem)) = S (length l).
Proof.
  intros Hf. unfold split_finish. rewrite rev_app_distr. cbn [rev app s_rows].
  rewrite set_last_snoc, !acts_app, !acts_one_row. split.
  - rewrite acts_of_1 by exact Hf.
    rewrite acts_of_1 by exact Hf.
    change (Once (pulse_of (set_time2 f (r_time2 f - SEQ_TABLE_SWITCH_DELAY))))
      with (shorten SEQ_TABLE_SWITCH_DELAY (Once (pulse_of f))).
    constructor.
  - rewrite app_length. simpl. lia.
Qed.

Lemma ends_in_loop_skip a b : ends_in_loop (a ++ b) -> b <> [] -> finite a /\ ends_in_loop b.
Proof.
  intros (i & l & E & Hl & Hi) Hb.
  destruct (exists_last Hb) as (b' & x & ->).
  rewrite app_assoc in E. apply app_inj_tail in E. destruct E as [E1 E2]. subst x i.
  apply Forall_app in Hi. destruct Hi as [H1 H2]. split; [exact H1|].
  exists b', l. auto.
Qed.

Lemma good_nth rows n r :
  good rows -> nth_error rows n = Some r ->
  1 <= r_repeats r \/ (r_repeats r = 0 /\ S n = length rows /\ ends_in_loop rows).
Proof.
  intros [H|H] E.
  - left. unfold finite in H. rewrite Forall_forall in H. apply H.
    eapply nth_error_In; eauto.
  - destruct H as (i & l & Hr & Hl & Hi). subst rows.
    destruct (Nat.lt_ge_cases n (length i)) as [Hn|Hn].
    + rewrite nth_error_app1 in E by lia. left.
      rewrite Forall_forall in Hi. apply Hi. eapply nth_error_In; eauto.
    + rewrite nth_error_app2 in E by lia.
      destruct (n - length i)%nat eqn:En; simpl in E.
      * injection E as <-. right. split; [exact Hl|]. rewrite app_length. simpl.
        split; [lia|]. exists i, l. auto.
      * destruct n0; discriminate.
Qed.

Lemma nth_split3 {A} (l : list A) n x :
  nth_error l n = Some x -> l = firstn n l ++ [x] ++ skipn (S n) l.
Proof.
  revert l. induction n as [|n IH]; intros [|a l] E; try discriminate; simpl in *.
  - injection E as <-. reflexivity.
  - f_equal. apply IH. exact E.
Qed.

Lemma firstn_S_nth {A} (l : list A) n x :
  nth_error l n = Some x -> firstn (S n) l = firstn n l ++ [x].
Proof.
  revert l. induction n as [|n IH]; intros [|a l] E; try discriminate; simpl in *.
  - injection E as <-. reflexivity.
  - f_equal. apply IH. exact E.
Qed.

Lemma good_tail a b : good (a ++ b) -> (finite (a ++ b) -> finite b) /\ (b <> [] -> ends_in_loop (a ++ b) -> ends_in_loop b).
Proof.
  intros _. split.
  - intros H. apply Forall_app in H. apply H.
  - intros Hb H. apply (ends_in_loop_skip a b H Hb).
Qed.

Definition split_result (rows : list row) (count : Z) (self rem : seqrows) : Prop :=
  dur_ok rem /\ Z.of_nat (length (s_rows self)) <= count /\
  (length (s_rows rem) < length rows)%nat /\
  ((exists l, acts rows = l ++ acts (s_rows rem)
      /\ trimmed SEQ_TABLE_SWITCH_DELAY l (acts (s_rows self))
      /\ (finite rows -> finite (s_rows rem))
      /\ (ends_in_loop rows -> ends_in_loop (s_rows rem)))
   \/ (s_rows rem = [] /\ s_rows self = rows /\ ends_in_loop rows)).

Lemma finite_not_loop rows : finite rows -> ends_in_loop rows -> False.
Proof.
  intros H (i & l & -> & Hl & _). apply Forall_app in H. destruct H as [_ H].
  inversion H; subst. lia.
Qed.

Lemma split_ok s count :
  2 <= count -> good (s_rows s) -> s_rows s <> [] ->
  exists self rem, split s count = Ok (self, rem) /\ split_result (s_rows s) count self rem.
Proof.
  intros Hc Hg Hne. unfold split.
  destruct (rev (s_rows s)) as [|lastrow r0] eqn:Er.
  { apply rev_nil_inv in Er. contradiction. }
  destruct (snoc_of_rev _ _ _ Er) as [i Hi].
  assert (Hlast : nth_error (s_rows s) (length i) = Some lastrow).
  { rewrite Hi, nth_error_app2, Nat.sub_diag by lia. reflexivity. }
  unfold sr_len.
  destruct (Z.leb_spec count (Z.of_nat (length (s_rows s)))) as [Hle|Hlt].
  - destruct (nth_error (s_rows s) (Z.to_nat count - 1)) as [final|] eqn:En.
    2:{ apply nth_error_None in En. lia. }
    pose proof (good_nth _ _ _ Hg En) as Hf.
    set (n := Z.to_nat count) in *.
    assert (Hn : S (n - 1) = n) by lia.
    pose proof (nth_split3 _ _ _ En) as Hsp. rewrite Hn in Hsp.
    assert (Hlf : length (firstn (n - 1) (s_rows s)) = (n - 1)%nat)
      by (rewrite firstn_length; lia).
    assert (Hlk : length (skipn n (s_rows s)) = (length (s_rows s) - n)%nat)
      by apply skipn_length.
    destruct (Z.eqb_spec (r_repeats final) 0) as [H0|H0].
    + destruct Hf as [Hf|(_ & Hlen & Hloop)]; [lia|].
      destruct (Z.eqb_spec (Z.of_nat (length (s_rows s))) count) as [He|He]; [|lia].
      do 2 eexists. split; [reflexivity|].
      split; [apply dur_ok_empty|]. split; [lia|]. split; [simpl; lia|].
      right. auto.
    + destruct Hf as [Hf|[Hf _]]; [|lia].
      assert (Hloopne : ends_in_loop (s_rows s) -> skipn n (s_rows s) <> []).
      { intros (i' & l' & E & Hl' & Hi') Hnil. rewrite Hnil in Hsp. simpl in Hsp.
        rewrite E in Hsp at 1. apply app_inj_tail in Hsp. destruct Hsp as [_ Hsp].
        subst l'. lia. }
      destruct (Z.eqb_spec (r_repeats final) 1) as [H1|H1].
      * do 2 eexists. split; [reflexivity|].
        pose proof (firstn_S_nth _ _ _ En) as Hfn. rewrite Hn in Hfn. rewrite Hfn.
        destruct (split_finish_acts (firstn (n - 1) (s_rows s)) final (s_dur s)
                    (sr_of (skipn n (s_rows s))) H1) as [Ht Hlt].
        split; [apply dur_ok_of|]. split; [rewrite Hlt; lia|].
        rewrite sr_of_rows. split; [lia|].
        left. exists (acts (firstn (n - 1) (s_rows s) ++ [final])).
        split; [|split; [exact Ht|split]].
        -- rewrite <- acts_app, <- app_assoc, <- Hsp. reflexivity.
        -- intros H. rewrite Hsp, app_assoc in H. apply Forall_app in H. apply H.
        -- intros H. pose proof (Hloopne H) as Hk. rewrite Hsp, app_assoc in H.
           apply (ends_in_loop_skip _ _ H Hk).
      * destruct (Z.ltb_spec 1 (r_repeats final)) as [H2|H2]; [|lia].
        do 2 eexists. split; [reflexivity|].
        set (rem := sr_extend _ _).
        assert (Hrem : s_rows rem = set_repeats final (r_repeats final - 1) :: skipn n (s_rows s)).
        { unfold rem, sr_extend. cbn [s_rows]. rewrite !sr_of_rows. reflexivity. }
        destruct (split_finish_acts (firstn (n - 1) (s_rows s)) (set_repeats final 1) (s_dur s)
                    rem eq_refl) as [Ht Hlt].
        split; [apply dur_ok_extend; apply dur_ok_of|]. split; [rewrite Hlt; lia|].
        rewrite Hrem. split; [simpl; lia|].
        left. exists (acts (firstn (n - 1) (s_rows s) ++ [set_repeats final 1])).
        split; [|split; [exact Ht|split]].
        -- rewrite Hsp at 1. rewrite !acts_app, !acts_one_row, (acts_split_first final H2).
           change (set_repeats final (r_repeats final - 1) :: skipn n (s_rows s))
             with ([set_repeats final (r_repeats final - 1)] ++ skipn n (s_rows s)).
           rewrite acts_app, acts_one_row, <- !app_assoc. reflexivity.
        -- intros H. rewrite Hsp, app_assoc in H. apply Forall_app in H.
           constructor; [simpl; lia|apply H].
        -- intros H. pose proof (Hloopne H) as Hk. rewrite Hsp, app_assoc in H.
           destruct (ends_in_loop_skip _ _ H Hk) as [_ (i' & l' & E & Hl' & Hi')].
           rewrite E. exists (set_repeats final (r_repeats final - 1) :: i'), l'.
           split; [reflexivity|]. split; [exact Hl'|]. constructor; [simpl; lia|exact Hi'].
  - assert (Hlen : length (s_rows s) = S (length i)).
    { rewrite Hi, app_length. simpl. lia. }
    pose proof (good_nth _ _ _ Hg Hlast) as Hf.
    destruct (Z.eqb_spec (r_repeats lastrow) 0) as [H0|H0].
    + destruct Hf as [Hf|(_ & _ & Hloop)]; [lia|].
      do 2 eexists. split; [reflexivity|].
      split; [apply dur_ok_empty|]. split; [lia|]. split; [simpl; lia|]. right. auto.
    + destruct Hf as [Hf|[Hf _]]; [|lia].
      assert (Hnl : ends_in_loop (s_rows s) -> False).
      { intros (i' & l' & E & Hl' & _). rewrite Hi in E. apply app_inj_tail in E.
        destruct E; subst l'. lia. }
      destruct (Z.ltb_spec 1 (r_repeats lastrow)) as [H2|H2].
      * do 2 eexists. split; [reflexivity|].
        rewrite Hi, set_last_snoc.
        destruct (split_finish_acts (i ++ [set_repeats lastrow (r_repeats lastrow - 1)])
                    (set_repeats lastrow 1) (s_dur s) sr_empty eq_refl) as [Ht Hl].
        split; [apply dur_ok_empty|].
        split; [rewrite Hl, app_length; simpl; lia|].
        split; [simpl; rewrite app_length; simpl; lia|].
        left. eexists. split; [|split; [exact Ht|split]].
        -- simpl. rewrite app_nil_r, !acts_app, !acts_one_row, (acts_split_last lastrow H2), app_assoc.
           reflexivity.
        -- intros _. constructor.
        -- intros H. rewrite <- Hi in H. destruct (Hnl H).
      * assert (H1 : r_repeats lastrow = 1) by lia.
        do 2 eexists. split; [reflexivity|].
        rewrite Hi.
        destruct (split_finish_acts i lastrow (s_dur s) sr_empty H1) as [Ht Hl].
        split; [apply dur_ok_empty|]. split; [rewrite Hl; lia|].
        split; [simpl; rewrite app_length; simpl; lia|].
        left. eexists. split; [|split; [exact Ht|split]].
        -- simpl. rewrite app_nil_r. reflexivity.
        -- intros _. constructor.
        -- intros H. rewrite <- Hi in H. destruct (Hnl H).
Qed.

(* ---------------- the loop of _get_tables ---------------- *)
Definition loop_result (rows : list row) (ts : list (list row)) (rem : seqrows) : Prop :=
  dur_ok rem /\ Forall (fun t => Z.of_nat (length t) <= SEQ_TABLE_ROWS) ts /\
  Z.of_nat (length (s_rows rem)) <= SEQ_TABLE_ROWS /\
  ((finite rows -> finite (s_rows rem)) /\
   (ends_in_loop rows -> s_rows rem = [] \/ ends_in_loop (s_rows rem))) /\
  (forall rest tables,
     (ends_in_loop rows -> rest = []) ->
     (ends_in_loop rows -> s_rows rem = [] -> tables = []) ->
     replays SEQ_TABLE_SWITCH_DELAY (acts (s_rows rem) ++ rest) tables ->
     replays SEQ_TABLE_SWITCH_DELAY (acts rows ++ rest) (map acts ts ++ tables)).

Lemma acts_nonempty_loop rows : ends_in_loop rows -> acts rows <> [].
Proof.
  intros (i & l & -> & Hl & _) H. rewrite acts_app in H. apply app_eq_nil in H.
  destruct H as [_ H]. rewrite acts_one_row in H. unfold acts_of_row in H.
  rewrite Hl in H. discriminate.
Qed.

Lemma split_loop_ok fuel s :
  (length (s_rows s) < fuel)%nat -> good (s_rows s) -> s_rows s <> [] ->
  exists ts rem, split_loop fuel s = Ok (ts, rem) /\ loop_result (s_rows s) ts rem.
Proof.
  revert s. induction fuel as [|fuel IH]; intros s Hf Hg Hne; [lia|].
  cbn [split_loop].
  destruct (split_ok s SEQ_TABLE_ROWS ltac:(unfold SEQ_TABLE_ROWS; lia) Hg Hne)
    as (self & rem & E & Hd & Hl & Hlt & Hcase).
  rewrite E. unfold sr_len.
  destruct (Z.leb_spec (Z.of_nat (length (s_rows rem))) SEQ_TABLE_ROWS) as [Hs|Hs].
  - do 2 eexists. split; [reflexivity|].
    split; [exact Hd|]. split; [constructor; [exact Hl|constructor]|]. split; [exact Hs|].
    destruct Hcase as [(l & Ha & Ht & Hfin & Hloop)|(Hr & Hself & Hloop)].
    + split; [split; [exact Hfin|intros H; right; auto]|].
      intros rest tables _ _ Hrep. rewrite Ha, <- app_assoc. cbn [map app].
      constructor; assumption.
    + split; [split|].
      * intros H. destruct (finite_not_loop _ H Hloop).
      * intros _. left. exact Hr.
      * intros rest tables Hrest Htab _. rewrite (Hrest Hloop), (Htab Hloop Hr), !app_nil_r.
        cbn [map]. rewrite Hself. constructor. apply acts_nonempty_loop. exact Hloop.
  - destruct Hcase as [(l & Ha & Ht & Hfin & Hloop)|(Hr & _ & _)].
    2:{ rewrite Hr in Hs. simpl in Hs. unfold SEQ_TABLE_ROWS in Hs. lia. }
    assert (Hg' : good (s_rows rem)).
    { destruct Hg as [H|H]; [left; auto|right; auto]. }
    assert (Hne' : s_rows rem <> []).
    { intros H. rewrite H in Hs. simpl in Hs. unfold SEQ_TABLE_ROWS in Hs. lia. }
    destruct (IH rem ltac:(lia) Hg' Hne')
      as (ts & rem' & E' & Hd' & Hts & Hl' & [Hf1 Hf2] & Hrep).
    rewrite E'. do 2 eexists. split; [reflexivity|].
    split; [exact Hd'|]. split; [constructor; assumption|]. split; [exact Hl'|].
    split; [split; auto|].
    intros rest tables Hrest Htab Hr. rewrite Ha, <- app_assoc. cbn [map app].
    constructor; [exact Ht|]. apply Hrep.
    + intros H. apply Hrest. destruct Hg as [Hg|Hg]; [|exact Hg].
      destruct (finite_not_loop _ (Hfin Hg) H).
    + intros H. apply Htab. destruct Hg as [Hg|Hg]; [|exact Hg].
      destruct (finite_not_loop _ (Hfin Hg) H).
    + exact Hr.
Qed.

Lemma must_split_nonempty s : dur_ok s -> must_split s = true -> s_rows s <> [].
Proof.
  intros Hd Hm Hn. unfold must_split in Hm. unfold dur_ok in Hd. rewrite Hn in Hd.
  apply orb_true_iff in Hm. destruct Hm as [Hm|Hm].
  - apply negb_true_iff in Hm. unfold sr_duration in Hm.
    assert (H : (s_dur s * TICK <= MIN_TABLE_DURATION)%Q).
    { rewrite Hd. unfold Qle. vm_compute. discriminate. }
    apply Qle_bool_iff in H. congruence.
  - unfold sr_len in Hm. rewrite Hn in Hm. discriminate.
Qed.

Lemma must_split_len s : must_split s = false -> Z.of_nat (length (s_rows s)) <= SEQ_TABLE_ROWS.
Proof.
  unfold must_split. intros H. apply orb_false_iff in H. destruct H as [_ H].
  apply Z.ltb_ge in H. exact H.
Qed.

Lemma get_tables_from_ok gen : forall s,
  dur_ok s -> Forall dur_ok gen ->
  Z.of_nat (length (s_rows s)) <= SEQ_TABLE_ROWS ->
  (s_rows s ++ all_rows gen = [] \/ ends_in_loop (s_rows s ++ all_rows gen)) ->
  exists tables, get_tables_from s gen = Ok tables
    /\ Forall (fun t => Z.of_nat (length t) <= SEQ_TABLE_ROWS) tables
    /\ replays SEQ_TABLE_SWITCH_DELAY (acts (s_rows s ++ all_rows gen)) (map acts tables)
    /\ (s_rows s ++ all_rows gen = [] -> tables = []).
Proof.
  induction gen as [|rs gen IH]; intros s Hd Hg Hl Hw; cbn [get_tables_from].
  - cbn [all_rows flat_map] in *. rewrite app_nil_r in *.
    unfold sr_len. destruct (Z.eqb_spec (Z.of_nat (length (s_rows s))) 0) as [H0|H0].
    + assert (s_rows s = []) as E by (destruct (s_rows s); [reflexivity|simpl in H0; lia]).
      rewrite E. eexists. split; [reflexivity|]. split; [constructor|]. split; [constructor|auto].
    + eexists. split; [reflexivity|]. split; [repeat constructor; exact Hl|]. split.
      * cbn [map]. constructor. destruct Hw as [Hw|Hw].
        -- rewrite Hw in H0. simpl in H0. lia.
        -- apply acts_nonempty_loop. exact Hw.
      * intros E. rewrite E in H0. simpl in H0. lia.
  - inversion Hg as [|? ? Hrs Hg']; subst.
    set (s1 := sr_extend s rs).
    assert (Hd1 : dur_ok s1) by (apply dur_ok_extend; assumption).
    assert (Hr1 : s_rows s1 = s_rows s ++ s_rows rs) by reflexivity.
    change (all_rows (rs :: gen)) with (s_rows rs ++ all_rows gen) in *.
    rewrite app_assoc, <- Hr1 in *.
    destruct (must_split s1) eqn:Em.
    + pose proof (must_split_nonempty s1 Hd1 Em) as Hne.
      destruct Hw as [Hw|Hw]; [apply app_eq_nil in Hw; destruct Hw; contradiction|].
      assert (Hgood : (all_rows gen = [] /\ ends_in_loop (s_rows s1))
                      \/ (all_rows gen <> [] /\ finite (s_rows s1) /\ ends_in_loop (all_rows gen))).
      { destruct (all_rows gen) as [|r rr] eqn:Eg.
        - left. rewrite app_nil_r in Hw. auto.
        - right. assert (Hnn : r :: rr <> []) by discriminate.
          destruct (ends_in_loop_skip _ _ Hw Hnn). auto. }
      assert (Hgd : good (s_rows s1)) by (destruct Hgood as [[_ H]|(_ & H & _)]; [right|left]; auto).
      destruct (split_loop_ok (S (length (s_rows s1))) s1 ltac:(lia) Hgd Hne)
        as (ts & rem & E & Hdr & Hts & Hlr & [Hf1 Hf2] & Hrep).
      rewrite E.
      destruct (IH rem Hdr Hg' Hlr) as (tables & E2 & Ht2 & Hr2 & Hn2).
      { destruct Hgood as [[Ha Hlo]|(Ha & Hfi & Hlo)].
        - rewrite Ha, app_nil_r. auto.
        - right. destruct Hlo as (i & l & Ei & Hl0 & Hi). rewrite Ei, app_assoc.
          exists (s_rows rem ++ i), l. split; [reflexivity|]. split; [exact Hl0|].
          apply Forall_app. split; [apply Hf1; exact Hfi|exact Hi]. }
      rewrite E2. eexists. split; [reflexivity|].
      split; [apply Forall_app; auto|]. split.
      * rewrite map_app, acts_app. apply Hrep.
        -- intros H. destruct Hgood as [[Ha _]|(_ & Hfi & _)].
           ++ rewrite Ha. reflexivity.
           ++ destruct (finite_not_loop _ Hfi H).
        -- intros H Hn. destruct Hgood as [[Ha _]|(_ & Hfi & _)].
           ++ rewrite (Hn2 ltac:(rewrite Hn, Ha; reflexivity)). reflexivity.
           ++ destruct (finite_not_loop _ Hfi H).
        -- rewrite <- acts_app. exact Hr2.
      * intros H. apply app_eq_nil in H. destruct H. contradiction.
    + apply IH; auto. apply must_split_len. exact Em.
Qed.

Lemma get_tables_ok gen :
  Forall dur_ok gen -> ends_in_loop (all_rows gen) ->
  exists tables, get_tables gen = Ok tables
    /\ Forall (fun t => Z.of_nat (length t) <= SEQ_TABLE_ROWS) tables
    /\ replays SEQ_TABLE_SWITCH_DELAY (acts (all_rows gen)) (map acts tables).
Proof.
  intros Hd Hl.
  destruct (get_tables_from_ok gen sr_empty dur_ok_empty Hd) as (t & E & H1 & H2 & _).
  - simpl. unfold SEQ_TABLE_ROWS. lia.
  - right. exact Hl.
  - exists t. auto.
Qed.

(* total time of what is replayed *)
Lemma total_time_app a b : total_time (a ++ b) = total_time a + total_time b.
Proof. unfold total_time. induction a; cbn [app fold_right]; lia. Qed.

Lemma trimmed_time n l l' :
  trimmed n l l' -> has_forever l = false -> total_time l' = total_time l - n.
Proof.
  intros H Hf. destruct H as [l a]. rewrite !total_time_app.
  unfold has_forever in Hf. rewrite existsb_app in Hf. apply orb_false_iff in Hf.
  destruct Hf as [_ Hf]. destruct a as [p|p]; [|discriminate].
  unfold total_time. cbn [fold_right shorten act_time p_time1 p_time2]. lia.
Qed.

Lemma has_forever_app a b : has_forever (a ++ b) = has_forever a || has_forever b.
Proof. apply existsb_app. Qed.

Lemma replays_nil n tables : replays n [] tables -> tables = [].
Proof.
  intros H. inversion H as [|l Hl|l l' rest t Ht Hr E]; [reflexivity|congruence|].
  destruct Ht as [l0 a]. destruct l0; discriminate.
Qed.

Lemma replays_time n l tables :
  replays n l tables ->
  forall i p, l = i ++ [Forever p] -> has_forever i = false ->
  fold_right (fun t s => total_time t + s) 0 tables
  = total_time l - n * (Z.of_nat (length tables) - 1).
Proof.
  intros H. induction H as [|l Hl|l l' rest tables Ht Hr IH]; intros i p E Hi.
  - destruct i; discriminate.
  - cbn [fold_right length]. lia.
  - destruct rest as [|x rest].
    + apply replays_nil in Hr. subst tables. rewrite app_nil_r in *.
      cbn [fold_right length]. destruct Ht as [l a]. apply app_inj_tail in E.
      destruct E as [_ ->]. cbn [shorten]. lia.
    + assert (Hne : x :: rest <> []) by discriminate.
      destruct (exists_last Hne) as (r & y & Er). rewrite Er in *.
      rewrite app_assoc in E. apply app_inj_tail in E. destruct E as [<- ->].
      rewrite has_forever_app in Hi. apply orb_false_iff in Hi. destruct Hi as [Hi1 Hi2].
      cbn [fold_right]. rewrite (IH r p eq_refl Hi2), (trimmed_time _ _ _ Ht Hi1).
      rewrite total_time_app. cbn [length]. rewrite Nat2Z.inj_succ. unfold Z.succ. rewrite !total_time_app. ring.
Qed.

Lemma finite_no_forever rows : finite rows -> has_forever (acts rows) = false.
Proof.
  induction 1 as [|r rows Hr _ IH]; [reflexivity|].
  change (acts (r :: rows)) with (acts_of_row r ++ acts rows).
  rewrite has_forever_app, IH, orb_false_r. unfold acts_of_row.
  destruct (Z.eqb_spec (r_repeats r) 0); [lia|].
  induction (Z.to_nat (r_repeats r)); [reflexivity|]. simpl. assumption.
Qed.

Lemma loop_acts rows :
  ends_in_loop rows -> exists i p, acts rows = i ++ [Forever p] /\ has_forever i = false.
Proof.
  intros (i & l & -> & Hl & Hi). rewrite acts_app, acts_one_row. unfold acts_of_row.
  rewrite Hl. simpl. do 2 eexists. split; [reflexivity|]. apply finite_no_forever. exact Hi.
Qed.

(* ---------------- the double buffer ---------------- *)
(* state of the buffer in terms of what has been written and what is to come *)
Lemma db_events_ok {T} (es : list (bool * bool)) : forall (d : dbuf T) sa sb,
  db_subscribed d = true ->
  sa = (match db_status d true with Some true => true | _ => false end) ->
  sb = (match db_status d false with Some true => true | _ => false end) ->
  db_written (db_events d es) = db_written d ++ combine (falls sa sb es) (db_gen d).
Proof.
  assert (Hidle : forall (es : list (bool * bool)) (d : dbuf T), db_subscribed d = false ->
            db_events d es = d).
  { induction es0 as [|e es0 IH]; intros d H; [reflexivity|].
    unfold db_events in *. simpl. unfold db_active at 2. rewrite H. simpl. apply IH. exact H. }
  induction es as [|[side v] es IH]; intros d sa sb Hs Ha Hb.
  - simpl. rewrite app_nil_r. reflexivity.
  - change (db_events d ((side, v) :: es)) with (db_events (db_active d side v) es).
    cbn [falls]. unfold db_active. rewrite Hs. cbn [negb].
    set (old := if side then sa else sb).
    assert (Hold : old = match db_status d side with Some true => true | _ => false end)
      by (unfold old; destruct side; assumption).
    assert (Hst : forall f, (forall x, f x = db_status d x) ->
        (if side then v else sa) = match set_status f side v true with Some true => true | _ => false end
        /\ (if side then sb else v) = match set_status f side v false with Some true => true | _ => false end).
    { intros f Hf. unfold set_status. destruct side; cbn [Bool.eqb]; rewrite Hf, <- ?Ha, <- ?Hb;
        destruct v; auto. }
    destruct (old && negb v) eqn:Ef.
    + apply andb_true_iff in Ef. destruct Ef as [E1 E2]. destruct v; [discriminate|].
      destruct (db_status d side) as [[|]|] eqn:Ed; try congruence.
      unfold db_fill. destruct (db_gen d) as [|t g] eqn:Eg.
      * rewrite Hidle by reflexivity. simpl. rewrite app_nil_r. reflexivity.
      * cbn [db_gen db_status db_subscribed db_finished db_written].
        destruct (Hst (db_status d) (fun _ => eq_refl)) as [H1 H2].
        rewrite (IH _ (if side then false else sa) (if side then sb else false));
          [|exact Hs|exact H1|exact H2].
        cbn [db_gen db_written combine]. rewrite <- app_assoc. reflexivity.
    + destruct (Hst (db_status d) (fun _ => eq_refl)) as [H1 H2].
      assert (Hgo : db_written (db_events (mkDB (db_gen d) (set_status (db_status d) side v)
                (db_subscribed d) (db_finished d) (db_written d)) es)
              = db_written d ++ combine (falls (if side then v else sa) (if side then sb else v) es) (db_gen d)).
      { rewrite (IH _ (if side then v else sa) (if side then sb else v)); auto. }
      rewrite Hs in Hgo.
      destruct (db_status d side) as [[|]|] eqn:Ed; try exact Hgo.
      destruct v; [exact Hgo|]. rewrite Hold in Ef. discriminate.
Qed.

Lemma db_written_ok {T} (d : dbuf T) (tables : list T) es :
  db_written (db_events (db_run (db_configure d tables)) es)
  = db_written d ++ combine (true :: false :: falls false false es) tables.
Proof.
  assert (Hidle : forall (es : list (bool * bool)) (d : dbuf T), db_subscribed d = false ->
            db_events d es = d).
  { induction es0 as [|e es0 IH]; intros d' H; [reflexivity|].
    unfold db_events in *. simpl. unfold db_active at 2. rewrite H. simpl. apply IH. exact H. }
  unfold db_configure, db_fill, db_cleanup. cbn [db_gen db_status db_subscribed db_finished db_written].
  destruct tables as [|t1 [|t2 tables]];
    cbn [db_gen db_status db_subscribed db_finished db_written]; unfold db_run; cbn [db_finished].
  - rewrite Hidle by reflexivity. simpl. rewrite app_nil_r. reflexivity.
  - rewrite Hidle by reflexivity. simpl. reflexivity.
  - rewrite (db_events_ok es _ false false); [|reflexivity..].
    cbn [db_gen db_written combine]. rewrite <- !app_assoc. reflexivity.
Qed.

Lemma latest_snoc {T} side (w : list (bool * T)) x :
  latest side (w ++ [x]) = if Bool.eqb (fst x) side then Some (snd x) else latest side w.
Proof. unfold latest. rewrite fold_left_app. reflexivity. Qed.

Definition db_inv {T} (d : dbuf T) (turn : bool) (pending : list T) : Prop :=
  (forall t r, pending = t :: r -> latest turn (db_written d) = Some t) /\
  (forall t u r, pending = t :: u :: r -> latest (negb turn) (db_written d) = Some u) /\
  db_gen d = tl (tl pending) /\
  (db_gen d <> [] -> db_subscribed d = true).

Lemma db_active_rise {T} (d : dbuf T) side :
  db_written (db_active d side true) = db_written d /\ db_gen (db_active d side true) = db_gen d
  /\ db_subscribed (db_active d side true) = db_subscribed d
  /\ (db_subscribed d = true -> db_status (db_active d side true) side = Some true).
Proof.
  unfold db_active. destruct (db_subscribed d) eqn:Es; cbn [negb].
  - destruct (db_status d side) as [[|]|]; cbn [db_written db_gen db_subscribed db_status];
      unfold set_status; rewrite Bool.eqb_reflx; auto.
  - rewrite Es. repeat split; auto. discriminate.
Qed.

Lemma db_inv_step {T} (d : dbuf T) turn t pending :
  db_inv d turn (t :: pending) ->
  db_inv (db_active (db_active d turn true) turn false) (negb turn) pending.
Proof.
  intros (H1 & H2 & H3 & H4).
  destruct (db_active_rise d turn) as (W & G & S & St).
  set (d1 := db_active d turn true) in *.
  destruct (db_gen d) as [|x g] eqn:Eg.
  - assert (Hw : db_written (db_active d1 turn false) = db_written d
                 /\ db_gen (db_active d1 turn false) = []).
    { unfold db_active. destruct (db_subscribed d1); cbn [negb]; [|rewrite W, G; auto].
      destruct (db_status d1 turn) as [[|]|]; try (cbn [db_written db_gen]; rewrite W, G; auto).
      unfold db_fill. rewrite G. cbn [db_cleanup db_written db_gen]. rewrite W, G. auto. }
    destruct Hw as [Hw Hg]. unfold db_inv. rewrite Hw, Hg.
    destruct pending as [|u [|v more]]; [| |discriminate].
    + repeat split; intros; try discriminate; congruence.
    + split; [|split; [|split]].
      * intros t0 r E. injection E as <- <-. eapply H2. reflexivity.
      * intros; discriminate.
      * reflexivity.
      * congruence.
  - assert (Es : db_subscribed d = true) by (apply H4; discriminate).
    specialize (St Es). rewrite Es in S.
    destruct pending as [|u [|v more]]; try discriminate. cbn [tl] in H3.
    injection H3 as -> ->.
    unfold db_active. rewrite S, St. cbn [negb]. unfold db_fill. rewrite G.
    cbn [db_gen db_status db_subscribed db_finished db_written].
    unfold db_inv. cbn [db_gen db_status db_subscribed db_finished db_written].
    rewrite !latest_snoc, W. cbn [fst snd]. rewrite negb_involutive, Bool.eqb_reflx.
    split; [|split; [|split]].
    + intros t0 r E. injection E as <- <-.
      replace (Bool.eqb turn (negb turn)) with false by (destruct turn; reflexivity).
      eapply H2. reflexivity.
    + intros t0 u0 r E. injection E as <- <- <-. reflexivity.
    + reflexivity.
    + intros _. exact S.
Qed.

Lemma play_ok {T} n : forall (d : dbuf T) turn pending,
  db_inv d turn pending -> (n <= length pending)%nat ->
  play n d turn = map Some (firstn n pending).
Proof.
  induction n as [|n IH]; intros d turn pending Hi Hn; [reflexivity|].
  destruct pending as [|t pending]; [simpl in Hn; lia|].
  cbn [play firstn map]. f_equal.
  - destruct Hi as [H _]. eapply H. reflexivity.
  - apply IH; [|simpl in Hn; lia]. eapply db_inv_step. exact Hi.
Qed.

Lemma db_inv_start {T} (d : dbuf T) tables :
  db_inv (db_run (db_configure d tables)) true tables.
Proof.
  unfold db_configure, db_fill, db_cleanup.
  cbn [db_gen db_status db_subscribed db_finished db_written].
  destruct tables as [|t1 [|t2 tables]];
    cbn [db_gen db_status db_subscribed db_finished db_written]; unfold db_run; cbn [db_finished];
    unfold db_inv; cbn [db_gen db_status db_subscribed db_finished db_written tl];
    repeat split; intros; try discriminate; try congruence; rewrite ?latest_snoc; cbn [fst snd Bool.eqb negb];
    congruence.
Qed.

(* ---------------- the row generator ---------------- *)
Lemma live_app a b : live_pulses (a ++ b) = live_pulses a ++ live_pulses b.
Proof. apply flat_map_app. Qed.

Lemma live_repeat p n :
  live_pulses (repeat (Once p) n)
  = if p_live p then repeat (p_time1 p, p_time2 p) n else [].
Proof.
  induction n as [|n IH]; [destruct (p_live p); reflexivity|].
  change (live_pulses (repeat (Once p) (S n)))
    with ((if p_live p then [(p_time1 p, p_time2 p)] else []) ++ live_pulses (repeat (Once p) n)).
  rewrite IH. destruct (p_live p); reflexivity.
Qed.

Lemma live_add s count t pos half live dead trim :
  0 <= count ->
  live_pulses (acts (s_rows (add_seq_entry s count t pos half live dead trim)))
  = live_pulses (acts (s_rows s))
    ++ (if live then repeat (half, half - trim) (Z.to_nat count) else []).
Proof.
  intros H. rewrite acts_add by exact H. rewrite !live_app, live_repeat.
  cbn [p_live p_time1 p_time2 entry_pulse]. f_equal.
  destruct (count mod MAX_REPEATS =? 0); cbn [live_pulses flat_map]; rewrite app_nil_r; reflexivity.
Qed.

Lemma forever_add s count t pos half live dead trim :
  0 <= count ->
  has_forever (acts (s_rows (add_seq_entry s count t pos half live dead trim)))
  = has_forever (acts (s_rows s)) || (count mod MAX_REPEATS =? 0).
Proof.
  intros H. rewrite acts_add by exact H. rewrite !has_forever_app. f_equal.
  replace (has_forever (repeat (Once (entry_pulse t pos half live dead trim)) (Z.to_nat count)))
    with false.
  - destruct (count mod MAX_REPEATS =? 0); reflexivity.
  - induction (Z.to_nat count); [reflexivity|]. simpl. assumption.
Qed.

Definition nonneg_rows (s : seqrows) : Prop := Forall (fun r => 0 <= r_repeats r) (s_rows s).

Lemma nonneg_add s count t pos half live dead trim :
  0 <= count -> nonneg_rows s -> nonneg_rows (add_seq_entry s count t pos half live dead trim).
Proof.
  unfold nonneg_rows. intros Hc H. rewrite add_seq_entry_rows.
  apply Forall_app. split; [exact H|]. apply Forall_app. split.
  - apply Forall_forall. intros x Hx. apply repeat_spec in Hx. subst x. simpl.
    unfold MAX_REPEATS. lia.
  - constructor; [|constructor]. simpl.
    pose proof (Z.mod_pos_bound count MAX_REPEATS ltac:(unfold MAX_REPEATS; lia)). lia.
Qed.

Lemma infix_trans {A} (a b c : list A) : infix a b -> infix b c -> infix a c.
Proof.
  intros (l1 & l2 & ->) (l3 & l4 & ->). exists (l3 ++ l1), (l2 ++ l4).
  rewrite <- !app_assoc. reflexivity.
Qed.

Lemma infix_nil {A} (l : list A) : infix [] l.
Proof. exists [], l. reflexivity. Qed.

Lemma infix_refl {A} (l : list A) : infix l l.
Proof. exists [], []. rewrite app_nil_r. reflexivity. Qed.

Lemma infix_app_l {A} (a b c : list A) : infix a b -> infix a (b ++ c).
Proof. intros (x & y & ->). exists x, (y ++ c). rewrite <- !app_assoc. reflexivity. Qed.
Lemma infix_app_r {A} (a b c : list A) : infix a c -> infix a (b ++ c).
Proof. intros (x & y & ->). exists (b ++ x), y. rewrite <- !app_assoc. reflexivity. Qed.

Lemma infix_map {A B} (f : A -> B) a b : infix a b -> infix (map f a) (map f b).
Proof. intros (x & y & ->). exists (map f x), (map f y). rewrite !map_app. reflexivity. Qed.

Lemma run_lengths_decode ds :
  flat_map (fun dc => repeat (fst dc) (Z.to_nat (snd dc))) (run_lengths ds) = ds
  /\ Forall (fun dc => 1 <= snd dc) (run_lengths ds).
Proof.
  induction ds as [|d ds [IH IP]]; [split; [reflexivity|constructor]|].
  cbn [run_lengths]. destruct (run_lengths ds) as [|[d' n] more] eqn:E.
  - simpl in IH. subst ds. split; [reflexivity|constructor; [cbn [snd]; lia|constructor]].
  - inversion IP as [|? ? Hn Hmore]; subst. cbn [snd] in Hn.
    destruct (Z.eqb_spec d d') as [->|Hd].
    + split.
      * cbn [flat_map fst snd] in *.
        rewrite Z2Nat.inj_add by lia. rewrite Nat.add_comm. cbn [Nat.add repeat app].
        change (Z.to_nat 1) with 1%nat. cbn [Nat.add repeat app]. f_equal; exact IH.
      * constructor; [cbn [snd]; lia|exact Hmore].
    + split.
      * cbn [flat_map fst snd] in *. change (Z.to_nat 1) with 1%nat. cbn [repeat app]. f_equal; exact IH.
      * constructor; [cbn [snd]; lia|]. constructor; assumption.
Qed.

Lemma run_infix ds d n : In (d, n) (run_lengths ds) -> infix (repeat d (Z.to_nat n)) ds.
Proof.
  intros H. pose proof (proj1 (run_lengths_decode ds)) as E.
  apply in_split in H. destruct H as (l1 & l2 & H). rewrite H in E.
  rewrite flat_map_app in E. cbn [flat_map fst snd] in E. rewrite <- E.
  exists (flat_map (fun dc => repeat (fst dc) (Z.to_nat (snd dc))) l1),
         (flat_map (fun dc => repeat (fst dc) (Z.to_nat (snd dc))) l2). reflexivity.
Qed.

Lemma no_long_run_mod ds dc :
  no_long_run ds -> In dc (run_lengths ds) -> snd dc mod MAX_REPEATS <> 0.
Proof.
  destruct dc as [d n]. intros H Hin Hm. cbn [snd] in *.
  pose proof (proj2 (run_lengths_decode ds)) as HP. rewrite Forall_forall in HP.
  specialize (HP _ Hin). cbn [snd] in HP.
  assert (Hn : MAX_REPEATS <= n).
  { apply Z.mod_divide in Hm; [|unfold MAX_REPEATS; lia]. destruct Hm as [k Hk].
    unfold MAX_REPEATS in *. nia. }
  apply (H d). change (Z.to_nat 4096) with (Z.to_nat MAX_REPEATS). eapply infix_trans; [|apply run_infix; exact Hin].
  exists [], (repeat d (Z.to_nat (n - MAX_REPEATS))). rewrite app_nil_l.
  rewrite <- repeat_app. f_equal. rewrite <- Z2Nat.inj_add by (unfold MAX_REPEATS in *; lia).
  f_equal. lia.
Qed.

Section Gen.
  Context {P : Type}.
  Variable dur : P -> Z.
  Variable half : Z -> Z.
  Variable joined : P -> P -> bool.
  Variable has_axes has_pcomp : bool.
  Variable compare : P -> trigger * Z.
  Variable half_blind : P -> P -> Z.
  Variable BATCH_SIZE : nat.

  Let frame (d : Z) : Z * Z := (half d, half d).
  Let pframe (p : P) : Z * Z := frame (dur p).

  (* a piece of row generator output covering the points ps *)
  Definition piece_ok (ps : list P) (s : seqrows) : Prop :=
    live_pulses (acts (s_rows s)) = map pframe ps /\
    dur_ok s /\ nonneg_rows s /\
    (no_long_run (map dur ps) -> has_forever (acts (s_rows s)) = false).

  Lemma immediate_fold runs : forall s,
    Forall (fun dc => 1 <= snd dc) runs ->
    let s' := fold_left (fun rows dc =>
                 add_seq_entry rows (snd dc) IMMEDIATE 0 (half (fst dc)) true false 0) runs s in
    live_pulses (acts (s_rows s'))
    = live_pulses (acts (s_rows s))
      ++ map frame (flat_map (fun dc => repeat (fst dc) (Z.to_nat (snd dc))) runs)
    /\ (dur_ok s -> dur_ok s') /\ (nonneg_rows s -> nonneg_rows s')
    /\ (Forall (fun dc => snd dc mod MAX_REPEATS <> 0) runs ->
        has_forever (acts (s_rows s')) = has_forever (acts (s_rows s))).
  Proof.
    induction runs as [|[d n] runs IH]; intros s H s'.
    - subst s'. simpl. rewrite app_nil_r. auto.
    - inversion H as [|? ? Hn Hr]; subst. cbn [snd] in Hn.
      set (s1 := add_seq_entry s n IMMEDIATE 0 (half d) true false 0).
      destruct (IH s1 Hr) as (A & B & C & D).
      subst s'. cbn [fold_left fst snd]. fold s1. split; [|split; [|split]].
      + rewrite A. unfold s1. rewrite live_add by lia.
        cbn [flat_map fst snd]. rewrite map_app, <- app_assoc. do 2 f_equal.
        rewrite Z.sub_0_r. unfold frame. clear. induction (Z.to_nat n); simpl; congruence.
      + intros Hd. apply B. apply dur_ok_add; [lia|exact Hd].
      + intros Hd. apply C. apply nonneg_add; [lia|exact Hd].
      + intros Hm. inversion Hm as [|? ? Hm1 Hm2]; subst. cbn [snd] in Hm1.
        rewrite (D Hm2). unfold s1. rewrite forever_add by lia.
        apply Z.eqb_neq in Hm1. rewrite Hm1, orb_false_r. reflexivity.
  Qed.

  Lemma immediate_ok ds :
    let s := create_immediate_rows half ds in
    live_pulses (acts (s_rows s)) = map frame ds /\ dur_ok s /\ nonneg_rows s /\
    (no_long_run ds -> has_forever (acts (s_rows s)) = false).
  Proof.
    destruct (run_lengths_decode ds) as [E H].
    destruct (immediate_fold (run_lengths ds) sr_empty H) as (A & B & C & D).
    unfold create_immediate_rows. rewrite E in A. simpl in A.
    split; [exact A|]. split; [apply B; apply dur_ok_empty|].
    split; [apply C; constructor|].
    intros Hl. rewrite D; [reflexivity|].
    apply Forall_forall. intros dc Hin. eapply no_long_run_mod; eauto.
  Qed.

  Lemma immediate_piece ps : piece_ok ps (create_immediate_rows half (map dur ps)).
  Proof.
    destruct (immediate_ok (map dur ps)) as (A & B & C & D).
    unfold piece_ok. rewrite A, map_map. repeat split; assumption.
  Qed.

  Lemma slice_cons {A} (l : list A) a b x :
    nth_error l a = Some x -> (a < b)%nat -> slice l a b = x :: slice l (a + 1) b.
  Proof.
    intros E H. unfold slice.
    assert (Hs : skipn a l = x :: skipn (a + 1) l).
    { revert l E. induction a as [|a IH]; intros [|y l] E; try discriminate; simpl in *.
      - injection E as <-. reflexivity.
      - apply IH; [lia|exact E]. }
    rewrite Hs. replace (b - a)%nat with (S (b - (a + 1))) by lia. reflexivity.
  Qed.

  Lemma no_long_run_infix a b : infix a b -> no_long_run b -> no_long_run a.
  Proof. intros H Hb d Hd. apply (Hb d). eapply infix_trans; eauto. Qed.

  Lemma one_mod : 1 mod MAX_REPEATS =? 0 = false.
  Proof. reflexivity. Qed.

  Lemma triggered_piece prev ps s e blind :
    (s < e)%nat -> (e <= length ps)%nat ->
    piece_ok (slice ps s e)
      (create_triggered_rows dur half has_pcomp compare half_blind prev ps s e blind).
  Proof.
    intros Hse He. unfold create_triggered_rows.
    destruct (nth_error ps s) as [p|] eqn:Ep.
    2:{ apply nth_error_None in Ep. lia. }
    destruct (immediate_piece (slice ps (s + 1) e)) as (A & B & C & D).
    rewrite (slice_cons _ _ _ _ Ep Hse).
    set (im := create_immediate_rows half (map dur (slice ps (s + 1) e))) in *.
    cbv zeta.
    match goal with |- piece_ok _ (sr_extend ?r _) =>
      assert (Hr : live_pulses (acts (s_rows r)) = [pframe p] /\ dur_ok r /\ nonneg_rows r
                   /\ has_forever (acts (s_rows r)) = false) end.
    { destruct has_pcomp; [destruct blind; [destruct prev|]|destruct blind];
        (split; [rewrite ?live_add by lia; simpl; rewrite ?Z.sub_0_r; reflexivity|]);
        (split; [repeat apply dur_ok_add; try lia; apply dur_ok_empty|]);
        (split; [repeat apply nonneg_add; try lia; constructor|]);
        rewrite ?forever_add by lia; reflexivity. }
    destruct Hr as (A1 & B1 & C1 & D1).
    unfold piece_ok, sr_extend at 1. cbn [s_rows]. split; [|split; [|split]].
    - rewrite acts_app, live_app, A, A1. reflexivity.
    - apply dur_ok_extend; assumption.
    - unfold nonneg_rows, sr_extend. cbn [s_rows]. apply Forall_app. auto.
    - intros Hl. unfold sr_extend. cbn [s_rows]. rewrite acts_app, has_forever_app, D1.
      apply D. eapply no_long_run_infix; [|exact Hl].
      cbn [map]. exists [dur p], []. rewrite app_nil_r. reflexivity.
  Qed.

  (* a list of outputs covering consecutive pieces of ps *)
  Definition pieces_ok (ps : list P) (ss : list seqrows) : Prop :=
    live_pulses (acts (all_rows ss)) = map pframe ps /\
    Forall dur_ok ss /\ Forall nonneg_rows ss /\
    (no_long_run (map dur ps) -> has_forever (acts (all_rows ss)) = false).

  Lemma pieces_nil : pieces_ok [] [].
  Proof. unfold pieces_ok. repeat split; constructor. Qed.

  Lemma pieces_app p1 p2 s1 s2 :
    pieces_ok p1 s1 -> pieces_ok p2 s2 -> pieces_ok (p1 ++ p2) (s1 ++ s2).
  Proof.
    intros (A & B & C & D) (A' & B' & C' & D'). unfold pieces_ok, all_rows in *.
    rewrite flat_map_app, acts_app, live_app, A, A', map_app.
    split; [reflexivity|]. split; [apply Forall_app; auto|]. split; [apply Forall_app; auto|].
    intros H. rewrite map_app in H. rewrite has_forever_app, D, D'; [reflexivity| |].
    - eapply no_long_run_infix; [|exact H]. apply infix_app_r, infix_refl.
    - eapply no_long_run_infix; [|exact H]. apply infix_app_l, infix_refl.
  Qed.

  Lemma pieces_one p s : piece_ok p s -> pieces_ok p [s].
  Proof.
    intros (A & B & C & D). unfold pieces_ok, all_rows. cbn [flat_map].
    rewrite app_nil_r. repeat split; auto.
  Qed.

  Lemma slice_skip {A} (l : list A) a b :
    (a <= b)%nat -> slice l a b ++ skipn b l = skipn a l.
  Proof.
    intros H. unfold slice.
    replace (skipn b l) with (skipn (b - a) (skipn a l)).
    - apply firstn_skipn.
    - clear -H. revert a b H. induction l as [|x l IH]; intros a b H.
      + rewrite !skipn_nil. reflexivity.
      + destruct a as [|a]; [rewrite Nat.sub_0_r; reflexivity|].
        destruct b as [|b]; [lia|]. simpl. apply IH. lia.
  Qed.

  (* strictly increasing indices between lo (excluded) and hi (excluded) *)
  Fixpoint incr (lo hi : nat) (l : list nat) : Prop :=
    match l with
    | [] => True
    | x :: r => (lo < x < hi)%nat /\ incr x hi r
    end.

  Lemma start_indices_incr ps : forall i,
    incr i (i + length ps) (start_indices joined i ps).
  Proof.
    induction ps as [|p ps IH]; intros i; [exact I|].
    cbn [start_indices]. destruct ps as [|q ps]; [exact I|].
    specialize (IH (S i)). replace (S i + length (q :: ps))%nat with (i + length (p :: q :: ps))%nat in IH
      by (simpl; lia).
    assert (Hw : forall l lo lo' hi, incr lo' hi l -> (lo <= lo')%nat -> incr lo hi l).
    { intros l lo lo' hi H Hl. destruct l as [|x r]; [exact I|]. destruct H as [H1 H2].
      split; [lia|exact H2]. }
    destruct (joined p q).
    - eapply Hw; [exact IH|]. lia.
    - split; [simpl; lia|exact IH].
  Qed.

  Lemma remaining_ok ps starts : forall last s,
    incr s (length ps) starts -> (s < length ps)%nat ->
    pieces_ok (skipn s ps)
      (fst (remaining_rows dur half has_pcomp compare half_blind last ps
              (combine (s :: starts) (starts ++ [length ps]))))
    /\ snd (remaining_rows dur half has_pcomp compare half_blind last ps
              (combine (s :: starts) (starts ++ [length ps]))) <> None.
  Proof.
    induction starts as [|s' starts IH]; intros last s Hi Hs.
    - cbn [app combine remaining_rows fst snd]. split.
      + apply pieces_one.
        replace (skipn s ps) with (slice ps s (length ps)).
        * apply triggered_piece; lia.
        * unfold slice. rewrite <- skipn_length. apply firstn_all.
      + intros E. apply nth_error_None in E. lia.
    - destruct Hi as [H1 H2].
      change ((s' :: starts) ++ [length ps]) with (s' :: (starts ++ [length ps])).
      change (combine (s :: s' :: starts) (s' :: starts ++ [length ps]))
        with ((s, s') :: combine (s' :: starts) (starts ++ [length ps])).
      destruct (IH (nth_error ps (s' - 1)) s' H2 ltac:(lia)) as [IH1 IH2].
      cbn [remaining_rows].
      destruct (remaining_rows dur half has_pcomp compare half_blind (nth_error ps (s' - 1)) ps
                  (combine (s' :: starts) (starts ++ [length ps]))) as [rs last'] eqn:E.
      cbn [fst snd] in *. split; [|exact IH2].
      rewrite <- (slice_skip ps s s') by lia.
      change (?a :: rs) with ([a] ++ rs). apply pieces_app; [|exact IH1].
      apply pieces_one. apply triggered_piece; lia.
  Qed.

  Lemma batch_ok last ps :
    ps <> [] ->
    let out := batch_rows dur half joined has_axes has_pcomp compare half_blind last ps in
    pieces_ok (match last with None => ps | Some _ => tl ps end) (fst out)
    /\ snd out <> None.
  Proof.
    intros Hne. assert (Hlen : (0 < length ps)%nat) by (destruct ps; [congruence|simpl; lia]).
    unfold batch_rows. destruct has_axes; cbn [negb].
    - pose proof (start_indices_incr ps 0) as Hi. cbn [Nat.add] in Hi.
      set (starts := start_indices joined 0 ps) in *.
      set (e := match starts with s :: _ => s | [] => length ps end).
      assert (He : (0 < e <= length ps)%nat).
      { unfold e. destruct starts; [lia|]. destruct Hi. lia. }
      assert (Hrest : forall lst,
        pieces_ok (skipn e ps)
          (fst (remaining_rows dur half has_pcomp compare half_blind lst ps
                 (combine starts (end_indices starts (length ps)))))
        /\ (lst <> None ->
            snd (remaining_rows dur half has_pcomp compare half_blind lst ps
                 (combine starts (end_indices starts (length ps)))) <> None)).
      { intros lst. unfold e. destruct starts as [|s starts'].
        - cbn [end_indices combine remaining_rows fst snd]. rewrite skipn_all.
          split; [apply pieces_nil|auto].
        - cbn [end_indices]. destruct Hi as [H1 H2].
          destruct (remaining_ok ps starts' lst s H2 ltac:(lia)). split; auto. }
      set (first_last := match last with
        | Some _ => (create_immediate_rows half (map dur (slice ps 1 e)), last)
        | None => _ end).
      assert (Hfl : piece_ok (match last with None => slice ps 0 e | Some _ => slice ps 1 e end)
                      (fst first_last) /\ snd first_last <> None).
      { unfold first_last. destruct last as [lp|]; cbn [fst snd].
        - split; [apply immediate_piece|discriminate].
        - split; [apply triggered_piece; lia|].
          intros E. apply nth_error_None in E. lia. }
      destruct first_last as [first last1]. cbn [fst snd] in Hfl. destruct Hfl as [Hf Hl1].
      destruct (Hrest last1) as [Hr1 Hr2]. specialize (Hr2 Hl1).
      destruct (remaining_rows dur half has_pcomp compare half_blind last1 ps
                 (combine starts (end_indices starts (length ps)))) as [rs last2].
      cbn [fst snd] in *. split; [|exact Hr2].
      change (first :: rs) with ([first] ++ rs).
      destruct last as [lp|].
      + replace (tl ps) with (slice ps 1 e ++ skipn e ps).
        * apply pieces_app; [apply pieces_one; exact Hf|exact Hr1].
        * rewrite slice_skip by lia. destruct ps; reflexivity.
      + replace ps with (slice ps 0 e ++ skipn e ps) at 1.
        * apply pieces_app; [apply pieces_one; exact Hf|exact Hr1].
        * rewrite slice_skip by lia. reflexivity.
    - cbn [fst snd]. split.
      + apply pieces_one. destruct last as [lp|].
        * replace (tl (map dur ps)) with (map dur (tl ps)) by (destruct ps; reflexivity).
          apply immediate_piece.
        * apply immediate_piece.
      + intros E. apply nth_error_None in E. lia.
  Qed.

  Lemma batches_ok all fuel : forall low high e last,
    (0 < BATCH_SIZE)%nat -> (e - high < fuel)%nat -> (high <= e)%nat -> (e <= length all)%nat ->
    (low < high)%nat ->
    pieces_ok (match last with None => slice all low e | Some _ => slice all (low + 1) e end)
      (batches_rows dur half joined has_axes has_pcomp compare half_blind last
         (map (fun lh => slice all (fst lh) (snd lh)) (ranges_from BATCH_SIZE fuel low high e))).
  Proof.
    induction fuel as [|fuel IH]; intros low high e last HB Hf Hhe Hel Hlh; [lia|].
    cbn [ranges_from map batches_rows fst snd].
    assert (Hnth : exists x, nth_error all low = Some x).
    { destruct (nth_error all low) eqn:E; [eauto|]. apply nth_error_None in E. lia. }
    destruct Hnth as [x Hx].
    pose proof (slice_cons all low high x Hx Hlh) as Hc.
    assert (Hne : slice all low high <> []) by (rewrite Hc; discriminate).
    destruct (batch_ok last (slice all low high) Hne) as [H1 H2].
    destruct (batch_rows dur half joined has_axes has_pcomp compare half_blind last
                (slice all low high)) as [rs last'] eqn:E.
    cbn [fst snd] in *. destruct last' as [lp|]; [|congruence].
    assert (Hglue : forall l, (l <= high)%nat ->
              slice all l e = slice all l high ++ slice all high e).
    { intros l Hl. unfold slice.
      replace (e - l)%nat with ((high - l) + (e - high))%nat by lia.
      rewrite <- (firstn_skipn (high - l) (firstn (high - l + (e - high)) (skipn l all))).
      rewrite firstn_firstn. replace (Nat.min (high - l) (high - l + (e - high))) with (high - l)%nat by lia.
      f_equal. rewrite skipn_firstn_comm.
      replace (high - l + (e - high) - (high - l))%nat with (e - high)%nat by lia.
      f_equal. clear -Hl. revert l high Hl. induction all as [|y all IH]; intros l high Hl.
      - rewrite !skipn_nil. reflexivity.
      - destruct l as [|l]; [rewrite Nat.sub_0_r; reflexivity|].
        destruct high as [|high]; [lia|]. simpl. apply IH. lia. }
    assert (Hfirst : pieces_ok (match last with None => slice all low high
                                | Some _ => slice all (low + 1) high end) rs).
    { rewrite Hc in H1. destruct last; [exact H1|]. rewrite Hc. exact H1. }
    destruct (Nat.eqb_spec high e) as [->|Hn].
    - cbn [map batches_rows]. rewrite app_nil_r. exact Hfirst.
    - specialize (IH (high - 1)%nat (Nat.min (high - 1 + BATCH_SIZE + 1) e) e (Some lp)
                     HB ltac:(lia) ltac:(lia) Hel ltac:(lia)).
      replace (high - 1 + 1)%nat with high in IH by lia.
      destruct last as [lp0|].
      + rewrite (Hglue (low + 1)%nat) by lia. apply pieces_app; assumption.
      + rewrite (Hglue low) by lia. apply pieces_app; assumption.
  Qed.

  Definition body_rows (all : list P) (a b : nat) : list seqrows :=
    batches_rows dur half joined has_axes has_pcomp compare half_blind None
      (map (fun lh => slice all (fst lh) (snd lh)) (overlapping_ranges BATCH_SIZE a b)).

  Lemma body_ok all a b :
    (0 < BATCH_SIZE)%nat -> (a <= b)%nat -> (b <= length all)%nat ->
    pieces_ok (slice all a b) (body_rows all a b).
  Proof.
    intros HB Hab Hb. unfold body_rows, overlapping_ranges.
    destruct (Nat.eqb_spec a b) as [->|Hn].
    - cbn [map batches_rows]. replace (slice all b b) with (@nil P); [apply pieces_nil|].
      unfold slice. rewrite Nat.sub_diag. reflexivity.
    - apply (batches_ok all (S (b - a)) a (Nat.min (a + BATCH_SIZE) b) b None); try lia.
  Qed.

  Lemma no_forever_finite rows :
    Forall (fun r => 0 <= r_repeats r) rows -> has_forever (acts rows) = false -> finite rows.
  Proof.
    induction 1 as [|r rows Hr _ IH]; intros H; [constructor|].
    change (acts (r :: rows)) with (acts_of_row r ++ acts rows) in H.
    rewrite has_forever_app in H. apply orb_false_iff in H. destruct H as [H1 H2].
    constructor; [|apply IH; exact H2].
    unfold acts_of_row in H1. destruct (Z.eqb_spec (r_repeats r) 0); [discriminate|]. lia.
  Qed.

  Lemma get_rows_loop all a b :
    (0 < BATCH_SIZE)%nat -> (a <= b)%nat -> (b <= length all)%nat ->
    no_long_run (map dur (slice all a b)) ->
    let g := get_rows dur half joined has_axes has_pcomp compare half_blind BATCH_SIZE all a b in
    Forall dur_ok g /\ ends_in_loop (all_rows g).
  Proof.
    intros HB Hab Hb Hl. destruct (body_ok all a b HB Hab Hb) as (A & B & C & D).
    unfold get_rows. fold (body_rows all a b). cbv zeta. split.
    - apply Forall_app. split; [exact B|]. constructor; [|constructor].
      unfold final_rows. repeat apply dur_ok_add; try lia. apply dur_ok_empty.
    - unfold all_rows. rewrite flat_map_app. fold (all_rows (body_rows all a b)).
      cbn [flat_map]. rewrite app_nil_r.
      exists (all_rows (body_rows all a b) ++ [seq_row 1 IMMEDIATE 0 MIN_PULSE false true 0]).
      exists (seq_row 0 IMMEDIATE 0 MIN_PULSE false false 0).
      split; [rewrite <- app_assoc; reflexivity|]. split; [reflexivity|].
      apply Forall_app. split; [|constructor; [simpl; lia|constructor]].
      apply no_forever_finite; [|apply D; exact Hl].
      unfold all_rows. rewrite Forall_forall in *. intros r Hr. apply in_flat_map in Hr.
      destruct Hr as (s & Hs & Hr). specialize (C _ Hs). unfold nonneg_rows in C.
      rewrite Forall_forall in C. auto.
  Qed.
End Gen.

(* ---------------- blind pulses ---------------- *)
Lemma dead_app a b : dead_pulses (a ++ b) = dead_pulses a ++ dead_pulses b.
Proof. apply flat_map_app. Qed.

Lemma dead_repeat p n :
  dead_pulses (repeat (Once p) n)
  = if p_dead p then repeat (p_trigger p, p_time1 p, p_time2 p) n else [].
Proof.
  induction n as [|n IH]; [destruct (p_dead p); reflexivity|].
  change (dead_pulses (repeat (Once p) (S n)))
    with ((if p_dead p then [(p_trigger p, p_time1 p, p_time2 p)] else [])
            ++ dead_pulses (repeat (Once p) n)).
  rewrite IH. destruct (p_dead p); reflexivity.
Qed.

Lemma dead_add s count t pos half live dead trim :
  0 <= count ->
  dead_pulses (acts (s_rows (add_seq_entry s count t pos half live dead trim)))
  = dead_pulses (acts (s_rows s))
    ++ (if dead then repeat (t, half, half - trim) (Z.to_nat count) else []).
Proof.
  intros H. rewrite acts_add by exact H. rewrite !dead_app, dead_repeat.
  cbn [p_dead p_trigger p_time1 p_time2 entry_pulse]. f_equal.
  destruct (count mod MAX_REPEATS =? 0); cbn [dead_pulses flat_map]; rewrite app_nil_r; reflexivity.
Qed.

Lemma dead_immediate half ds :
  dead_pulses (acts (s_rows (create_immediate_rows half ds))) = [].
Proof.
  unfold create_immediate_rows.
  assert (H : forall runs s, Forall (fun dc => 1 <= snd dc) runs ->
     dead_pulses (acts (s_rows (fold_left (fun rows dc =>
        add_seq_entry rows (snd dc) IMMEDIATE 0 (half (fst dc)) true false 0) runs s)))
     = dead_pulses (acts (s_rows s))).
  { induction runs as [|[d n] runs IH]; intros s H; [reflexivity|].
    inversion H; subst. cbn [fold_left fst snd] in *. rewrite IH by assumption.
    rewrite dead_add by lia. apply app_nil_r. }
  apply (H (run_lengths ds) sr_empty). apply run_lengths_decode.
Qed.

Section Blind.
  Context {P : Type}.
  Variable dur : P -> Z.
  Variable half : Z -> Z.
  Variable joined : P -> P -> bool.
  Variable compare : P -> trigger * Z.
  Variable half_blind : P -> P -> Z.
  Variable BATCH_SIZE : nat.
  Let blind (pq : P * P) := (IMMEDIATE, half_blind (fst pq) (snd pq), half_blind (fst pq) (snd pq)).

  Lemma dead_triggered prev ps s e lp p :
    nth_error ps s = Some p -> prev = Some lp ->
    dead_pulses (acts (s_rows
      (create_triggered_rows dur half true compare half_blind prev ps s e true)))
    = [blind (lp, p)].
  Proof.
    intros E ->. unfold create_triggered_rows. rewrite E. cbv zeta.
    unfold sr_extend. cbn [s_rows]. rewrite acts_app, dead_app, dead_immediate, app_nil_r.
    rewrite !dead_add by lia. cbn [app]. rewrite Z.sub_0_r. reflexivity.
  Qed.

  Fixpoint pairs_at (ps : list P) (starts : list nat) : list (P * P) :=
    match starts with
    | [] => []
    | s :: r => match nth_error ps (s - 1), nth_error ps s with
                | Some p, Some q => [(p, q)] | _, _ => [] end ++ pairs_at ps r
    end.

  Lemma dead_remaining ps starts : forall last s,
    incr s (length ps) starts -> (0 < s < length ps)%nat -> last = nth_error ps (s - 1) ->
    dead_pulses (acts (all_rows
      (fst (remaining_rows dur half true compare half_blind last ps
              (combine (s :: starts) (starts ++ [length ps]))))))
    = map blind (pairs_at ps (s :: starts)).
  Proof.
    induction starts as [|s' starts IH]; intros last s Hi Hs Hl.
    - cbn [app combine remaining_rows fst pairs_at all_rows flat_map].
      destruct (nth_error ps (s - 1)) as [lp|] eqn:E1; [|apply nth_error_None in E1; lia].
      destruct (nth_error ps s) as [p|] eqn:E2; [|apply nth_error_None in E2; lia].
      rewrite app_nil_r, (dead_triggered last ps s (length ps) lp p E2 Hl). reflexivity.
    - destruct Hi as [H1 H2].
      change (combine (s :: s' :: starts) ((s' :: starts) ++ [length ps]))
        with ((s, s') :: combine (s' :: starts) (starts ++ [length ps])).
      specialize (IH (nth_error ps (s' - 1)) s' H2 ltac:(lia) eq_refl).
      cbn [remaining_rows].
      destruct (remaining_rows dur half true compare half_blind (nth_error ps (s' - 1)) ps
                  (combine (s' :: starts) (starts ++ [length ps]))) as [rs last'] eqn:E.
      cbn [fst] in *.
      change (all_rows (?a :: rs)) with (s_rows a ++ all_rows rs).
      rewrite acts_app, dead_app, IH.
      destruct (nth_error ps (s - 1)) as [lp|] eqn:E1; [|apply nth_error_None in E1; lia].
      destruct (nth_error ps s) as [p|] eqn:E2; [|apply nth_error_None in E2; lia].
      rewrite (dead_triggered last ps s s' lp p E2 Hl).
      change (pairs_at ps (s :: s' :: starts))
        with (match nth_error ps (s - 1), nth_error ps s with
              | Some p, Some q => [(p, q)] | _, _ => [] end ++ pairs_at ps (s' :: starts)).
      rewrite E1, E2. reflexivity.
  Qed.

  Lemma pairs_at_starts pre ps :
    pairs_at (pre ++ ps) (start_indices joined (length pre) ps) = breaks joined ps.
  Proof.
    revert pre. induction ps as [|p ps IH]; intros pre; [reflexivity|].
    cbn [start_indices breaks]. destruct ps as [|q ps]; [reflexivity|].
    specialize (IH (pre ++ [p])). rewrite <- app_assoc in IH. cbn [app] in IH.
    rewrite app_length in IH. cbn [length] in IH. rewrite Nat.add_1_r in IH.
    destruct (joined p q); [exact IH|].
    cbn [pairs_at]. rewrite IH.
    replace (S (length pre) - 1)%nat with (length pre) by lia.
    rewrite nth_error_app2, Nat.sub_diag by lia.
    rewrite nth_error_app2 by lia. replace (S (length pre) - length pre)%nat with 1%nat by lia.
    reflexivity.
  Qed.

  Lemma blind_one_batch all a b :
    (a <= b)%nat -> (b <= length all)%nat -> (b - a <= BATCH_SIZE)%nat ->
    dead_pulses (acts (all_rows
      (get_rows dur half joined true true compare half_blind BATCH_SIZE all a b)))
    = map blind (breaks joined (slice all a b)) ++ [(IMMEDIATE, MIN_PULSE, MIN_PULSE)].
  Proof.
    intros Hab Hb HB. unfold get_rows, all_rows. rewrite flat_map_app, acts_app, dead_app.
    f_equal. unfold overlapping_ranges. destruct (Nat.eqb_spec a b) as [->|Hn].
    - unfold slice. rewrite Nat.sub_diag. reflexivity.
    - replace (Nat.min (a + BATCH_SIZE) b) with b by lia.
      cbn [ranges_from]. rewrite Nat.eqb_refl. cbn [map batches_rows fst snd].
      set (ps := slice all a b).
      assert (Hlen : length ps = (b - a)%nat).
      { unfold ps, slice. rewrite firstn_length, skipn_length. lia. }
      unfold batch_rows. cbn [negb].
      pose proof (start_indices_incr joined ps 0) as Hi. cbn [Nat.add] in Hi.
      pose proof (pairs_at_starts [] ps) as Hp. cbn [app length] in Hp. rewrite <- Hp.
      set (starts := start_indices joined 0 ps) in *.
      set (e := match starts with s :: _ => s | [] => length ps end).
      assert (Hfirst : dead_pulses (acts (s_rows
         (create_triggered_rows dur half true compare half_blind None ps 0 e false))) = []).
      { unfold create_triggered_rows. destruct (nth_error ps 0); [|reflexivity]. cbv zeta.
        unfold sr_extend. cbn [s_rows]. rewrite acts_app, dead_app, dead_immediate, app_nil_r.
        rewrite dead_add by lia. reflexivity. }
      destruct starts as [|s starts'] eqn:Es.
      + cbn [end_indices combine remaining_rows]. cbn [app flat_map pairs_at map].
        rewrite app_nil_r. exact Hfirst.
      + cbn [end_indices]. destruct Hi as [H1 H2].
        pose proof (dead_remaining ps starts' (nth_error ps (e - 1)) s H2 ltac:(lia) eq_refl) as Hr.
        destruct (remaining_rows dur half true compare half_blind (nth_error ps (e - 1)) ps
                    (combine (s :: starts') (starts' ++ [length ps]))) as [rs last'] eqn:E.
        cbn [fst] in Hr. rewrite app_nil_r.
        change (flat_map s_rows (?a :: rs)) with (s_rows a ++ all_rows rs).
        rewrite acts_app, dead_app, Hfirst. exact Hr.
  Qed.
End Blind.

(* ---------------- durations as times ---------------- *)
Lemma calc_total rows :
  Forall (fun r => 0 <= r_repeats r) rows -> calc_duration rows = total_time (acts rows).
Proof.
  induction 1 as [|r rows Hr _ IH]; [reflexivity|].
  change (r :: rows) with ([r] ++ rows). rewrite calc_app, acts_app, total_time_app, IH.
  f_equal. rewrite acts_one_row. unfold calc_duration. cbn [fold_left]. unfold acts_of_row.
  destruct (Z.eqb_spec (r_repeats r) 0) as [->|Hn]; [simpl; lia|].
  transitivity (Z.of_nat (Z.to_nat (r_repeats r)) * (r_time1 r + r_time2 r)); [rewrite Z2Nat.id by lia; lia|].
  generalize (Z.to_nat (r_repeats r)). clear. induction n as [|n IH]; [reflexivity|].
  cbn [repeat]. unfold total_time in *. cbn [fold_right act_time pulse_of p_time1 p_time2].
  rewrite <- IH. lia.
Qed.

Lemma dur_ok_of_time gen :
  ends_in_loop (all_rows gen) ->
  Forall (fun s => s_dur s == inject_Z (total_time (acts (s_rows s))))%Q gen ->
  Forall dur_ok gen.
Proof.
  intros (i & l & E & Hl & Hi) H. rewrite Forall_forall in *. intros s Hs.
  unfold dur_ok. rewrite calc_total; [apply H; exact Hs|].
  apply Forall_forall. intros r Hr.
  assert (In r (all_rows gen)) as Hin by (unfold all_rows; apply in_flat_map; eauto).
  rewrite E in Hin. apply in_app_or in Hin. destruct Hin as [Hin|[<-|[]]].
  - specialize (Hi _ Hin). lia.
  - lia.
Qed.

(* live pulses survive the split into tables *)
Lemma live_shorten n a : map fst (live_pulses [shorten n a]) = map fst (live_pulses [a]).
Proof. destruct a as [p|p]; [|reflexivity]. simpl. destruct (p_live p); reflexivity. Qed.

Lemma replays_live n l tables :
  replays n l tables -> map fst (live_pulses (concat tables)) = map fst (live_pulses l).
Proof.
  induction 1 as [|l Hl|l l' rest tables Ht Hr IH].
  - reflexivity.
  - simpl. rewrite app_nil_r. reflexivity.
  - cbn [concat]. rewrite !live_app, !map_app, IH. f_equal.
    destruct Ht as [l a]. rewrite !live_app, !map_app, live_shorten. reflexivity.
Qed.
