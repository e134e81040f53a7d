(* Properties C26, C27, C28: PandA sequencer tables. *)
From Coq Require Import String Bool ZArith QArith Lia List.
From Verif Require Import Base Seq_Model Seq_Spec Seq_Proofs.
Import ListNotations.
Local Open Scope list_scope.
Local Open Scope Z_scope.

(* C26: adding [count] pulses adds exactly [count] pulses of the given shape, in
   rows of 1..4096 repeats, when count is not a multiple of 4096. *)
Theorem C26_exact_number_of_pulses :
  forall s count t pos half live dead trim,
    0 <= count -> count mod 4096 <> 0 ->
    exists added,
      s_rows (add_seq_entry s count t pos half live dead trim) = s_rows s ++ added /\
      Forall (fun r => 1 <= r_repeats r <= 4096) added /\
      fold_right (fun r n => r_repeats r + n) 0 added = count /\
      acts added = repeat (Once (mkPulse t pos half live dead (half - trim))) (Z.to_nat count).
Proof.
  intros s count t pos half live dead trim Hc Hm.
  rewrite add_seq_entry_rows. eexists. split; [reflexivity|].
  pose proof (Z.div_mod count 4096 ltac:(lia)) as D.
  pose proof (Z.div_pos count 4096 Hc ltac:(lia)) as D'.
  pose proof (Z.mod_pos_bound count 4096 ltac:(lia)) as D2.
  split; [|split].
  - apply Forall_app. split.
    + apply Forall_forall. intros x Hx. apply repeat_spec in Hx. subst x. simpl. unfold MAX_REPEATS. lia.
    + constructor; [|constructor]. cbn [r_repeats seq_row]. unfold MAX_REPEATS. lia.
  - rewrite fold_sum_app, sum_repeat. cbn [fold_right r_repeats seq_row].
    unfold MAX_REPEATS. rewrite Z2Nat.id by exact D'. lia.
  - pose proof (acts_add sr_empty count t pos half live dead trim Hc) as A.
    rewrite add_seq_entry_rows in A. cbn [s_rows sr_empty app] in A. rewrite A.
    unfold MAX_REPEATS. apply Z.eqb_neq in Hm. rewrite Hm, app_nil_r. reflexivity.
Qed.
Print Assumptions C26_exact_number_of_pulses.

Example C26_example :
  map r_repeats (s_rows (add_seq_entry sr_empty 10000 IMMEDIATE 0 5 true false 0))
  = [4096; 4096; 1808] /\ 10000 mod 4096 <> 0.
Proof. split; [vm_compute; reflexivity|vm_compute; discriminate]. Qed.

(* count = 0 is the continuous loop. *)
Theorem C26_zero_is_continuous :
  forall s t pos half live dead trim,
    acts (s_rows (add_seq_entry s 0 t pos half live dead trim))
    = acts (s_rows s) ++ [Forever (mkPulse t pos half live dead (half - trim))].
Proof. intros. rewrite acts_add by lia. reflexivity. Qed.
Print Assumptions C26_zero_is_continuous.

(* Finding: for a positive multiple of 4096 the last row has repeats = 0, i.e. it
   never ends. *)
Theorem C26_multiple_of_4096_refuted :
  forall k s t pos half live dead trim,
    0 < k ->
    exists added,
      s_rows (add_seq_entry s (k * 4096) t pos half live dead trim) = s_rows s ++ added /\
      has_forever (acts added) = true.
Proof.
  intros k s t pos half live dead trim Hk.
  rewrite add_seq_entry_rows. eexists. split; [reflexivity|].
  unfold MAX_REPEATS. rewrite Z.mod_mul by lia.
  rewrite acts_app, has_forever_app. apply orb_true_r.
Qed.
Print Assumptions C26_multiple_of_4096_refuted.
Example C26_refuted_example :
  map r_repeats (s_rows (add_seq_entry sr_empty 4096 IMMEDIATE 0 5 true false 0)) = [4096; 0].
Proof. vm_compute. reflexivity. Qed.

(* C27: however the source is batched, the tables replay it: all but the last
   have 6 ticks taken off their last pulse, the last is complete; no table is
   too big; no assertion fails; total time is as said. *)
Theorem C27_tables_replay_source :
  forall gen,
    ends_in_loop (all_rows gen) ->
    Forall (fun s => s_dur s == inject_Z (total_time (acts (s_rows s))))%Q gen ->
    exists tables,
      get_tables gen = Ok tables /\
      Forall (fun t => Z.of_nat (length t) <= 4096) tables /\
      replays 6 (acts (all_rows gen)) (map acts tables) /\
      fold_right (fun t n => total_time (acts t) + n) 0 tables
      = total_time (acts (all_rows gen)) - 6 * (Z.of_nat (length tables) - 1).
Proof.
  intros gen Hl Hd.
  destruct (get_tables_ok gen (dur_ok_of_time gen Hl Hd) Hl) as (tables & E & H1 & H2).
  exists tables. split; [exact E|]. split; [exact H1|]. split; [exact H2|].
  destruct (loop_acts _ Hl) as (i & p & Ea & Hi).
  pose proof (replays_time _ _ _ H2 i p Ea Hi) as T. rewrite map_length in T.
  change 6 with SEQ_TABLE_SWITCH_DELAY. rewrite <- T. clear.
  induction tables; cbn [map fold_right]; congruence.
Qed.
Print Assumptions C27_tables_replay_source.

(* The rows that arrive satisfy the hypothesis on durations when made by the
   row builders: add_seq_entry and extend keep it. *)
Theorem C27_durations_add_up :
  forall s count t pos half live dead trim,
    0 <= count -> Forall (fun r => 0 <= r_repeats r) (s_rows s) ->
    (s_dur s == inject_Z (total_time (acts (s_rows s))))%Q ->
    let s' := add_seq_entry s count t pos half live dead trim in
    (s_dur s' == inject_Z (total_time (acts (s_rows s'))))%Q.
Proof.
  intros s count t pos half live dead trim Hc Hr Hd s'.
  assert (H : dur_ok s') by (apply dur_ok_add; [exact Hc|]; unfold dur_ok; rewrite calc_total; assumption).
  unfold dur_ok in H. rewrite H, calc_total; [reflexivity|].
  apply nonneg_add; assumption.
Qed.
Print Assumptions C27_durations_add_up.

(* three batches (20000 pulses of 2 ms and a one-off) give three tables *)
Definition ex_gen : list seqrows :=
  [add_seq_entry sr_empty 10000 IMMEDIATE 0 125000 true false 0;
   add_seq_entry (add_seq_entry sr_empty 10000 IMMEDIATE 0 125000 true false 0)
                 1 BITA_1 0 70 true false 0;
   final_rows].
Example C27_example_hyps :
  ends_in_loop (all_rows ex_gen) /\
  Forall (fun s => s_dur s == inject_Z (total_time (acts (s_rows s))))%Q ex_gen.
Proof.
  split.
  - unfold ends_in_loop.
    exists (removelast (all_rows ex_gen)), (seq_row 0 IMMEDIATE 0 MIN_PULSE false false 0).
    split; [vm_compute; reflexivity|]. split; [reflexivity|].
    apply Forall_forall. intros r Hr. vm_compute in Hr.
    repeat (destruct Hr as [<-|Hr]; [vm_compute; discriminate|]). destruct Hr.
  - repeat (constructor; [repeat (apply C27_durations_add_up; [lia| |]);
      try (apply nonneg_add; [lia|]); try constructor; vm_compute; reflexivity|]). constructor.
Qed.
Example C27_example :
  match get_tables ex_gen with
  | Ok ts => map (map r_repeats) ts = [[4096; 4096; 1807; 1]; [4096; 4096; 1808; 1]; [1; 0]]
  | Err _ => False
  end.
Proof. vm_compute. reflexivity. Qed.

(* The tables written to the two sequencers, for every history of updates of
   their active attributes: each written once, in order, first A then B, then
   to the sequencer that has just finished. *)
Theorem C27_writes_in_order :
  forall (T : Type) (d : dbuf T) (tables : list T) (events : list (bool * bool)),
    db_written (db_events (db_run (db_configure d tables)) events)
    = db_written d ++ combine (true :: false :: falls false false events) tables.
Proof. intros. apply db_written_ok. Qed.
Print Assumptions C27_writes_in_order.
Example C27_writes_example :
  db_written (db_events (db_run (db_configure db_init [1;2;3;4]))
    [(true, false); (false, false); (true, true); (false, false); (true, false); (false, true);
     (false, true); (false, false); (true, true); (true, false)])
  = [(true, 1); (false, 2); (true, 3); (false, 4)].
Proof. vm_compute. reflexivity. Qed.

(* Played alternately by the hardware, the tables come out in order. *)
Theorem C27_played_in_order :
  forall (T : Type) (d : dbuf T) (tables : list T) n,
    (n <= length tables)%nat ->
    play n (db_run (db_configure d tables)) true = map Some (firstn n tables).
Proof. intros. apply play_ok; [apply db_inv_start|assumption]. Qed.
Print Assumptions C27_played_in_order.
Example C27_played_example :
  play 5 (db_run (db_configure db_init [1;2;3;4;5])) true = map Some [1;2;3;4;5].
Proof. vm_compute. reflexivity. Qed.

(* Finding: split leaves the wrong _duration in the truncated rows, because the
   remainder's duration is subtracted in seconds from a count of ticks. *)
Theorem C27_split_duration_refuted :
  exists s count self rem,
    (s_dur s == inject_Z (total_time (acts (s_rows s))))%Q /\
    split s count = Ok (self, rem) /\
    ~ (s_dur self == inject_Z (total_time (acts (s_rows self))))%Q.
Proof.
  exists (add_seq_entry sr_empty 5 IMMEDIATE 0 125000 true false 0), 1.
  do 2 eexists. split; [vm_compute; reflexivity|]. split; [vm_compute; reflexivity|].
  vm_compute. discriminate.
Qed.
Print Assumptions C27_split_duration_refuted.

(* C28: one live pulse per point, of the point's duration, in order; then the
   final dead pulse and idle loop; nothing before that loops for ever unless
   4096 consecutive points have the same duration. *)
Theorem C28_one_live_pulse_per_point :
  forall (P : Type) (dur : P -> Z) (half : Z -> Z) joined has_axes has_pcomp
         (compare : P -> trigger * Z) half_blind batch (points : list P) a b,
    (0 < batch)%nat -> (a <= b)%nat -> (b <= length points)%nat ->
    let wanted := firstn (b - a) (skipn a points) in
    exists body,
      acts (all_rows (get_rows dur half joined has_axes has_pcomp compare half_blind batch points a b))
      = body ++ [Once (mkPulse IMMEDIATE 0 1250 false true 1250);
                 Forever (mkPulse IMMEDIATE 0 1250 false false 1250)] /\
      live_pulses body = map (fun p => (half (dur p), half (dur p))) wanted /\
      (no_long_run (map dur wanted) -> has_forever body = false).
Proof.
  intros P dur half joined has_axes has_pcomp compare half_blind batch points a b HB Hab Hb wanted.
  destruct (body_ok dur half joined has_axes has_pcomp compare half_blind batch points a b HB Hab Hb)
    as (A & B & C & D).
  exists (acts (all_rows (body_rows dur half joined has_axes has_pcomp compare half_blind batch points a b))).
  split; [|split; [exact A|exact D]].
  unfold get_rows, all_rows. rewrite flat_map_app, acts_app. reflexivity.
Qed.
Print Assumptions C28_one_live_pulse_per_point.

(* 7 points in batches of 3, a row break after the third and sixth *)
Definition ex_pts : list (Z * Z) := [(1,10);(2,10);(3,12);(4,10);(5,10);(6,10);(7,14)].
Definition ex_joined (p q : Z * Z) : bool := negb (fst p =? 3) && negb (fst p =? 6).
Definition ex_rows :=
  get_rows (P := Z * Z) snd (fun d => d) ex_joined true true (fun p => (POS "POSA>=POSITION", fst p))
           (fun p q => 100 * fst p + fst q) 3 ex_pts 1 7.
Example C28_example :
  live_pulses (acts (all_rows ex_rows)) = [(10,10);(12,12);(10,10);(10,10);(10,10);(14,14)]
  /\ map (fun s => length (s_rows s)) ex_rows = [2; 2; 1; 2; 2]%nat
  /\ no_long_run (map snd (firstn 6 (skipn 1 ex_pts))).
Proof.
  split; [vm_compute; reflexivity|]. split; [vm_compute; reflexivity|].
  intros d (l1 & l2 & E). apply (f_equal (@length Z)) in E.
  rewrite !app_length, repeat_length in E.
  cbn [length map firstn skipn ex_pts] in E. lia.
Qed.

(* The tables written for the points keep one live pulse per point: phase 1 is
   the point's half frame. *)
Theorem C28_tables_one_pulse_per_point :
  forall (P : Type) (dur : P -> Z) (half : Z -> Z) joined has_axes has_pcomp
         (compare : P -> trigger * Z) half_blind batch (points : list P) a b,
    (0 < batch)%nat -> (a <= b)%nat -> (b <= length points)%nat ->
    let wanted := firstn (b - a) (skipn a points) in
    no_long_run (map dur wanted) ->
    exists tables,
      get_tables (get_rows dur half joined has_axes has_pcomp compare half_blind batch points a b)
      = Ok tables /\
      map fst (live_pulses (flat_map acts tables)) = map (fun p => half (dur p)) wanted.
Proof.
  intros P dur half joined has_axes has_pcomp compare half_blind batch points a b HB Hab Hb wanted Hl.
  destruct (get_rows_loop dur half joined has_axes has_pcomp compare half_blind batch points a b
              HB Hab Hb Hl) as [Hd Hloop].
  destruct (get_tables_ok _ Hd Hloop) as (tables & E & _ & Hr).
  exists tables. split; [exact E|].
  rewrite flat_map_concat_map, (replays_live _ _ _ Hr).
  destruct (C28_one_live_pulse_per_point P dur half joined has_axes has_pcomp compare half_blind
              batch points a b HB Hab Hb) as (body & Eb & Hlive & _).
  rewrite Eb, live_app, map_app, Hlive, map_map. cbn [live_pulses flat_map p_live app map].
  apply app_nil_r.
Qed.
Print Assumptions C28_tables_one_pulse_per_point.
Example C28_tables_example :
  match get_tables ex_rows with
  | Ok ts => map fst (live_pulses (flat_map acts ts)) = [10; 12; 10; 10; 10; 14]
  | Err _ => False end.
Proof. vm_compute. reflexivity. Qed.

(* Finding: 4096 points of equal duration without axes make a row that never
   ends before the scan is done. *)
Theorem C28_run_of_4096_refuted :
  exists (points : list Z) (a b : nat) body,
    acts (all_rows (get_rows (fun d => d) (fun d => d) (fun _ _ => true) false false
                      (fun _ => (IMMEDIATE, 0)) (fun _ _ => 0) (Z.to_nat 5000) points a b))
    = body ++ [Once (mkPulse IMMEDIATE 0 1250 false true 1250);
               Forever (mkPulse IMMEDIATE 0 1250 false false 1250)] /\
    has_forever body = true.
Proof.
  exists (repeat 10 (Z.to_nat 4096)), 0%nat, (Z.to_nat 4096).
  exists (repeat (Once (mkPulse IMMEDIATE 0 10 true false 10)) (Z.to_nat 4096)
            ++ [Forever (mkPulse IMMEDIATE 0 10 true false 10)]).
  split; vm_compute; reflexivity.
Qed.
Print Assumptions C28_run_of_4096_refuted.

(* C41: with position compare, while the range fits in one batch of points, there
   is exactly one blind pulse for each pair of consecutive points that are not
   joined, of the blind time computed for that pair. *)
Theorem C41_blind_per_turnaround_one_batch :
  forall (P : Type) (dur : P -> Z) (half : Z -> Z) joined
         (compare : P -> trigger * Z) half_blind batch (points : list P) a b,
    (a <= b)%nat -> (b <= length points)%nat -> (b - a <= batch)%nat ->
    dead_pulses (acts (all_rows
      (get_rows dur half joined true true compare half_blind batch points a b)))
    = map (fun pq => (IMMEDIATE, half_blind (fst pq) (snd pq), half_blind (fst pq) (snd pq)))
          (breaks joined (firstn (b - a) (skipn a points)))
      ++ [(IMMEDIATE, 1250, 1250)].
Proof. intros. apply blind_one_batch; assumption. Qed.
Print Assumptions C41_blind_per_turnaround_one_batch.
Example C41_example :
  dead_pulses (acts (all_rows
    (get_rows (P := Z * Z) snd (fun d => d) ex_joined true true (fun p => (POS "POSA>=POSITION", fst p))
           (fun p q => 100 * fst p + fst q) 9 ex_pts 1 7)))
  = [(IMMEDIATE, 304, 304); (IMMEDIATE, 607, 607); (IMMEDIATE, 1250, 1250)].
Proof. vm_compute. reflexivity. Qed.

(* Finding: not so beyond one batch.  A row that goes on over the end of a batch
   leaves last_point at the end of the batch, so the blind time before the next
   row is computed from the wrong point: here from point 5000 and not 5003. *)
Theorem C41_stale_last_point_refuted :
  exists (points : list Z) joined half_blind a b,
    dead_pulses (acts (all_rows
      (get_rows (fun _ => 10) (fun d => d) joined true true (fun p => (IMMEDIATE, p)) half_blind
         (Z.to_nat 5000) points a b)))
    <> map (fun pq => (IMMEDIATE, half_blind (fst pq) (snd pq), half_blind (fst pq) (snd pq)))
           (breaks joined (firstn (b - a) (skipn a points)))
       ++ [(IMMEDIATE, 1250, 1250)].
Proof.
  exists (map Z.of_nat (seq 1 (Z.to_nat 5005))), (fun p _ => negb (p =? 5003)),
         (fun p q => p), 0%nat, (Z.to_nat 5005).
  vm_compute. discriminate.
Qed.
Print Assumptions C41_stale_last_point_refuted.
