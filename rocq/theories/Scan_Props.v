(** C13-C17: theorems about runs, breakpoints, progress and validation. *)
From Coq Require Import String Bool ZArith List.
From Verif Require Import Base Scan_Model Scan_Spec Scan_Proofs Validate_Model Validate_Proofs.
Import ListNotations.
Local Open Scope string_scope.
Local Open Scope Z_scope.
Local Open Scope list_scope.

(** A 3 x 10 scan moving only the inner axis. *)
Definition ex_dims : list dim := [mk_dim ["y"] 3; mk_dim ["x"] 10].
Example ex_dims_well_formed : well_formed ex_dims.
Proof.
  split.
  - repeat constructor; simpl; try discriminate.
  - simpl. repeat constructor; simpl; intuition discriminate.
Qed.

(** ** C13 *)

Theorem C13_runs_cover_scan : forall dims axes bps p, well_formed dims ->
  bps <> [] -> Forall (fun n => 0 < n) bps -> get_steps_per_run dims axes bps = Ok p ->
  p_use p = true /\
  zsum bps <= size_of (moved axes) dims /\
  (exists rest, (rest = [] \/ exists n, rest = [n]) /\
      p_steps p = repeat_list (bps ++ rest) (Z.to_nat (size_of (fun d => negb (moved axes d)) dims)) /\
      zsum (bps ++ rest) = size_of (moved axes) dims) /\
  Forall (fun n => 0 < n) (p_steps p) /\
  zsum (p_steps p) = gen_size dims /\
  p_stops p = totals 0 (p_steps p) /\ p_steps p <> [].
Proof. exact plan_with_breakpoints. Qed.
Print Assumptions C13_runs_cover_scan.
Example C13_ex : get_steps_per_run ex_dims ["x"] [2; 3]
  = Ok (mk_plan [2; 3; 5; 2; 3; 5; 2; 3; 5] true [2; 5; 10; 12; 15; 20; 22; 25; 30]).
Proof. vm_compute; reflexivity. Qed.

Theorem C13_without_breakpoints : forall dims axes p, well_formed dims ->
  get_steps_per_run dims axes [] = Ok p -> p = mk_plan [size_of (moved axes) dims] false [].
Proof. exact plan_without_breakpoints. Qed.
Print Assumptions C13_without_breakpoints.
Example C13_without_ex : get_steps_per_run ex_dims ["x"] [] = Ok (mk_plan [10] false []).
Proof. vm_compute; reflexivity. Qed.

Theorem C13_too_many_breakpoints_refused : forall dims axes bps, well_formed dims -> bps <> [] ->
  size_of (moved axes) dims < zsum bps -> exists e, get_steps_per_run dims axes bps = Err e.
Proof. exact plan_too_many. Qed.
Print Assumptions C13_too_many_breakpoints_refused.
Example C13_too_many_ex : get_steps_per_run ex_dims ["x"] [8; 3] = Err SAssert.
Proof. vm_compute; reflexivity. Qed.

(** Finding: a dimension without axes inside the moved dimensions is counted
    both as an inner and as an outer dimension, so the runs add up to more than
    the scan. *)
Theorem C13_axisless_dimension_refuted : exists dims axes bps p,
  Forall (fun d => 0 < d_size d) dims /\ NoDup (concat (map d_axes dims)) /\
  get_steps_per_run dims axes bps = Ok p /\ zsum (p_steps p) <> gen_size dims.
Proof.
  exists [mk_dim ["y"] 2; mk_dim [] 3; mk_dim ["x"] 4], ["x"], [5].
  eexists. split; [|split; [|split]].
  - repeat constructor.
  - simpl. repeat constructor; simpl; intuition discriminate.
  - vm_compute; reflexivity.
  - vm_compute; discriminate.
Qed.
Print Assumptions C13_axisless_dimension_refuted.

(** Finding: a breakpoint of zero steps is accepted and gives an empty run. *)
Theorem C13_zero_breakpoint_refuted : exists dims axes bps p,
  well_formed dims /\ get_steps_per_run dims axes bps = Ok p /\
  ~ Forall (fun n => 0 < n) (p_steps p).
Proof.
  exists ex_dims, ["x"], [0; 4]. eexists. split; [exact ex_dims_well_formed|].
  split; [vm_compute; reflexivity|].
  intros H. inversion H as [|? ? H1]. apply (Z.lt_irrefl 0). exact H1.
Qed.
Print Assumptions C13_zero_breakpoint_refuted.

(** ** C14 *)

(** For every scan and every history of runs, reports, pauses, seeks and resumes
    in which a seek during a run stays inside that run: the counters are in
    order, the next stop is one of the stopping points, and every range of steps
    the parts are ever asked for ends at the first stopping point after its
    start. *)
Theorem C14_counters_in_order : forall dims axes bps s h, well_formed dims ->
  Forall (fun n => 0 < n) bps ->
  configure dims axes bps = Ok s -> polite_history s h ->
  let s' := scan_run s h in
  0 <= s_completed s' <= s_configured s' /\ s_configured s' <= s_total s' /\
  s_total s' = gen_size dims /\
  stops s' = stops s /\ In (s_configured s') (stops s) /\
  (forall c n, In (c, n) (asked s') -> next_stop (stops s) c = Some (c + n)).
Proof. exact steps_in_bounds. Qed.
Print Assumptions C14_counters_in_order.

(** A seek to step n of an armed or finished scan restarts the parts at exactly
    n, for the steps up to the next stopping point. *)
Theorem C14_seek_exact : forall dims axes bps s h n, well_formed dims ->
  Forall (fun n => 0 < n) bps ->
  configure dims axes bps = Ok s -> polite_history s h ->
  let s' := scan_run s h in
  s_state s' = Armed \/ s_state s' = Finished -> 0 <= n < s_total s' ->
  exists p s'', next_stop (stops s) n = Some p /\
    scan_try s' (Pause n) = Ok s'' /\ s_state s'' = Armed /\
    s_completed s'' = n /\ s_configured s'' = p /\ s_asks s'' = ASeek n (p - n) :: s_asks s'.
Proof. exact seek_at_rest. Qed.
Print Assumptions C14_seek_exact.

Definition ex_scan : scan :=
  match configure ex_dims ["x"] [2; 3] with
  | Ok s => s
  | Err _ => mk_scan 0 (mk_plan [] false []) 0 0 0 Finished Finished [] []
  end.
Definition ex_hist : list scan_op :=
  [StartRun; Report "DET" 1; Report "MOT" 2; EndRun; Pause 22; StartRun; Report "DET" 24;
   Pause (-1); Pause 23; Resume; EndRun].
Example C14_ex :
  configure ex_dims ["x"] [2; 3] = Ok ex_scan /\ polite_history ex_scan ex_hist /\
  (let s := scan_run ex_scan ex_hist in
   s_completed s = 25 /\ s_configured s = 30 /\ s_state s = Armed /\
   asked s = [(0, 2); (2, 3); (22, 3); (22, 3); (23, 2); (25, 5)]).
Proof.
  split; [vm_compute; reflexivity|]. split; [|vm_compute; tauto].
  vm_compute. intuition (try discriminate).
Qed.

(** Finding: a seek out of the current run while it is active makes run() end in
    the state worked out for the old run; a pause() after that leaves
    configuredSteps at twice the size of the scan. *)
Theorem C14_seek_out_of_run_refuted : exists dims axes bps s h,
  well_formed dims /\ Forall (fun n => 0 < n) bps /\ configure dims axes bps = Ok s /\
  s_total (scan_run s h) < s_configured (scan_run s h).
Proof.
  exists [mk_dim ["x"] 10], ["x"], [4; 6]. eexists.
  exists [StartRun; Pause 7; Resume; EndRun; Pause (-1)].
  split; [|split; [|split]].
  - split; simpl; repeat constructor; simpl; try discriminate; tauto.
  - repeat constructor.
  - vm_compute; reflexivity.
  - vm_compute; reflexivity.
Qed.
Print Assumptions C14_seek_out_of_run_refuted.

(** ** C15 *)

(** Calling run() as often as there are runs does every step of the scan once
    and in order; the block is Armed before each run and Finished after the
    last. *)
Theorem C15_runs_do_whole_scan : forall dims axes bps s, well_formed dims ->
  Forall (fun n => 0 < n) bps ->
  configure dims axes bps = Ok s ->
  let m := length (run_sizes s) in
  (0 < m)%nat /\
  (forall j, (j < m)%nat -> let t := scan_run s (runs j) in
     s_state t = Armed /\ covers 0 (s_configured t) (asked t)) /\
  (let t := scan_run s (runs m) in
   s_state t = Finished /\ s_completed t = gen_size dims /\ covers 0 (gen_size dims) (asked t)).
Proof. exact runs_do_whole_scan. Qed.
Print Assumptions C15_runs_do_whole_scan.
Example C15_ex :
  length (run_sizes ex_scan) = 9%nat /\
  asked (scan_run ex_scan (runs 9)) =
  [(0, 2); (2, 3); (5, 5); (10, 2); (12, 3); (15, 5); (20, 2); (22, 3); (25, 5)].
Proof. vm_compute; tauto. Qed.

(** Pausing inside the current run (to wherever in it) and resuming does not
    change how the run ends. *)
Theorem C15_pause_resume_neutral : forall dims axes bps s h n, well_formed dims ->
  Forall (fun n => 0 < n) bps ->
  configure dims axes bps = Ok s -> polite_history s h ->
  let s' := scan_run s h in
  s_state s' = Running -> inside_run s' n ->
  let s'' := scan_run s' [Pause n; Resume] in
  s_state s'' = Running /\ s_configured s'' = s_configured s' /\
  (forall c, 0 <= n -> n <> s_configured s' -> n < s_total s' -> c = s_completed s'' -> c = n) /\
  let e1 := scan_step s' EndRun in
  let e2 := scan_step s'' EndRun in
  s_state e2 = s_state e1 /\ s_completed e2 = s_completed e1 /\
  s_configured e2 = s_configured e1 /\ s_idx e2 = s_idx e1 /\ s_plan e2 = s_plan e1 /\
  s_total e2 = s_total e1.
Proof. exact pause_resume_same_run. Qed.
Print Assumptions C15_pause_resume_neutral.

(** Finished means everything is done; Armed and Paused mean something is left. *)
Theorem C15_finished_iff_all_done : forall dims axes bps s h, well_formed dims ->
  Forall (fun n => 0 < n) bps ->
  configure dims axes bps = Ok s -> polite_history s h ->
  let s' := scan_run s h in
  (s_state s' = Finished -> s_completed s' = s_total s') /\
  (s_state s' = Armed -> s_completed s' < s_total s') /\
  (s_state s' = Paused -> s_completed s' < s_total s').
Proof. exact rest_states. Qed.
Print Assumptions C15_finished_iff_all_done.

(** Finding: pausing the last run, seeking back before it and resuming ends
    Finished with most of the scan not done. *)
Theorem C15_seek_out_of_run_refuted : exists dims axes bps s h,
  well_formed dims /\ Forall (fun n => 0 < n) bps /\ configure dims axes bps = Ok s /\
  s_state (scan_run s h) = Finished /\ s_completed (scan_run s h) < s_total (scan_run s h).
Proof.
  exists [mk_dim ["x"] 10], ["x"], [4; 6]. eexists.
  exists [StartRun; EndRun; StartRun; Pause 1; Resume; EndRun].
  split; [|split; [|split; [|split]]].
  - split; simpl; repeat constructor; simpl; try discriminate; tauto.
  - repeat constructor.
  - vm_compute; reflexivity.
  - vm_compute; reflexivity.
  - vm_compute; reflexivity.
Qed.
Print Assumptions C15_seek_out_of_run_refuted.

(** ** C16 *)

(** Each report leaves completedSteps alone or raises it, never above the latest
    report of any part, and never leaves it below all of them. *)
Theorem C16_progress_is_slowest_part : forall rs p n s, s_progress s = [] ->
  let s1 := report_all rs s in
  let s2 := report_all (rs ++ [(p, n)]) s in
  s_completed s1 <= s_completed s2 /\
  (s_completed s2 = s_completed s1 \/
   forall q v, latest_report q (rs ++ [(p, n)]) = Some v -> s_completed s2 <= v) /\
  (exists q v, latest_report q (rs ++ [(p, n)]) = Some v /\ v <= s_completed s2).
Proof. exact progress_slowest. Qed.
Print Assumptions C16_progress_is_slowest_part.
Example C16_ex :
  s_progress ex_scan = [] /\
  map (fun k => s_completed (report_all
        (firstn k [("A", 1); ("B", 5); ("A", 4); ("B", 3); ("A", 9)]) ex_scan)) [0; 1; 2; 3; 4; 5]%nat
  = [0; 1; 1; 4; 4; 4].
Proof. vm_compute; tauto. Qed.

(** Nothing but a pause or seek ever lowers completedSteps. *)
Theorem C16_progress_never_goes_back : forall dims axes bps s h o, well_formed dims ->
  Forall (fun n => 0 < n) bps ->
  configure dims axes bps = Ok s -> polite_history s h ->
  let s' := scan_run s h in
  (forall n, o <> Pause n) -> s_completed s' <= s_completed (scan_step s' o).
Proof. exact progress_monotone. Qed.
Print Assumptions C16_progress_never_goes_back.

(** ** C17 *)

(** If validation returns parameters then the parts were asked about exactly
    those last and wanted no change. *)
Theorem C17_validated_is_fixpoint :
  forall (V E : Type) dur with_dur (meta : string -> V -> result E V) parts defaults given v asked,
  validate dur with_dur meta parts defaults given = (Consistent v, asked) ->
  parts v = Ok [] /\ exists before, asked = before ++ [v].
Proof. intros V E dur with_dur meta parts defaults given v l. apply loop_consistent. Qed.
Print Assumptions C17_validated_is_fixpoint.

Theorem C17_at_most_ten_rounds :
  forall (V E : Type) dur with_dur (meta : string -> V -> result E V) parts defaults given,
  (length (snd (validate dur with_dur meta parts defaults given)) <= 10)%nat.
Proof. intros. apply loop_rounds. Qed.
Print Assumptions C17_at_most_ten_rounds.

(** A given parameter that no part asks to change comes back as given; one not
    given comes back as its default. *)
Theorem C17_untouched_parameters_kept :
  forall (V E : Type) dur with_dur (meta : string -> V -> result E V) parts defaults given v asked k,
  NoDup (dkeys defaults) ->
  validate dur with_dur meta parts defaults given = (Consistent v, asked) ->
  (forall q ts, In q asked -> parts q = Ok ts -> ~ In k (map fst ts)) ->
  dget k v = match dget k given with Some x => Some x | None => dget k defaults end.
Proof.
  intros V E dur with_dur meta parts defaults given v l k Hn H Hk.
  rewrite (loop_untouched dur with_dur meta parts _ _ _ _ _ H Hk).
  destruct (dget k given) eqn:Eg; [now apply fill_given | now apply fill_missing].
Qed.
Print Assumptions C17_untouched_parameters_kept.

(** Two parts: one wants duration at least 5, the other rounds exposure to even. *)
Definition ex_parts (p : dict Z) : result unit (list (string * Z)) :=
  Ok ((match dget "generator" p with Some d => if d <? 5 then [("generator", 5)] else [] | None => [] end)
      ++ (match dget "exposure" p with Some e => if Z.odd e then [("exposure", e + 1)] else [] | None => [] end)).
Example C17_ex :
  validate (fun d => d) (fun _ d => d) (fun _ v => Ok v) ex_parts [("axes", 1)]
           [("generator", 3); ("exposure", 7)]
  = (Consistent [("generator", 5); ("exposure", 8); ("axes", 1)],
     [[("generator", 3); ("exposure", 7); ("axes", 1)];
      [("generator", 5); ("exposure", 7); ("axes", 1)];
      [("generator", 5); ("exposure", 8); ("axes", 1)]]).
Proof. vm_compute; reflexivity. Qed.
(** Parts that never agree. *)
Example C17_disagree_ex :
  fst (validate (fun d => d) (fun _ d => d) (fun _ v => Ok v)
        (fun p => match dget "x" p with Some v => Ok [("x", v + 1)] | None => Err tt end)
        [] [("x", 0)]) = Inconsistent.
Proof. vm_compute; reflexivity. Qed.
