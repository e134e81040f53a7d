(** C37: frame ids over any history of a scan. *)
From Coq Require Import String Bool ZArith Lia List.
From Verif Require Import Base Scan_Model Scan_Spec Scan_Proofs Det_Model.
Import ListNotations.
Local Open Scope Z_scope.
Local Open Scope list_scope.

(** ** Specification *)

(** The id of the last frame of the run asked for last (asks newest first): the camera counts
    on from the arrayCounter it was last given, one for each frame. *)
Fixpoint last_id (hw bp : bool) (size : Z) (d0 : det) (l : list ask) : Z :=
  match l with
  | [] => 0
  | APostRunReady :: r => last_id hw bp size d0 r
  | AConfigure c n :: r | ASeek c n :: r => dt_base (det_asks hw bp size d0 (rev l)) + n
  | APostRunArmed c n :: r =>
      (if bp || negb hw then dt_base (det_asks hw bp size d0 (rev l))
       else last_id hw bp size d0 r) + n
  end.

(** The steps of the run asked for last. *)
Fixpoint last_range (l : list ask) : Z * Z :=
  match l with
  | [] => (0, 0)
  | APostRunReady :: r => last_range r
  | AConfigure c n :: _ | ASeek c n :: _ | APostRunArmed c n :: _ => (c, n)
  end.

(** The asks among what happens to a labeller. *)
Fixpoint asks_of (os : list lop) : list ask :=
  match os with
  | [] => []
  | LAsk a :: r => a :: asks_of r
  | LQty _ :: r => asks_of r
  end.

(** The position that the labeller has for the frame with this id. *)
Definition label (l : lab) (id : Z) : option Z :=
  if id <? l_id_start l then None else nth_error (l_positions l) (Z.to_nat (id - l_id_start l)).

(** ** Every history of a scan asks for ranges that follow each other *)

(** Newest first: it starts with a configure, a run follows where the one before ended. *)
Fixpoint good (size : Z) (l : list ask) : Prop :=
  match l with
  | [] => False
  | APostRunReady :: r => good size r
  | AConfigure c n :: r => 0 <= c /\ 0 < n /\ c + n <= size /\ r = []
  | ASeek c n :: r => 0 <= c /\ 0 < n /\ c + n <= size /\ good size r
  | APostRunArmed c n :: r => 0 <= c /\ 0 < n /\ c + n <= size /\ good size r /\
                              c = fst (last_range r) + snd (last_range r)
  end.

Definition last_end (l : list ask) : Z := fst (last_range l) + snd (last_range l).

Lemma scan_step_asks : forall s o, let s' := scan_step s o in
  (s_asks s' = s_asks s /\ s_configured s' = s_configured s) \/
  (s_asks s' = APostRunReady :: s_asks s /\ s_configured s' = s_configured s) \/
  (exists n, s_asks s' = APostRunArmed (s_configured s) n :: s_asks s /\
             s_configured s' = s_configured s + n /\ s_completed s' = s_configured s) \/
  (exists c n, s_asks s' = ASeek c n :: s_asks s /\ s_configured s' = c + n /\ s_completed s' = c).
Proof.
  intros s o. cbv zeta. unfold scan_step, scan_try. destruct o.
  - unfold start_run. destruct (s_state s); cbn; auto.
  - unfold end_run. destruct (s_state s); auto.
    destruct (s_configured s <? s_total s); [|cbn; auto].
    destruct (nth_error _ _) as [n|]; cbn; auto. right; right; left. eauto.
  - cbn. auto.
  - assert (D : forall t nx, let s' := match do_pause t nx s with Ok s' => s' | Err _ => s end in
      (s_asks s' = s_asks s /\ s_configured s' = s_configured s) \/
      (exists c n, s_asks s' = ASeek c n :: s_asks s /\ s_configured s' = c + n /\ s_completed s' = c)).
    { intros t nx. cbv zeta. unfold do_pause. cbv zeta.
      set (f := if p_use (s_plan s) then _ else _). clearbody f.
      destruct f as [[i k]|]; cbn; eauto. right. eauto. }
    unfold pause. destruct (n <? 0).
    + destruct (s_state s); auto;
        match goal with |- context [do_pause ?t ?x s] => destruct (D t x) as [H|H]; auto end.
    + destruct (s_state s);
        match goal with |- context [do_pause ?t ?x s] => destruct (D t x) as [H|H]; auto end.
  - unfold resume. destruct (s_state s); cbn; auto.
Qed.

Lemma good_step : forall zs s o, inv zs s -> polite s o ->
  good (s_total s) (s_asks s) -> last_end (s_asks s) = s_configured s ->
  good (s_total (scan_step s o)) (s_asks (scan_step s o)) /\
  last_end (s_asks (scan_step s o)) = s_configured (scan_step s o) /\
  s_total (scan_step s o) = s_total s.
Proof.
  intros zs s o I P G L. assert (I' := scan_step_inv zs s o I P).
  assert (T : s_total (scan_step s o) = s_total s).
  { destruct (v_plan _ _ I) as (_ & _ & Ha & _). destruct (v_plan _ _ I') as (_ & _ & Hb & _). lia. }
  destruct (inv_bounds _ _ I') as (B1 & B2 & _).
  destruct (scan_step_asks s o) as [(A & C)|[(A & C)|[(n & A & C & D)|(c & n & A & C & D)]]];
    rewrite T in *; rewrite A, C.
  - auto.
  - cbn. auto.
  - pose proof (v_asks _ _ I') as F. rewrite A in F. inversion F as [|x y Fx Fy]; subst.
    cbn in Fx. apply next_stop_In in Fx. unfold last_end in *. cbn. split; [|split]; auto; try lia.
    split; [lia|]. split; [lia|]. split; [lia|]. split; [exact G|]. congruence.
  - pose proof (v_asks _ _ I') as F. rewrite A in F. inversion F as [|x y Fx Fy]; subst.
    cbn in Fx. apply next_stop_In in Fx. unfold last_end in *. cbn. split; [|split]; auto; try lia.
    split; [lia|]. split; [lia|]. split; [lia|]. exact G.
Qed.

Lemma good_run : forall zs h s, inv zs s -> polite_history s h ->
  good (s_total s) (s_asks s) -> last_end (s_asks s) = s_configured s ->
  good (s_total s) (s_asks (scan_run s h)) /\ s_total (scan_run s h) = s_total s.
Proof.
  intros zs h; induction h as [|o r IH]; intros s I P G L; cbn in *; auto.
  destruct P as [P1 P2]. destruct (good_step zs s o I P1 G L) as (G' & L' & T).
  destruct (IH (scan_step s o) (scan_step_inv _ _ _ I P1) P2 G' L') as (X & Y).
  unfold scan_run in *. cbn. rewrite <- T. auto.
Qed.

Lemma scan_good : forall dims axes bps s h, well_formed dims -> Forall (fun n => 0 < n) bps ->
  configure dims axes bps = Ok s -> polite_history s h ->
  good (gen_size dims) (s_asks (scan_run s h)).
Proof.
  intros dims axes bps s h W B C P.
  destruct (configure_inv _ _ _ _ W B C) as (zs & I & _ & _ & _ & T & A).
  destruct (inv_bounds _ _ I) as (B1 & B2 & _).
  destruct (good_run zs h s I P) as (G & _).
  - rewrite A. cbn. repeat split; auto; lia.
  - rewrite A. reflexivity.
  - rewrite <- T. exact G.
Qed.

(** ** The driver *)

Lemma det_asks_cons : forall hw bp size d0 a r,
  det_asks hw bp size d0 (rev (a :: r)) = det_ask hw bp size (det_asks hw bp size d0 (rev r)) a.
Proof. intros. unfold det_asks. cbn [rev]. now rewrite fold_left_app. Qed.

Lemma driver : forall hw bp size d0 l, good size l ->
  let d := det_asks hw bp size d0 (rev l) in
  dt_done d = last_id hw bp size d0 l /\
  last_id hw bp size d0 l + dt_off d = last_end l /\
  0 < snd (last_range l) /\ 0 <= fst (last_range l) /\ last_end l <= size /\
  snd (last_range l) <= last_id hw bp size d0 l /\
  (if hw && negb bp then dt_base d + dt_images d + dt_off d = size
   else dt_base d + dt_images d = dt_done d).
Proof.
  intros hw bp size d0 l; induction l as [|a r IH]; intros G; [contradiction|]. cbv zeta.
  destruct a as [c n|c n|c n|]; cbn [last_id]; rewrite ?det_asks_cons; unfold last_end in *;
    cbn [last_range fst snd good] in *.
  - destruct G as (G1 & G2 & G3 & ->). cbn. unfold num_images.
    destruct (hw && negb bp); repeat split; lia.
  - destruct G as (G1 & G2 & G3 & G4 & G5). specialize (IH G4). cbv zeta in IH.
    destruct IH as (I1 & I2 & I3 & I4 & I5 & I6 & I7). cbn [det_ask]. unfold setup_detector.
    destruct hw, bp; cbn in *; repeat split; lia.
  - destruct G as (G1 & G2 & G3 & G4). specialize (IH G4). cbv zeta in IH.
    destruct IH as (I1 & I2 & I3 & I4 & I5 & I6 & I7). cbn. unfold num_images.
    destruct (hw && negb bp); repeat split; lia.
  - specialize (IH G). cbn [det_ask]. exact IH.
Qed.

(** The run asked for last takes steps c, ..., c + n - 1.  Its frames have the ids
    last_id - n + 1, ..., last_id.  The driver waits for last_id; each of these ids plus the
    offset is the number of steps completed by that frame; and the camera was armed for enough
    frames, up to the end of the scan or of the run. *)
Theorem C37_id_is_step : forall dims axes bps s h hw bp d0, well_formed dims ->
  Forall (fun n => 0 < n) bps -> configure dims axes bps = Ok s -> polite_history s h ->
  let size := gen_size dims in
  let l := s_asks (scan_run s h) in
  let d := det_asks hw bp size d0 (rev l) in
  let '(c, n) := last_range l in
  let hi := last_id hw bp size d0 l in
  0 <= c /\ 0 < n /\ c + n <= size /\ n <= hi /\ dt_done d = hi /\
  (forall k, 0 <= k < n -> det_completed d (hi - n + 1 + k) = c + k + 1) /\
  det_completed d (dt_base d + dt_images d) = (if hw && negb bp then size else c + n).
Proof.
  intros dims axes bps s h hw bp d0 W B C P. cbv zeta.
  pose proof (scan_good _ _ _ _ _ W B C P) as G.
  pose proof (driver hw bp (gen_size dims) d0 _ G) as D. cbv zeta in D. unfold last_end in D.
  destruct (last_range (s_asks (scan_run s h))) as [c n]. cbn [fst snd] in D.
  destruct D as (D1 & D2 & D3 & D4 & D5 & D6 & D7). unfold det_completed.
  repeat split; try lia. destruct (hw && negb bp); lia.
Qed.
Print Assumptions C37_id_is_step.

Lemma last_id_grows : forall hw bp size d0 l r, good size (l ++ r) -> good size r ->
  last_id hw bp size d0 r <= last_id hw bp size d0 (l ++ r).
Proof.
  intros hw bp size d0 l r; induction l as [|a l IH]; intros G Gr; cbn [app] in *; [lia|].
  assert (X : forall c n, good size (l ++ r) -> 0 < n -> last_id hw bp size d0 (l ++ r) <=
    dt_base (setup_detector false c n n (det_asks hw bp size d0 (rev (l ++ r)))) + n).
  { intros c n G' N. destruct (driver hw bp size d0 _ G') as (D & _). cbn. lia. }
  destruct a as [c n|c n|c n|]; cbn [last_id good] in *; rewrite ?det_asks_cons.
  - destruct G as (_ & _ & _ & E). destruct l; [|discriminate]. cbn in E. subst r. contradiction.
  - destruct G as (G1 & G2 & G3 & G4 & G5). specialize (IH G4 Gr). cbn [det_ask].
    destruct (bp || negb hw) eqn:E; [specialize (X c n G4 G2); lia|]. lia.
  - destruct G as (G1 & G2 & G3 & G4). specialize (IH G4 Gr). cbn [det_ask].
    specialize (X c n G4 G2). cbn in X |- *. lia.
  - auto.
Qed.

Lemma good_suffix : forall size l r, good size (l ++ r) -> r <> [] -> good size r.
Proof.
  intros size l r; induction l as [|a l IH]; intros G N; cbn [app] in *; auto.
  destruct a as [c n|c n|c n|]; cbn [good] in G.
  - destruct G as (_ & _ & _ & E). destruct l; [|discriminate]. contradiction.
  - tauto.
  - tauto.
  - auto.
Qed.

(** The ids of a run come after all the ids of every run asked for before it in the scan,
    whether that run was finished or not. *)
Theorem C37_ids_never_reused : forall dims axes bps s h hw bp d0, well_formed dims ->
  Forall (fun n => 0 < n) bps -> configure dims axes bps = Ok s -> polite_history s h ->
  let size := gen_size dims in
  forall l3 y l2 x l1, s_asks (scan_run s h) = l3 ++ y :: l2 ++ x :: l1 ->
  y <> APostRunReady ->
  last_id hw bp size d0 (x :: l1) <=
  last_id hw bp size d0 (y :: l2 ++ x :: l1) - snd (last_range (y :: l2 ++ x :: l1)).
Proof.
  intros dims axes bps s h hw bp d0 W B C P size l3 y l2 x l1 E Y.
  pose proof (scan_good _ _ _ _ _ W B C P) as G. fold size in G. rewrite E in G.
  assert (G1 := good_suffix _ _ _ G ltac:(discriminate)).
  assert (G2 := good_suffix size (y :: l2) (x :: l1) G1 ltac:(discriminate)).
  assert (Gr : good size (l2 ++ x :: l1)).
  { destruct y; cbn [good] in G1; try tauto.
    destruct G1 as (_ & _ & _ & Z). destruct l2; discriminate. }
  assert (M := last_id_grows hw bp size d0 l2 (x :: l1) Gr G2).
  destruct (driver hw bp size d0 _ Gr) as (D & _).
  revert M. generalize (last_id hw bp size d0 (x :: l1)) as lx. intros lx M.
  assert (R : l2 ++ x :: l1 <> []) by (destruct l2; discriminate).
  clear E G. revert M D G1 Gr R. generalize (l2 ++ x :: l1) as r. intros r M D G1 Gr R.
  destruct y as [c n|c n|c n|]; cbn [last_range snd good last_id] in *; rewrite ?det_asks_cons.
  - tauto.
  - cbn [det_ask]. destruct (bp || negb hw); cbn; lia.
  - cbn. lia.
  - contradiction.
Qed.
Print Assumptions C37_ids_never_reused.

(** ** The labeller *)

Lemma zrange_length : forall a b, length (zrange a b) = Z.to_nat (b - a).
Proof. intros. unfold zrange. now rewrite map_length, seq_length. Qed.
Lemma zrange_nth : forall a b k, 0 <= k < b - a -> nth_error (zrange a b) (Z.to_nat k) = Some (a + k).
Proof.
  intros a b k H. unfold zrange.
  replace (Some (a + k)) with (Some (a + Z.of_nat (Z.to_nat k))) by (f_equal; lia).
  apply (map_nth_error (fun i => a + Z.of_nat i)).
  rewrite nth_error_nth' with (d := 0%nat) by (rewrite seq_length; lia).
  now rewrite seq_nth by lia.
Qed.
Lemma map_seq_shift : forall a p m j, map (fun k => a + Z.of_nat k) (seq (p + j) m) =
  map (fun k => a + Z.of_nat p + Z.of_nat k) (seq j m).
Proof.
  intros a p; induction m as [|m IH]; intros j; cbn [seq map]; auto.
  f_equal; [lia|]. rewrite <- IH. now rewrite Nat.add_succ_r.
Qed.
Lemma zrange_app : forall a b c, a <= b <= c -> zrange a b ++ zrange b c = zrange a c.
Proof.
  intros a b c H. unfold zrange.
  replace (Z.to_nat (c - a)) with (Z.to_nat (b - a) + Z.to_nat (c - b))%nat by lia.
  rewrite seq_app, map_app. f_equal. rewrite Nat.add_comm, map_seq_shift.
  now replace (a + Z.of_nat (Z.to_nat (b - a))) with b by lia.
Qed.

Lemma lab_step_end : forall size os o l0,
  lab_run size l0 (os ++ [o]) = lab_step size (lab_run size l0 os) o.
Proof. intros. unfold lab_run. now rewrite fold_left_app. Qed.
Lemma asks_of_app : forall a b, asks_of (a ++ b) = asks_of a ++ asks_of b.
Proof. induction a as [|[a|k] r IH]; intros b; cbn; congruence. Qed.

Lemma make_xml_spec : forall size a, 0 <= a < size -> exists e, make_xml size a = (zrange a e, e) /\
  a < e <= size /\ e <= a + positions_per_xml /\ (e = size \/ e = a + positions_per_xml).
Proof.
  intros size a H. unfold make_xml. cbv zeta.
  destruct (Z.ltb_spec size (a + positions_per_xml)) as [L|L].
  - exists size. repeat split; try lia.
  - exists (a + positions_per_xml). unfold positions_per_xml in *. repeat split; try lia.
Qed.

Definition lab_ok (size : Z) (d : det) (e n : Z) (l : lab) : Prop :=
  exists first, l_positions l = zrange first (l_end l) /\ 0 <= first < l_end l /\ l_end l <= size /\
    first <= e - n /\ l_id_start l + dt_off d = first + 1 /\ l_done l = dt_done d.

Lemma labeller : forall hw bp size d0 l0 os, good size (rev (asks_of os)) ->
  let r := rev (asks_of os) in
  lab_ok size (det_asks hw bp size d0 (rev r)) (last_end r) (snd (last_range r)) (lab_run size l0 os).
Proof.
  intros hw bp size d0 l0 os; induction os as [|o os IH] using rev_ind; intros G; [contradiction|].
  cbv zeta. rewrite lab_step_end. rewrite asks_of_app in G |- *.
  destruct o as [a|k]; cbn [asks_of] in *.
  - rewrite rev_app_distr in G |- *. cbn [rev app] in *.
    assert (S : forall b c n, (b = true \/ b = false) -> 0 <= c -> 0 < n -> c + n <= size ->
      let l := setup_plugin size b c n (lab_run size l0 os) in
      let d := setup_detector b c n (num_images hw bp size c n) (det_asks hw bp size d0 (rev (rev (asks_of os)))) in
      (b = false -> l_done (lab_run size l0 os) = dt_done (det_asks hw bp size d0 (rev (rev (asks_of os))))) ->
      lab_ok size d (c + n) n l).
    { intros b c n Hb H1 H2 H3. cbv zeta. intros Hd. unfold setup_plugin.
      destruct (make_xml_spec size c ltac:(lia)) as (e & -> & E1 & E2 & E3).
      exists c. cbn. destruct b.
      - repeat split; lia.
      - specialize (Hd eq_refl). rewrite Hd. repeat split; lia. }
    change (rev (rev (asks_of os)) ++ [a]) with (rev (a :: rev (asks_of os))).
    rewrite det_asks_cons.
    destruct a as [c n|c n|c n|]; cbn [good last_range snd fst] in *; unfold last_end in *;
      cbn [last_range snd fst lab_step det_ask] in *.
    + destruct G as (G1 & G2 & G3 & _). apply S; auto. discriminate.
    + destruct G as (G1 & G2 & G3 & G4 & G5). specialize (IH G4). cbv zeta in IH.
      destruct IH as (first & F1 & F2 & F3 & F4 & F5 & F6).
      destruct (driver hw bp size d0 _ G4) as (D1 & D2 & D3 & _). cbv zeta in D1, D2. unfold last_end in D2.
      exists first. cbn [l_positions l_end l_id_start l_done].
      destruct (bp || negb hw) eqn:E; cbn; repeat split; auto; lia.
    + destruct G as (G1 & G2 & G3 & G4). specialize (IH G4). cbv zeta in IH.
      destruct IH as (first & F1 & F2 & F3 & F4 & F5 & F6). apply S; auto.
    + specialize (IH G). exact IH.
  - rewrite app_nil_r in *. specialize (IH G). cbv zeta in IH.
    destruct IH as (first & F1 & F2 & F3 & F4 & F5 & F6). cbn [lab_step]. unfold load_more.
    destruct (_ && _ && _ && _) eqn:E; [|exists first; auto 10].
    rewrite !andb_true_iff, negb_true_iff, Z.ltb_lt in E. destruct E as (((E1 & E2) & E3) & E4).
    destruct (make_xml_spec size (l_end (lab_run size l0 os)) ltac:(lia)) as (e & -> & K1 & K2 & K3).
    exists first. cbn. rewrite F1, zrange_app by lia. repeat split; auto; lia.
Qed.

(** Whenever the labeller has a position for an id of the run asked for last, it is that of the
    step which the driver counts with that id; both wait for the same last id; and if the
    labeller has loaded up to step l_end, it has one for every id of a step before that. *)
Theorem C37_labels_agree : forall dims axes bps s h hw bp d0 l0 os, well_formed dims ->
  Forall (fun n => 0 < n) bps -> configure dims axes bps = Ok s -> polite_history s h ->
  asks_of os = rev (s_asks (scan_run s h)) ->
  let size := gen_size dims in
  let r := s_asks (scan_run s h) in
  let d := det_asks hw bp size d0 (rev r) in
  let l := lab_run size l0 os in
  let '(c, n) := last_range r in
  l_done l = last_id hw bp size d0 r /\ 0 < l_end l <= size /\
  (forall k, 0 <= k < n -> let id := last_id hw bp size d0 r - n + 1 + k in
     label l id = (if c + k <? l_end l then Some (c + k) else None)).
Proof.
  intros dims axes bps s h hw bp d0 l0 os W B C P A. cbv zeta.
  pose proof (scan_good _ _ _ _ _ W B C P) as G.
  assert (E : rev (asks_of os) = s_asks (scan_run s h)) by (rewrite A; apply rev_involutive).
  rewrite <- E in *.
  pose proof (driver hw bp (gen_size dims) d0 _ G) as D. cbv zeta in D.
  pose proof (labeller hw bp (gen_size dims) d0 l0 os G) as L. cbv zeta in L.
  destruct L as (first & F1 & F2 & F3 & F4 & F5 & F6). unfold last_end in *.
  destruct (last_range (rev (asks_of os))) as [c n]. cbn [fst snd] in *.
  destruct D as (D1 & D2 & D3 & D4 & D5 & D6 & D7).
  split; [lia|]. split; [lia|]. intros k K. unfold label.
  destruct (Z.ltb_spec (last_id hw bp (gen_size dims) d0 (rev (asks_of os)) - n + 1 + k)
              (l_id_start (lab_run (gen_size dims) l0 os))) as [Q|Q]; [lia|].
  rewrite F1. destruct (Z.ltb_spec (c + k) (l_end (lab_run (gen_size dims) l0 os))) as [R|R].
  - rewrite zrange_nth by lia. f_equal. lia.
  - apply nth_error_None. rewrite zrange_length. lia.
Qed.
Print Assumptions C37_labels_agree.

(** Loading goes on: while fewer than 20000 positions are left in the plugin, each update loads
    the next 5000 steps, or all that remain. *)
Theorem C37_loads_ahead : forall dims axes bps s h l0 os k, well_formed dims ->
  Forall (fun n => 0 < n) bps -> configure dims axes bps = Ok s -> polite_history s h ->
  asks_of os = rev (s_asks (scan_run s h)) -> k < 20000 ->
  let size := gen_size dims in
  let l := lab_run size l0 os in
  l_end (lab_run size l0 (os ++ [LQty k])) = Z.min (l_end l + 5000) size.
Proof.
  intros dims axes bps s h l0 os k W B C P A K. cbv zeta.
  pose proof (scan_good _ _ _ _ _ W B C P) as G.
  assert (E : rev (asks_of os) = s_asks (scan_run s h)) by (rewrite A; apply rev_involutive).
  rewrite <- E in *.
  destruct (labeller true true (gen_size dims) new_det l0 os G) as (first & F1 & F2 & F3 & _).
  rewrite lab_step_end. cbn [lab_step]. set (l := lab_run (gen_size dims) l0 os) in *. clearbody l.
  unfold load_more, positions_per_xml, n_load_ahead.
  destruct (Z.eqb_spec (l_end l) 0); [lia|]. destruct (Z.eqb_spec (gen_size dims) 0); [lia|].
  destruct (Z.ltb_spec k (5000 * 4)); [|lia].
  destruct (Z.ltb_spec (l_end l) (gen_size dims)); cbn [negb andb].
  - destruct (make_xml_spec (gen_size dims) (l_end l) ltac:(lia)) as (e & -> & K1 & K2 & K3).
    unfold positions_per_xml in *. cbn. lia.
  - lia.
Qed.
Print Assumptions C37_loads_ahead.

(** A hardware triggered camera on 2 rows of 5 steps, paused after step 3 of the first row and
    taken back to step 2. *)
Definition ex_dims : list dim := [mk_dim ["y"%string] 2; mk_dim ["x"%string] 5].
Definition ex_scan : scan :=
  match configure ex_dims ["x"%string] [] with
  | Ok s => s
  | Err _ => mk_scan 0 (mk_plan [] false []) 0 0 0 Finished Finished [] []
  end.
Definition ex_hist : list scan_op :=
  [StartRun; Report "DET" 3; Pause 2; Resume; EndRun; StartRun; EndRun].
Definition ex_asks : list ask := s_asks (scan_run ex_scan ex_hist).
Example C37_ex :
  configure ex_dims ["x"%string] [] = Ok ex_scan /\ polite_history ex_scan ex_hist /\
  ex_asks = [APostRunReady; APostRunArmed 5 5; ASeek 2 3; AConfigure 0 5] /\
  det_asks true false 10 new_det (rev ex_asks) = mkDet 13 (-3) 5 8 /\
  det_asks false false 10 new_det (rev ex_asks) = mkDet 13 (-3) 8 5 /\
  last_range ex_asks = (5, 5) /\ last_id true false 10 new_det ex_asks = 13 /\
  last_id true false 10 new_det [ASeek 2 3; AConfigure 0 5] = 8 /\
  (let l := lab_run 10 new_lab [LAsk (AConfigure 0 5); LQty 9; LAsk (ASeek 2 3); LQty 8;
                                LAsk (APostRunArmed 5 5); LAsk APostRunReady] in
   l = mkLab 13 10 6 [2; 3; 4; 5; 6; 7; 8; 9] /\ label l 9 = Some 5 /\ label l 13 = Some 9).
Proof.
  split; [vm_compute; reflexivity|]. split; [|vm_compute; repeat split; reflexivity].
  vm_compute. repeat split; try discriminate. right. right. left. reflexivity.
Qed.

(** "Armed for" taken as the numImages it is given: a hardware triggered camera without
    breakpoints is armed at once for all the rest of the scan, ids 1 to 10 here, and after the
    pause again for ids 6 to 13.  (The camera was stopped by the pause, before the ids above 5
    could be made; C37_ids_never_reused is about the ids it makes.) *)
Theorem C37_armed_twice_refuted : exists dims axes s h, well_formed dims /\
  configure dims axes [] = Ok s /\ polite_history s h /\
  let d1 := det_asks true false (gen_size dims) new_det (rev (s_asks s)) in
  let d2 := det_asks true false (gen_size dims) new_det (rev (s_asks (scan_run s h))) in
  exists id, dt_base d1 < id <= dt_base d1 + dt_images d1 /\
             dt_base d2 < id <= dt_base d2 + dt_images d2.
Proof.
  exists ex_dims, ["x"%string], ex_scan, [StartRun; Report "DET" 3; Pause 2].
  split; [|split; [vm_compute; reflexivity|split; [vm_compute; repeat split; try discriminate; right; right; left; reflexivity|]]].
  - split.
    + repeat constructor; discriminate.
    + cbn. repeat constructor; cbn; intuition discriminate.
  - exists 7. vm_compute. repeat split; discriminate || reflexivity.
Qed.
Print Assumptions C37_armed_twice_refuted.
