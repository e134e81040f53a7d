(** C69: the PMAC gets the trajectory that was written, all of it. *)
From Coq Require Import String Bool ZArith QArith Lia List.
From Verif Require Import Base Traj_Model.
From Verif Require Pmac_Model.
Import ListNotations.
Local Open Scope string_scope.
Local Open Scope list_scope.
Local Open Scope nat_scope.

(** The arguments are in order: right lengths, axes of a CS, none twice. *)
Definition lengths_ok (a : args) : Prop :=
  (forall l, w_vel a = Some l -> length l = length (w_time a)) /\
  (forall l, w_prog a = Some l -> length l = length (w_time a)).
Definition port_ok (k : child) (a : args) : Prop := forall p, w_port a = Some p -> In p (k_choices k).

(** The part of the profile that a call stands for: its own arrays, zeros for those left out, and the
    positions of its axes in the order of the CS. *)
Definition or_zeros (o : option (list Z)) (n : nat) : list Z := match o with Some l => l | None => repeat 0%Z n end.
Definition meant (a : args) : segment :=
  mkSeg (length (w_time a)) (w_time a) (or_zeros (w_vel a) (length (w_time a))) (or_zeros (w_prog a) (length (w_time a)))
        (flat_map (fun x => match dget x (w_axes a) with Some l => [(x, l)] | None => [] end) Pmac_Model.CS_AXIS_NAMES).

Lemma zeros_spec o n : zeros_or_right_length o n = if match o with Some l => Nat.eqb (length l) n | None => true end then Some (or_zeros o n) else None.
Proof. destruct o as [l|]; cbn; [|reflexivity]. destruct (Nat.eqb _ _); reflexivity. Qed.
Lemma lengths_iff a : lengths_ok a <->
  exists v p, zeros_or_right_length (w_vel a) (length (w_time a)) = Some v /\ zeros_or_right_length (w_prog a) (length (w_time a)) = Some p.
Proof.
  unfold lengths_ok. rewrite !zeros_spec. destruct (w_vel a) as [l|], (w_prog a) as [m|].
  - destruct (Nat.eqb_spec (length l) (length (w_time a))), (Nat.eqb_spec (length m) (length (w_time a))); split; try (intros (? & ? & ? & ?); discriminate); intros [A B].
    + eauto.
    + intros. split; intros ? X; injection X as <-; assumption.
    + exfalso. apply n. now apply B.
    + exfalso. apply n. now apply A.
    + exfalso. apply n. now apply A.
  - destruct (Nat.eqb_spec (length l) (length (w_time a))); split; try (intros (? & ? & ? & ?); discriminate).
    + eauto.
    + intros _. split; intros ? X; [injection X as <-; assumption|discriminate].
    + intros [A _]. exfalso. apply n. now apply A.
  - destruct (Nat.eqb_spec (length m) (length (w_time a))); split; try (intros (? & ? & ? & ?); discriminate).
    + eauto.
    + intros _. split; intros ? X; [discriminate|injection X as <-; assumption].
    + intros [_ A]. exfalso. apply n. now apply A.
  - split; [eauto|]. intros _. split; discriminate.
Qed.

(** When a profile is accepted: the program on the PMAC is version 2 or later, the CS can be chosen (for a
    build), the optional arrays have a value for each point, and the driver does not fail. *)
Theorem C69_accepted : forall t k a ok,
  snd (write_profile t k a ok) = Ok tt <-> (2 <= k_version k)%Z /\ port_ok k a /\ lengths_ok a /\ ok = true.
Proof.
  intros t k a ok. unfold write_profile, PROGRAM, FALLBACK.
  assert (V : negb (k_version k =? 3)%Z && negb (2 <=? k_version k)%Z = true <-> ~ (2 <= k_version k)%Z).
  { rewrite andb_true_iff, !negb_true_iff, Z.eqb_neq, Z.leb_gt. lia. }
  destruct (_ && _); [split; [discriminate|intros [X _]; exfalso; apply V; [reflexivity|exact X]]|].
  assert (V' : (2 <= k_version k)%Z). { destruct (Z_le_dec 2 (k_version k)); [assumption|]. apply V in n. discriminate. } clear V.
  assert (G : forall t1 k1 k0, snd (match zeros_or_right_length (w_vel a) (length (w_time a)), zeros_or_right_length (w_prog a) (length (w_time a)) with
      | Some vel, Some prog =>
        let k2 := fill k1 a vel prog in
        if ok then (t1 + length (w_time a), set_profile k2 (match w_port a with Some _ => [taken k2] | None => k_profile k2 ++ [taken k2] end), Ok tt)
        else (t1, k2, Err Driver)
      | _, _ => (t1, k0, Err WrongLength) end) = Ok tt <-> lengths_ok a /\ ok = true).
  { intros t1 k1 k0. rewrite lengths_iff. destruct (zeros_or_right_length (w_vel a) (length (w_time a))) as [v|], (zeros_or_right_length (w_prog a) (length (w_time a))) as [p|]; cbn;
      try (split; [discriminate|intros [(? & ? & ? & ?) _]; discriminate]).
    destruct ok; cbn; split; try discriminate; eauto 6. intros [_ X]. discriminate. }
  unfold port_ok. destruct (w_port a) as [p|].
  - unfold start_build. destruct (smem p (k_choices k)) eqn:S; cbn [negb].
    + rewrite G. apply smem_In in S. split.
      * intros [A B]. split; [exact V'|]. split; [|auto]. intros q X. injection X as <-. exact S.
      * tauto.
    + apply smem_false in S. split; [discriminate|]. intros (_ & X & _). exfalso. apply S. now apply X.
  - cbn [negb]. rewrite G. split; [|tauto]. intros [A B]. split; [exact V'|]. split; [discriminate|auto].
Qed.
Print Assumptions C69_accepted.

(** If it is refused, the profile in the PMAC is as it was; if the version is too old, nothing at all has
    changed; and an append that is refused leaves the count alone. *)
Theorem C69_refused : forall t k a ok t' k' e, write_profile t k a ok = (t', k', Err e) ->
  k_profile k' = k_profile k /\
  (e = Incompatible <-> (k_version k < 2)%Z) /\
  (e = Incompatible -> t' = t /\ k' = k) /\
  (w_port a = None -> t' = t) /\
  (e <> Driver -> k_time k' = k_time k /\ k_pos k' = k_pos k).
Proof.
  intros t k a ok t' k' e. unfold write_profile, PROGRAM, FALLBACK.
  assert (V : negb (k_version k =? 3)%Z && negb (2 <=? k_version k)%Z = true <-> (k_version k < 2)%Z).
  { rewrite andb_true_iff, !negb_true_iff, Z.eqb_neq, Z.leb_gt. lia. }
  destruct (_ && _).
  - intro H. injection H as <- <- <-. assert (k_version k < 2)%Z by now apply V. tauto.
  - assert (N : ~ (k_version k < 2)%Z) by (rewrite <- V; discriminate). clear V.
    assert (B : forall p k1 s, start_build k a p = (k1, s) -> k_profile k1 = k_profile k /\ k_time k1 = k_time k /\ k_pos k1 = k_pos k).
    { intros p k1 s. unfold start_build. destruct (smem _ _); intro H; injection H as <- <-; auto. }
    destruct (w_port a) as [p|].
    + destruct (start_build k a p) as [k1 s] eqn:S. destruct (B _ _ _ S) as (B1 & B2 & B3). destruct s; cbn [negb].
      * destruct (zeros_or_right_length (w_vel a) (length (w_time a))), (zeros_or_right_length (w_prog a) (length (w_time a))); cbn; [destruct ok; [discriminate|]| | |];
          intro H; injection H as <- <- <-; cbn; (split; [exact B1|]); (split; [split; [discriminate|tauto]|]); (split; [discriminate|]); (split; [discriminate|]); auto; congruence.
      * intro H. injection H as <- <- <-. split; [exact B1|]. split; [split; [discriminate|tauto]|]. split; [discriminate|]. split; [discriminate|auto].
    + cbn [negb]. destruct (zeros_or_right_length (w_vel a) (length (w_time a))), (zeros_or_right_length (w_prog a) (length (w_time a))); cbn; [destruct ok; [discriminate|]| | |];
        intro H; injection H as <- <- <-; cbn; (split; [reflexivity|]); (split; [split; [discriminate|tauto]|]); (split; [discriminate|]); (split; [reflexivity|]); auto; congruence.
Qed.
Print Assumptions C69_refused.

Lemma axes_nodup : NoDup Pmac_Model.CS_AXIS_NAMES.
Proof. repeat constructor; cbn; intuition discriminate. Qed.
Lemma fold_pos (w : dict (list Q)) l : NoDup l -> (forall x, In x l -> dmem x w = true) -> forall d x,
  dget x (fold_left (fun d x => match dget x w with Some l => dset x l d | None => d end) l d)
  = if smem x l then dget x w else dget x d.
Proof.
  induction l as [|y l IH]; intros N W d x; [reflexivity|]. cbn [fold_left]. inversion N as [|? ? Ny N']; subst.
  rewrite IH; [|exact N'|intros z Z; apply W; now right]. cbn [smem existsb]. change (existsb (String.eqb x) l) with (smem x l).
  destruct (smem x l) eqn:S; [now rewrite orb_true_r|]. rewrite orb_false_r.
  assert (Y : exists v, dget y w = Some v). { specialize (W y (or_introl eq_refl)). unfold dmem in W. destruct (dget y w); [eauto|discriminate]. }
  destruct Y as (v & E). rewrite E. destruct (String.eqb_spec x y) as [->|D].
  - rewrite dget_dset_same. now rewrite E.
  - rewrite dget_dset_other; [reflexivity|congruence].
Qed.
(** The axes in use are those of a call. *)
Definition uses (k : child) (a : args) : Prop := forall x, In x Pmac_Model.CS_AXIS_NAMES -> dget x (k_use k) = Some (dmem x (w_axes a)).
Lemma use_axes_in a x : In x (use_axes a) <-> In x Pmac_Model.CS_AXIS_NAMES /\ dmem x (w_axes a) = true.
Proof. unfold use_axes. apply filter_In. Qed.
Lemma taken_meant k a v p : uses k a ->
  zeros_or_right_length (w_vel a) (length (w_time a)) = Some v -> zeros_or_right_length (w_prog a) (length (w_time a)) = Some p ->
  taken (fill k a v p) = meant a.
Proof.
  intros U V P. rewrite zeros_spec in V, P. unfold taken, meant, fill. cbn [k_points k_time k_vel k_prog k_use k_pos]. f_equal.
  - destruct (match w_vel a with Some _ => _ | None => _ end); congruence.
  - destruct (match w_prog a with Some _ => _ | None => _ end); congruence.
  - assert (G : forall l, (forall x, In x l -> In x Pmac_Model.CS_AXIS_NAMES) ->
      flat_map (fun x => match dget x (k_use k), dget x (fold_left (fun d x => match dget x (w_axes a) with Some l => dset x l d | None => d end) (use_axes a) (k_pos k)) with
                         | Some true, Some l => [(x, l)] | _, _ => [] end) l
      = flat_map (fun x => match dget x (w_axes a) with Some l => [(x, l)] | None => [] end) l).
    { induction l as [|x l IH]; intro I; [reflexivity|]. cbn [flat_map]. rewrite IH by (intros y Y; apply I; now right). f_equal.
      assert (X := I x (or_introl eq_refl)). rewrite (U x X). rewrite fold_pos.
      - assert (S : smem x (use_axes a) = dmem x (w_axes a)).
        { destruct (dmem x (w_axes a)) eqn:D; [apply smem_In, use_axes_in; auto|]. apply smem_false. rewrite use_axes_in. intros [_ Y]. congruence. }
        rewrite S. unfold dmem. destruct (dget x (w_axes a)); reflexivity.
      - unfold use_axes. apply NoDup_filter, axes_nodup.
      - intros y Y. now apply use_axes_in in Y. }
    apply G. auto.
Qed.
Lemma write_ok t k a t' k' : write_profile t k a true = (t', k', Ok tt) ->
  k_choices k' = k_choices k /\
  match w_port a with
  | Some p => k_cs k' = p /\ k_num k' = MAX_NUM_POINTS /\ uses k' a /\ k_profile k' = [meant a] /\ t' = length (w_time a)
  | None => k_cs k' = k_cs k /\ k_use k' = k_use k /\ t' = t + length (w_time a) /\ exists g, k_profile k' = k_profile k ++ [g] /\ (uses k a -> g = meant a)
  end.
Proof.
  unfold write_profile. destruct (_ && _); [discriminate|]. destruct (w_port a) as [p|].
  - unfold start_build. destruct (smem p (k_choices k)); cbn [negb]; [|discriminate].
    destruct (zeros_or_right_length (w_vel a) (length (w_time a))) as [v|] eqn:V, (zeros_or_right_length (w_prog a) (length (w_time a))) as [q|] eqn:P; try discriminate.
    cbn zeta. intro H. injection H as <- <-. cbn [k_choices set_profile fill k_cs k_num k_use k_profile]. split; [reflexivity|].
    split; [reflexivity|]. split; [reflexivity|].
    assert (U : forall c n cs ti po ve pr ps pf, uses (mkChild c n cs p (map (fun x => (x, smem x (use_axes a))) Pmac_Model.CS_AXIS_NAMES) ti po ve pr ps pf) a).
    { intros. intros x X. cbn [k_use].
      assert (S : smem x (use_axes a) = dmem x (w_axes a)).
      { destruct (dmem x (w_axes a)) eqn:D; [apply smem_In, use_axes_in; auto|]. apply smem_false. rewrite use_axes_in. intros [_ Y]. congruence. }
      rewrite <- S. clear S. revert X. generalize Pmac_Model.CS_AXIS_NAMES at 1 2. induction l as [|y l IH]; [intros []|]. intros [->|I]; cbn.
      - now rewrite String.eqb_refl.
      - destruct (String.eqb_spec x y) as [->|]; [reflexivity|]. now apply IH. }
    split; [apply U|]. split; [|reflexivity]. f_equal. apply taken_meant; auto.
  - cbn [negb]. destruct (zeros_or_right_length (w_vel a) (length (w_time a))) as [v|] eqn:V, (zeros_or_right_length (w_prog a) (length (w_time a))) as [q|] eqn:P; try discriminate.
    cbn zeta. intro H. injection H as <- <-. cbn [k_choices set_profile fill k_cs k_use k_profile]. split; [reflexivity|].
    split; [reflexivity|]. split; [reflexivity|]. split; [reflexivity|]. eexists. split; [reflexivity|]. intro U. apply taken_meant; auto.
Qed.

(** A build and then appends for the same axes: the PMAC holds exactly what they stand for, in that order,
    for the port and the axes asked for, and the execution waits for the number of all points. *)
Theorem C69_written : forall l t k b p t' k', w_port b = Some p ->
  Forall (fun a => w_port a = None /\ forall x, dmem x (w_axes a) = dmem x (w_axes b)) l ->
  writes t k (b :: l) = Some (t', k') ->
  k_cs k' = p /\ uses k' b /\ k_profile k' = map meant (b :: l) /\
  t' = list_sum (map (fun a => length (w_time a)) (b :: l)) /\
  forall scanned, execute_returns t' scanned = true <-> scanned = list_sum (map g_points (k_profile k')).
Proof.
  intros l t k b p t' k' P F H. cbn [writes] in H. destruct (write_profile t k b true) as [[t1 k1] [[]|]] eqn:W; [|discriminate].
  apply write_ok in W. rewrite P in W. destruct W as (_ & C & _ & U & Pr & T).
  assert (G : forall l t k t' k', writes t k l = Some (t', k') -> uses k b ->
            Forall (fun a => w_port a = None /\ forall x, dmem x (w_axes a) = dmem x (w_axes b)) l ->
            k_cs k' = k_cs k /\ uses k' b /\ k_profile k' = k_profile k ++ map meant l /\ t' = t + list_sum (map (fun a => length (w_time a)) l)).
  { clear. induction l as [|a l IH]; intros t k t' k' H U F.
    - cbn in H. injection H as <- <-. rewrite app_nil_r. cbn. repeat split; auto; lia.
    - cbn [writes] in H. destruct (write_profile t k a true) as [[t1 k1] [[]|]] eqn:W; [|discriminate].
      inversion F as [|? ? [Pa Xa] F']; subst. apply write_ok in W. rewrite Pa in W. destruct W as (_ & C & Us & T & g & Pr & M).
      assert (U1 : uses k1 b) by (intros x X; rewrite Us; now apply U).
      destruct (IH _ _ _ _ H U1 F') as (A1 & A2 & A3 & A4). split; [congruence|]. split; [exact A2|]. split.
      + rewrite A3, Pr, <- app_assoc. cbn [map app]. rewrite M; [reflexivity|]. intros x X. rewrite Xa. now apply U.
      + rewrite A4, T. symmetry. apply Nat.add_assoc. }
  destruct (G _ _ _ _ _ H U F) as (A1 & A2 & A3 & A4). split; [congruence|]. split; [exact A2|]. split; [rewrite A3, Pr; reflexivity|].
  assert (T' : t' = list_sum (map (fun a => length (w_time a)) (b :: l))) by (rewrite A4, T; reflexivity). split; [exact T'|].
  intro scanned. unfold execute_returns. rewrite Nat.eqb_eq, A3, Pr, T'. change ([meant b] ++ map meant l) with (map meant (b :: l)). rewrite map_map. reflexivity.
Qed.
Print Assumptions C69_written.

Definition child_ex : child := mkChild 3 ["BRICK2CS1"; "BRICK2CS2"] 0 "" [] [] 0 [] [] [("A", [9%Q; 9%Q])] [].
Definition build_ex : args := mkArgs [100; 200; 300]%Z (Some "BRICK2CS1") None (Some [1; 0; 8]%Z) [("X", [1%Q; 2%Q; 3%Q]); ("A", [4%Q; 5%Q; 6%Q])].
Definition append_ex : args := mkArgs [400; 500]%Z None (Some [0; 1]%Z) None [("A", [7%Q; 8%Q]); ("X", [4%Q; 5%Q])].
Example C69_ex : exists k', writes 7 child_ex [build_ex; append_ex] = Some (5, k') /\ k_cs k' = "BRICK2CS1" /\
  k_profile k' = [mkSeg 3 [100; 200; 300]%Z [0; 0; 0]%Z [1; 0; 8]%Z [("A", [4%Q; 5%Q; 6%Q]); ("X", [1%Q; 2%Q; 3%Q])];
                  mkSeg 2 [400; 500]%Z [0; 1]%Z [0; 0]%Z [("A", [7%Q; 8%Q]); ("X", [4%Q; 5%Q])]] /\
  snd (write_profile 0 (mkChild 1 ["BRICK2CS1"] 0 "" [] [] 0 [] [] [] []) build_ex true) = Err Incompatible.
Proof. eexists. split; [vm_compute; reflexivity|]. repeat split. Qed.

(** The number of positions of an axis is not compared with the number of points. *)
Theorem C69_positions_refuted : exists k a k' x l, snd (write_profile 0 k a true) = Ok tt /\
  k' = snd (fst (write_profile 0 k a true)) /\ In (x, l) (w_axes a) /\ length l <> length (w_time a) /\
  exists g, k_profile k' = [g] /\ In (x, l) (g_pos g) /\ length l <> g_points g.
Proof.
  exists child_ex, (mkArgs [100; 200; 300]%Z (Some "BRICK2CS1") None None [("X", [1%Q; 2%Q])]). eexists. exists "X", [1%Q; 2%Q].
  split; [vm_compute; reflexivity|]. split; [reflexivity|]. split; [left; reflexivity|]. split; [discriminate|].
  eexists. split; [vm_compute; reflexivity|]. split; [left; reflexivity|discriminate].
Qed.
Print Assumptions C69_positions_refuted.

(** An append that leaves out an axis of the build is accepted, and the PMAC is given the old positions of
    that axis again; one for an axis that the build did not have is accepted too, and these positions are
    not used at all. *)
Theorem C69_append_refuted : exists k b a t' k', w_port a = None /\ writes 0 k [b; a] = Some (t', k') /\
  (exists g, In g (k_profile k') /\ In ("X", [1%Q; 2%Q; 3%Q]) (g_pos g) /\ g_points g = 2) /\
  dget "Y" (w_axes a) <> None /\ ~ exists g, In g (k_profile k') /\ In "Y" (dkeys (g_pos g)).
Proof.
  exists child_ex, build_ex, (mkArgs [400; 500]%Z None None None [("A", [7%Q; 8%Q]); ("Y", [4%Q; 5%Q])]).
  eexists. eexists. split; [reflexivity|]. split; [vm_compute; reflexivity|]. split.
  - eexists. split; [right; left; reflexivity|]. cbn. auto.
  - split; [discriminate|]. intros (g & [<-|[<-|[]]] & X); cbn in X; intuition discriminate.
Qed.
Print Assumptions C69_append_refuted.

(** A build that is refused, for its port or for the length of an array, sets the count to zero although the
    old profile is still in the PMAC: it can be executed, but the call then waits for no points scanned. *)
Theorem C69_refused_build_refuted : exists k0 b a t k t' k' e, writes 0 k0 [b] = Some (t, k) /\
  write_profile t k a true = (t', k', Err e) /\ k_profile k' = k_profile k /\
  execute_returns t' (list_sum (map g_points (k_profile k'))) = false.
Proof.
  exists child_ex, build_ex, (mkArgs [400; 500]%Z (Some "BRICK2CS3") None None [("A", [7%Q; 8%Q])]). do 5 eexists.
  split; [vm_compute; reflexivity|]. split; [vm_compute; reflexivity|]. split; reflexivity.
Qed.
Print Assumptions C69_refused_build_refuted.
