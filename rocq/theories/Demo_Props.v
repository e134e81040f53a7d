(* C97, C98: the demonstration detector and motors. *)
From Coq Require Import QArith Qround Lqa String Ascii Bool ZArith Lia Sorting.Sorted Permutation List.
From Verif Require Import Base Demo_Model.
Import ListNotations.
Local Open Scope string_scope.
Local Open Scope nat_scope.
Local Open Scope list_scope.

Lemma ieqb_eq a b : ieqb a b = true <-> a = b.
Proof.
  revert b. induction a as [|x a IH]; intros [|y b]; cbn; try (split; congruence).
  rewrite andb_true_iff, Nat.eqb_eq, IH. split; [intros [-> ->]; reflexivity|intro E; injection E; auto].
Qed.
Lemma ieqb_refl a : ieqb a a = true.
Proof. now apply ieqb_eq. Qed.

Section props.
  Context {I S : Type} (total : I -> S) (height width : nat).
  Notation gen := (@gen I). Notation hdf := (@hdf I S). Notation part := (@part I S). Notation event := (@event I).
  Notation run := (@run I S total height width).
  Notation step := (@step I S total height width).
  Notation on_run := (@on_run I S total).
  Notation do_act := (@do_act I S total).

  (* ---- The specification ---- *)
  (** The last of the writes that were made to index j. *)
  Fixpoint latest (g : gen) (log : list (nat * Z)) (j : list nat) (e : option (nat * Z)) : option (nat * Z) :=
    match log with
    | [] => e
    | x :: r => latest g r j (if ieqb j (g_index g (fst x)) then Some x else e)
    end.
  Definition uid_at g log j : option Z := option_map snd (latest g log j None).
  Definition image_at g log j : option I := option_map (fun e => g_image g (fst e)) (latest g log j None).
  Definition sum_at g log j : option S := option_map total (image_at g log j).

  (* ---- Lemmas ---- *)
  Lemma latest_app g l1 l2 j e : latest g (l1 ++ l2) j e = latest g l2 j (latest g l1 j e).
  Proof. revert e. induction l1 as [|x l1 IH]; intro e; cbn; [reflexivity|apply IH]. Qed.
  Lemma latest_some g l j e i u : latest g l j e = Some (i, u) ->
    (In (i, u) l /\ g_index g i = j) \/ e = Some (i, u).
  Proof.
    revert e. induction l as [|x l IH]; intros e H; cbn in H; [now right|].
    destruct (IH _ H) as [[A B]|E]; [left; split; [now right|exact B]|].
    destruct (ieqb j (g_index g (fst x))) eqn:Q; [|now right].
    injection E as ->. apply ieqb_eq in Q. left. split; [now left|symmetry; exact Q].
  Qed.
  Lemma latest_keeps g l j e : e <> None -> latest g l j e <> None.
  Proof. revert e. induction l as [|x l IH]; intros e H; cbn; [exact H|]. apply IH. destruct (ieqb _ _); [discriminate|exact H]. Qed.
  Lemma latest_in g l i u j e : In (i, u) l -> g_index g i = j -> latest g l j e <> None.
  Proof.
    revert e. induction l as [|x l IH]; intros e H E; [destruct H|]. cbn. destruct H as [->|H].
    - cbn. rewrite E, ieqb_refl. apply latest_keeps. discriminate.
    - now apply IH.
  Qed.

  (** A file as its log says, of which the reader has seen some prefix of what was written to each dataset. *)
  Definition bounded {A} (d : ds A) : Prop :=
    length (ds_shape d) = length (ds_max d) /\ forall j, within j (ds_shape d) = false -> ds_at d j = None.
  Definition faithful (g : gen) (f : hdf) : Prop :=
    ((forall j, ds_at (f_data f) j = image_at g (f_log f) j) /\ (forall j, ds_at (f_sum f) j = sum_at g (f_log f) j) /\
     (forall j, ds_at (f_uid f) j = uid_at g (f_log f) j)) /\
    bounded (f_data f) /\ bounded (f_sum f) /\ bounded (f_uid f).
  Definition seen (g : gen) (f : hdf) : Prop :=
    exists u s d,
      (exists r, f_log f = d ++ r) /\ (exists r, d = s ++ r) /\ (exists r, s = u ++ r) /\
      (forall j, r_data f j = image_at g d j) /\ (forall j, r_sum f j = sum_at g s j) /\ (forall j, r_uid f j = uid_at g u j).
  Definition below (b : Z) (l : list (nat * Z)) : Prop := Forall (fun e => (0 < snd e <= b)%Z) l.
  Definition ordered (l : list (nat * Z)) : Prop := StronglySorted Z.lt (map snd l).

  Lemma sorted_snoc l x : StronglySorted Z.lt l -> Forall (fun y => (y < x)%Z) l -> StronglySorted Z.lt (l ++ [x]).
  Proof.
    induction 1 as [|y l H IH F]; intro G; cbn; [repeat constructor|].
    inversion G; subst. constructor; [now apply IH|]. apply Forall_app. split; [exact F|]. now constructor.
  Qed.

  Lemma fits_len a b : fits a b = true -> length a = length b.
  Proof.
    revert b. induction a as [|x a IH]; intros [|y b] H; try discriminate; [reflexivity|].
    cbn in *. apply andb_true_iff in H. destruct H as [_ H]. now rewrite (IH _ H).
  Qed.
  Lemma within_grows j : forall a sh, length (expand a sh) = length sh -> within j sh = true ->
    within j (expand a sh) = true.
  Proof.
    induction j as [|x j IH]; intros a sh L W; [reflexivity|]. destruct sh as [|y sh]; [discriminate|].
    destruct a as [|z a]; [discriminate|]. cbn [within expand length] in *. apply andb_true_iff in W. destruct W as [W1 W2].
    rewrite (IH a sh) by (congruence || assumption). rewrite andb_true_r. apply Nat.ltb_lt in W1. apply Nat.ltb_lt. lia.
  Qed.
  (* one dataset at a write *)
  Lemma write_ds {A} a i (v : A) d d1 d2 : bounded d -> resize (expand a (ds_shape d)) d = Some d1 -> put_at i v d1 = Some d2 ->
    bounded d2 /\ forall j, ds_at d2 j = if ieqb j i then Some v else ds_at d j.
  Proof.
    intros (L & B) R P. unfold resize in R. destruct (fits (expand a (ds_shape d)) (ds_max d)) eqn:F; [|discriminate].
    injection R as <-. apply fits_len in F. unfold put_at in P. cbn [ds_shape ds_max ds_at] in P.
    destruct (within i (expand a (ds_shape d))) eqn:W; [|discriminate]. injection P as <-. unfold bounded. cbn [ds_shape ds_max ds_at].
    split; [split; [exact F|]|]; intros j.
    - intros N. destruct (ieqb j i) eqn:E; [apply ieqb_eq in E; congruence|]. cbv beta. now rewrite N.
    - destruct (ieqb j i); [reflexivity|]. cbv beta. destruct (within j (expand a (ds_shape d))) eqn:N; [reflexivity|].
      symmetry. apply B. destruct (within j (ds_shape d)) eqn:W'; [|reflexivity].
      rewrite (within_grows j a (ds_shape d)) in N; [discriminate| |exact W']. rewrite F. now symmetry.
  Qed.

  Lemma write_faithful g i o f f' : write_data total g i o f = Some f' ->
    faithful g f -> f_log f' = f_log f ++ [(i, Z.of_nat i + o + 1)%Z] /\ faithful g f' /\
    r_data f' = r_data f /\ r_sum f' = r_sum f /\ r_uid f' = r_uid f.
  Proof.
    intros H ((A & B & C) & Bd & Bs & Bu). unfold write_data in H.
    destruct (resize _ (f_data f)) as [d|] eqn:R1; [|discriminate].
    destruct (resize _ (f_sum f)) as [s|] eqn:R2; [|discriminate].
    destruct (resize _ (f_uid f)) as [u|] eqn:R3; [|discriminate].
    destruct (put_at (g_index g i) (g_image g i) d) as [d'|] eqn:P1; [|discriminate].
    destruct (put_at (g_index g i) (total (g_image g i)) s) as [s'|] eqn:P2; [|discriminate].
    destruct (put_at (g_index g i) (Z.of_nat i + o + 1)%Z u) as [u'|] eqn:P3; [|discriminate].
    injection H as <-. cbn [f_log r_data r_sum r_uid]. split; [reflexivity|]. split; [|auto].
    destruct (write_ds _ _ _ _ _ _ Bd R1 P1) as [Bd' Ed]. destruct (write_ds _ _ _ _ _ _ Bs R2 P2) as [Bs' Es].
    destruct (write_ds _ _ _ _ _ _ Bu R3 P3) as [Bu' Eu].
    split; [|split; [exact Bd'|split; [exact Bs'|exact Bu']]].
    unfold sum_at, image_at, uid_at in *. cbn [f_data f_sum f_uid f_log].
    repeat split; intro j; rewrite latest_app, ?Ed, ?Es, ?Eu; cbn; rewrite ?A, ?B, ?C;
      destruct (ieqb j (g_index g i)); reflexivity.
  Qed.
  Lemma seen_write g f f' x : seen g f -> f_log f' = f_log f ++ [x] ->
    r_data f' = r_data f -> r_sum f' = r_sum f -> r_uid f' = r_uid f -> seen g f'.
  Proof.
    intros (u & s & d & (r & E) & H) L D1 D2 D3. exists u, s, d. rewrite L, D1, D2, D3. split; [|exact H].
    exists (r ++ [x]). rewrite E. now rewrite app_assoc.
  Qed.

  (* the state of the part while on_run is at step i *)
  Definition mid (g : gen) (c n : nat) (o : Z) (i : nat) (p : part) : Prop :=
    p_gen p = Some g /\ p_completed p = c /\ p_todo p = n /\ p_offset p = o /\
    exists f, p_hdf p = Some f /\ faithful g f /\ seen g f /\ ordered (f_log f) /\ below (Z.of_nat i + o) (f_log f).

  Lemma do_flush g c n o i p m : mid g c n o i p -> mid g c n o i (fold_left do_act (firstn m flush) p).
  Proof.
    intros (G & C & N & O & f & F & A & B & K & L).
    destruct (p_ok p) eqn:K0.
    2:{ assert (Z : forall l, fold_left do_act l p = p).
        { induction l as [|x l IH]; cbn; [reflexivity|]. unfold Demo_Model.do_act at 2. rewrite F, G, K0. exact IH. }
        rewrite Z. split; [exact G|]. repeat (split; [assumption|]). exists f. auto. }
    destruct B as (u & s & d & (r1 & E1) & (r2 & E2) & (r3 & E3) & D1 & D2 & D3). destruct A as ((A1 & A2 & A3) & A4).
    destruct m as [|[|[|m]]]; cbn [firstn flush fold_left];
      unfold Demo_Model.do_act, with_hdf; rewrite ?F, ?G, ?K0; cbn [p_hdf p_gen p_ok p_completed p_todo p_offset f_data f_sum f_uid];
      rewrite ?G, ?K0; cbn [p_hdf p_gen p_ok p_completed p_todo p_offset]; try rewrite firstn_nil; cbn [fold_left];
      (split; [exact G || reflexivity|]); cbn [p_hdf p_gen p_ok p_completed p_todo p_offset]; repeat (split; [assumption|]);
      eexists; (split; [first [exact F|reflexivity]|]); (split; [split; [split; [exact A1|split; [exact A2|exact A3]]|exact A4]|]);
      (split; [|split; [exact K|exact L]]); unfold seen; cbn.
    - exists u, s, d. repeat split; eauto.
    - exists u, s, (f_log f). repeat split; eauto.
      + exists []. now rewrite app_nil_r.
      + exists (r2 ++ r1). rewrite E1, E2. now rewrite app_assoc.
    - exists u, (f_log f), (f_log f). repeat split; eauto.
      + exists []. now rewrite app_nil_r.
      + exists []. now rewrite app_nil_r.
      + exists (r3 ++ r2 ++ r1). rewrite E1, E2, E3. now rewrite <- !app_assoc.
    - exists (f_log f), (f_log f), (f_log f). repeat split; eauto; exists []; now rewrite app_nil_r.
  Qed.

  Lemma mid_grow g c n o i k p : i <= k -> mid g c n o i p -> mid g c n o k p.
  Proof.
    intros H (G & C & N & O & f & F & A & B & K & L). split; [exact G|]. repeat (split; [assumption|]). exists f.
    repeat (split; [assumption|]). eapply Forall_impl; [|exact L]. cbn. lia.
  Qed.

  Lemma do_write g c n o i p : (0 <= Z.of_nat i + o)%Z -> mid g c n o i p -> mid g c n o (i + 1) (do_act p (Write i)).
  Proof.
    intros Hp (G & C & N & O & f & F & A & B & K & L). unfold Demo_Model.do_act. rewrite F, G.
    assert (R : mid g c n o (i + 1) p).
    { apply (mid_grow _ _ _ _ i); [lia|]. split; [exact G|]. repeat (split; [assumption|]). exists f. auto. }
    destruct (p_ok p) eqn:K0; [|exact R].
    rewrite O. destruct (write_data total g i o f) as [f'|] eqn:W; [|exact R].
    destruct (write_faithful _ _ _ _ _ W A) as (E & A' & R1 & R2 & R3).
    split; [exact G|]. cbn. repeat (split; [assumption|]). exists f'. split; [reflexivity|]. split; [exact A'|].
    split; [now apply (seen_write _ f _ (i, (Z.of_nat i + o + 1)%Z))|].
    rewrite E. split.
    - unfold ordered. rewrite map_app. apply sorted_snoc; [exact K|]. apply Forall_map.
      eapply Forall_impl; [|exact L]. cbn. lia.
    - apply Forall_app. split; [eapply Forall_impl; [|exact L]; cbn; lia|]. constructor; [cbn; lia|constructor].
  Qed.

  Lemma firstn_app2 {A} m (l1 l2 : list A) : exists m2, firstn m (l1 ++ l2) = firstn m l1 ++ firstn m2 l2.
  Proof. exists (m - length l1). apply firstn_app. Qed.

  Lemma run_mid g c n o due : forall k i m p, (0 <= Z.of_nat i + o)%Z -> mid g c n o i p ->
    mid g c n o (i + k) (fold_left do_act (firstn m (run_acts i k due)) p).
  Proof.
    induction k as [|k IH]; intros i m p Hp H; cbn [run_acts].
    - rewrite Nat.add_0_r. now apply do_flush.
    - destruct m as [|m]; [cbn; now apply (mid_grow _ _ _ _ i); [lia|]|].
      cbn [firstn fold_left]. pose proof (do_write _ _ _ _ _ _ Hp H) as W. set (p1 := do_act p (Write i)) in *. clearbody p1.
      destruct (firstn_app2 m (if due i then flush else []) (Report (i + 1) :: run_acts (i + 1) k due)) as [m2 ->].
      rewrite fold_left_app.
      assert (W2 : mid g c n o (i + 1) (fold_left do_act (firstn m (if due i then flush else [])) p1)).
      { destruct (due i); [now apply do_flush|]. rewrite firstn_nil. exact W. }
      set (p2 := fold_left do_act (firstn m (if due i then flush else [])) p1) in *. clearbody p2.
      destruct m2 as [|m2]; cbn [firstn fold_left]; [apply (mid_grow _ _ _ _ (i + 1)); [lia|exact W2]|].
      replace (i + Datatypes.S k) with (i + 1 + k) by lia. apply IH; [lia|].
      destruct W2 as (G & C & N & O & f & F & R). unfold Demo_Model.do_act. rewrite F, G.
      destruct (p_ok p2); [|split; [exact G|]; repeat (split; [assumption|]); exists f; auto].
      split; [reflexivity|]. repeat (split; [assumption|]). exists f. cbn. auto.
  Qed.

  (** What holds after every history. *)
  Definition sound (g : gen) (f : hdf) : Prop :=
    faithful g f /\ seen g f /\ ordered (f_log f) /\ Forall (fun e => (0 < snd e)%Z) (f_log f).
  Definition closed_ok (x : hdf * option gen) : Prop :=
    exists g, snd x = Some g /\ sound g (fst x) /\
      (forall j, r_data (fst x) j = image_at g (f_log (fst x)) j) /\
      (forall j, r_sum (fst x) j = sum_at g (f_log (fst x)) j) /\ (forall j, r_uid (fst x) j = uid_at g (f_log (fst x)) j).
  Definition Inv (x : phase * part) : Prop :=
    let '(ph, p) := x in
    Forall closed_ok (p_closed p) /\
    match ph with
    | Idle => p_hdf p = None
    | Set_ => exists g, (0 <= Z.of_nat (p_completed p) + p_offset p)%Z /\
                        mid g (p_completed p) (p_todo p) (p_offset p) (p_completed p) p
    | Ran => exists g, (0 <= Z.of_nat (p_completed p) + Z.of_nat (p_todo p) + p_offset p)%Z /\
                       mid g (p_completed p) (p_todo p) (p_offset p) (p_completed p + p_todo p) p
    end.

  Lemma mid_sound g c n o i p : mid g c n o i p -> exists f, p_hdf p = Some f /\ p_gen p = Some g /\ sound g f.
  Proof.
    intros (G & _ & _ & _ & f & F & A & B & K & L). exists f. split; [exact F|]. split; [exact G|].
    split; [exact A|]. split; [exact B|]. split; [exact K|]. eapply Forall_impl; [|exact L]. cbn. lia.
  Qed.

  Lemma acts_closed l : forall p, p_closed (fold_left do_act l p) = p_closed p.
  Proof.
    induction l as [|a l IH]; intro p; cbn; [reflexivity|]. rewrite IH. unfold Demo_Model.do_act.
    destruct (p_hdf p); [|reflexivity]. destruct (p_gen p); [|reflexivity]. destruct (p_ok p); [|reflexivity].
    destruct a; try reflexivity. destruct (write_data _ _ _ _ _); reflexivity.
  Qed.

  Lemma reset_inv p : Forall closed_ok (p_closed p) ->
    (p_hdf p = None \/ exists g c n o i, mid g c n o i p) ->
    Forall closed_ok (p_closed (on_reset p)) /\ p_hdf (on_reset p) = None.
  Proof.
    intros C H. unfold on_reset. destruct H as [H|(g & c & n & o & i & M)]; [rewrite H; auto|].
    destruct (mid_sound _ _ _ _ _ _ M) as (f & F & G & (A & B & K & L)). rewrite F. cbn. split; [|reflexivity].
    constructor; [|exact C]. exists g. cbn. split; [exact G|]. destruct A as ((A1 & A2 & A3) & A4).
    split; [|auto]. split; [split; [split; [exact A1|split; [exact A2|exact A3]]|exact A4]|].
    split; [|split; [exact K|exact L]]. exists (f_log f), (f_log f), (f_log f). cbn.
    repeat split; auto; exists []; now rewrite app_nil_r.
  Qed.

  Lemma new_mid c n g p : mid g c n 0 c (on_configure height width c n g p).
  Proof.
    split; [reflexivity|]. repeat (split; [reflexivity|]). eexists. split; [reflexivity|]. cbn.
    split; [repeat split; cbn; rewrite ?app_length, ?map_length; reflexivity|]. split; [|split; constructor].
    exists [], [], []. cbn. repeat split; exists []; reflexivity.
  Qed.

  Lemma step_inv x e : Inv x -> Inv (step x e).
  Proof.
    destruct x as [ph p]. intros (C & H). destruct e as [c n g|due m|c n|]; destruct ph; cbn [Demo_Model.step Inv]; auto.
    - split; [exact C|]. exists g. cbn [on_configure p_completed p_offset p_todo]. split; [lia|]. apply new_mid.
    - destruct H as (g0 & _ & M). destruct (reset_inv p C) as [C' _]; [right; eauto 6|].
      split; [exact C'|]. exists g. cbn [on_configure p_completed p_offset p_todo]. split; [lia|]. apply new_mid.
    - destruct H as (g & P & M).
      pose proof (run_mid g _ _ _ due (p_todo p) (p_completed p) m p P M) as R.
      unfold Demo_Model.on_run. split; [now rewrite acts_closed|].
      destruct R as (G & Cc & Cn & Co & R). exists g. rewrite Cc, Cn, Co. split; [lia|].
      split; [exact G|]. auto.
    - destruct H as (g & P & (G & _ & _ & _ & f & F & A & B & K & L)). split; [exact C|]. exists g.
      unfold on_seek. cbn [p_completed p_offset p_todo]. split; [lia|].
      split; [exact G|]. repeat (split; [reflexivity|]). exists f. cbn [p_hdf]. repeat (split; [assumption|]).
      eapply Forall_impl; [|exact L]. cbn. lia.
    - destruct H as (g & P & (G & _ & _ & _ & f & F & A & B & K & L)). split; [exact C|]. exists g.
      unfold on_seek. cbn [p_completed p_offset p_todo]. split; [lia|].
      split; [exact G|]. repeat (split; [reflexivity|]). exists f. cbn [p_hdf]. repeat (split; [assumption|]).
      eapply Forall_impl; [|exact L]. cbn. lia.
    - apply reset_inv; auto.
    - destruct H as (g & P & M). apply reset_inv; [exact C|right; eauto 6].
    - destruct H as (g & P & M). apply reset_inv; [exact C|right; eauto 6].
  Qed.

  Lemma run_inv h : Inv (run h).
  Proof.
    unfold Demo_Model.run. assert (I0 : Inv start) by (split; [constructor|reflexivity]). revert I0.
    generalize (@start I S). induction h as [|e h IH]; intros x I0; [exact I0|]. cbn. apply IH, step_inv, I0.
  Qed.

  Lemma run_sound h f g : p_hdf (snd (run h)) = Some f -> p_gen (snd (run h)) = Some g -> sound g f.
  Proof.
    pose proof (run_inv h) as V. destruct (run h) as [ph p]. cbn [snd]. intros F G. destruct V as (_ & V).
    assert (exists g c n o i, mid g c n o i p) as (g' & c & n & o & i & M).
    { destruct ph; [congruence| |]; destruct V as (g' & _ & M); eauto 6. }
    destruct (mid_sound _ _ _ _ _ _ M) as (f' & F' & G' & V'). congruence.
  Qed.

  (** After every history the ids in the file that is being written are in the order in which they were written, no
      two the same and none 0, and at each index are the id, the image and the sum of the last write to that index. *)
  Theorem C97_ids h f g : p_hdf (snd (run h)) = Some f -> p_gen (snd (run h)) = Some g ->
    StronglySorted Z.lt (map snd (f_log f)) /\ (forall i u, In (i, u) (f_log f) -> (0 < u)%Z) /\
    forall j, ds_at (f_uid f) j = uid_at g (f_log f) j /\ ds_at (f_data f) j = image_at g (f_log f) j /\
              ds_at (f_sum f) j = sum_at g (f_log f) j.
  Proof.
    intros F G. destruct (run_sound h f g F G) as (((A1 & A2 & A3) & _) & _ & K & L). split; [exact K|].
    split; [intros i u E; rewrite Forall_forall in L; apply (L _ E)|]. intro j. auto.
  Qed.

  (** Whoever sees the id of a write in the file, at any moment, finds there the image and the sum of that step. *)
  Theorem C97_reader h f g : p_hdf (snd (run h)) = Some f -> p_gen (snd (run h)) = Some g ->
    (forall i u k v, In (i, u) (f_log f) -> In (k, v) (f_log f) -> g_index g i = g_index g k -> i = k) ->
    forall j u, r_uid f j = Some u ->
    exists i, In (i, u) (f_log f) /\ g_index g i = j /\ r_data f j = Some (g_image g i) /\ r_sum f j = Some (total (g_image g i)).
  Proof.
    intros F G Inj j u R. destruct (run_sound h f g F G) as (_ & (lu & ls & ld & (r1 & E1) & (r2 & E2) & (r3 & E3) & D1 & D2 & D3) & _ & _).
    rewrite D3 in R. unfold uid_at in R. destruct (latest g lu j None) as [[i u']|] eqn:Q; [|discriminate].
    injection R as <-. destruct (latest_some _ _ _ _ _ _ Q) as [[M J]|?]; [|discriminate].
    assert (P : forall x, In x lu -> In x (f_log f)).
    { intros x Hx. rewrite E1, E2, E3. apply in_or_app; left; apply in_or_app; left; apply in_or_app; now left. }
    assert (T : forall l r s, l = lu ++ r -> f_log f = l ++ s -> exists v, latest g l j None = Some (i, v)).
    { intros l r s El Es. assert (NN : latest g l j None <> None).
      { apply (latest_in _ _ i u'); [rewrite El; apply in_or_app; now left|exact J]. }
      destruct (latest g l j None) as [[k v]|] eqn:Z; [|congruence].
      destruct (latest_some _ _ _ _ _ _ Z) as [[Ik J']|?]; [|discriminate].
      assert (k = i) as ->.
      { apply (Inj k v i u'); [rewrite Es; apply in_or_app; now left|now apply P|congruence]. }
      eauto. }
    exists i. split; [now apply P|].
    split; [exact J|]. rewrite D1, D2. unfold sum_at, image_at.
    destruct (T ls r3 (r2 ++ r1) E3) as [v ->]; [rewrite E1, E2; now rewrite <- app_assoc|].
    destruct (T ld (r3 ++ r2) r1) as [v' ->]; [rewrite E2, E3; now rewrite app_assoc|exact E1|].
    split; reflexivity.
  Qed.

  (** A file that was closed has everything that was written to it. *)
  Theorem C97_closed h f og : In (f, og) (p_closed (snd (run h))) ->
    exists g, og = Some g /\ StronglySorted Z.lt (map snd (f_log f)) /\
    forall j, r_uid f j = uid_at g (f_log f) j /\ r_data f j = image_at g (f_log f) j /\ r_sum f j = sum_at g (f_log f) j.
  Proof.
    pose proof (run_inv h) as V. destruct (run h) as [ph p]. cbn [snd]. intro H. destruct V as (C & _).
    rewrite Forall_forall in C. destruct (C _ H) as (g & E & (_ & _ & K & _) & R). cbn in *.
    exists g. split; [exact E|]. split; [exact K|]. destruct R as (R1 & R2 & R3). intro j. auto.
  Qed.

  (* ---- A run that is not stopped ---- *)
  (** A step whose index is in the shape of the scan. *)
  Definition in_shape (i sh : list nat) : Prop := Forall2 lt i sh.

  Lemma fits_length a b : fits a b = true -> length a = length b.
  Proof.
    revert b. induction a as [|x a IH]; intros [|y b] H; try discriminate; [reflexivity|].
    cbn in *. apply andb_true_iff in H. destruct H as [_ H]. now rewrite (IH _ H).
  Qed.
  Lemma fits_expand a b m : fits a m = true -> fits b m = true -> fits (expand a b) m = true.
  Proof.
    revert b m. induction a as [|x a IH]; intros [|y b] [|z m] H1 H2; try discriminate; [reflexivity|].
    cbn in *. apply andb_true_iff in H1, H2. destruct H1 as [L1 H1], H2 as [L2 H2].
    apply Nat.leb_le in L1, L2. rewrite IH by assumption. rewrite andb_true_r. apply Nat.leb_le. lia.
  Qed.
  Lemma fits_app a b c d : fits a b = true -> fits c d = true -> fits (a ++ c) (b ++ d) = true.
  Proof.
    revert b. induction a as [|x a IH]; intros [|y b] H1 H2; try discriminate; [exact H2|].
    cbn in *. apply andb_true_iff in H1. destruct H1 as [-> H1]. cbn. now apply IH.
  Qed.
  Lemma in_shape_fits i sh : in_shape i sh -> fits (map (fun x => x + 1) i) sh = true.
  Proof.
    induction 1 as [|x y i sh L _ IH]; [reflexivity|]. cbn [map fits]. rewrite IH, andb_true_r. apply Nat.leb_le. lia.
  Qed.
  Lemma in_shape_ones i sh : in_shape i sh -> fits (map (fun _ => 1) sh) sh = true.
  Proof.
    induction 1 as [|x y i sh L _ IH]; [reflexivity|]. cbn [map fits]. rewrite IH, andb_true_r. apply Nat.leb_le. lia.
  Qed.
  Lemma within_expand i r sh : length i <= length sh -> within i (expand (map (fun x => x + 1) i ++ r) sh) = true.
  Proof.
    revert sh. induction i as [|x i IH]; intros [|y sh] H; cbn [map app expand within] in *; cbn [length] in H;
      try reflexivity; [lia|].
    rewrite IH by lia. rewrite andb_true_r. apply Nat.ltb_lt. lia.
  Qed.

  Definition shaped {A} (g : gen) (h w : nat) (d : ds A) : Prop :=
    ds_max d = g_shape g ++ [h; w] /\ (fits (map (fun _ => 1) (g_shape g)) (g_shape g) = true -> fits (ds_shape d) (ds_max d) = true).
  Definition all_shaped (g : gen) (f : hdf) : Prop :=
    shaped g height width (f_data f) /\ shaped g 1 1 (f_sum f) /\ shaped g 1 1 (f_uid f).

  Lemma grown {A} g h w i (v : A) d : 1 <= h -> 1 <= w -> shaped g h w d -> in_shape i (g_shape g) ->
    exists d1 d2, resize (expand (map (fun x => x + 1) i ++ [1; 1]) (ds_shape d)) d = Some d1 /\ put_at i v d1 = Some d2.
  Proof.
    intros Hh Hw (M & F) J. specialize (F (in_shape_ones _ _ J)). unfold resize.
    assert (Q : fits (expand (map (fun x => x + 1) i ++ [1; 1]) (ds_shape d)) (ds_max d) = true).
    { apply fits_expand; [|exact F]. rewrite M. apply fits_app; [now apply in_shape_fits|].
      destruct h; [lia|]. destruct w; [lia|]. reflexivity. }
    rewrite Q. do 2 eexists. split; [reflexivity|]. unfold put_at. cbn [ds_shape].
    rewrite within_expand; [reflexivity|].
    apply fits_length in F. rewrite F, M, app_length. apply in_shape_fits, fits_length in J. rewrite map_length in J. lia.
  Qed.
  Lemma resize_shaped {A} g h w sh i (v : A) d d1 d2 : shaped g h w d -> resize sh d = Some d1 -> put_at i v d1 = Some d2 ->
    shaped g h w d2.
  Proof.
    intros (M & F) R P. unfold resize in R. destruct (fits sh (ds_max d)) eqn:Q; [|discriminate]. injection R as <-.
    unfold put_at in P. cbn in P. destruct (within i sh); [|discriminate]. injection P as <-. split; [exact M|]. auto.
  Qed.
  Lemma write_shaped g i o f f' : write_data total g i o f = Some f' -> all_shaped g f -> all_shaped g f'.
  Proof.
    intros H (A & B & C). unfold write_data in H.
    destruct (resize _ (f_data f)) as [d|] eqn:R1; [|discriminate].
    destruct (resize _ (f_sum f)) as [s|] eqn:R2; [|discriminate].
    destruct (resize _ (f_uid f)) as [u|] eqn:R3; [|discriminate].
    destruct (put_at (g_index g i) (g_image g i) d) as [d'|] eqn:P1; [|discriminate].
    destruct (put_at (g_index g i) (total (g_image g i)) s) as [s'|] eqn:P2; [|discriminate].
    destruct (put_at (g_index g i) (Z.of_nat i + o + 1)%Z u) as [u'|] eqn:P3; [|discriminate].
    injection H as <-. repeat split; cbn; eapply resize_shaped; eauto.
  Qed.
  Lemma write_ok g i o f : 1 <= height -> 1 <= width -> all_shaped g f -> in_shape (g_index g i) (g_shape g) ->
    exists f', write_data total g i o f = Some f'.
  Proof.
    intros Hh Hw (A & B & C) J. unfold write_data.
    destruct (grown g _ _ _ (g_image g i) _ Hh Hw A J) as (d1 & d2 & -> & ->).
    destruct (grown g 1 1 _ (total (g_image g i)) _ (le_n 1) (le_n 1) B J) as (s1 & s2 & -> & ->).
    destruct (grown g 1 1 _ (Z.of_nat i + o + 1)%Z _ (le_n 1) (le_n 1) C J) as (u1 & u2 & -> & ->). eauto.
  Qed.

  (* the shapes, over every history *)
  Definition ShInv (p : part) : Prop := forall f g, p_hdf p = Some f -> p_gen p = Some g -> all_shaped g f.
  Lemma act_shaped p a : ShInv p -> ShInv (do_act p a).
  Proof.
    intros V. unfold Demo_Model.do_act. destruct (p_hdf p) as [f|] eqn:F; [|intros f' g' E; cbn in E; congruence].
    destruct (p_gen p) as [g|] eqn:G; [|intros f' g' E E'; cbn in E'; congruence].
    destruct (p_ok p); [|exact V]. pose proof (V f g F G) as W.
    destruct a; try (intros f' g' E E'; cbn in E, E'; injection E as <-; assert (g' = g) as -> by congruence; exact W).
    destruct (write_data total g i (p_offset p) f) as [f1|] eqn:Q; [|exact V].
    intros f' g' E E'. cbn in E, E'. injection E as <-. assert (g' = g) as -> by congruence.
    eapply write_shaped; eauto.
  Qed.
  Lemma new_shaped c n g p : ShInv (on_configure height width c n g p).
  Proof.
    intros f' g' E E'. cbn in E, E'. injection E as <-. injection E' as <-. unfold create_hdf.
    repeat split; cbn; intro F; apply fits_app; try exact F; cbn; now rewrite ?Nat.leb_refl.
  Qed.
  Lemma step_shaped x e : ShInv (snd x) -> ShInv (snd (step x e)).
  Proof.
    destruct x as [ph p]. cbn [snd]. intro V. destruct e as [c n g|due m|c n|]; destruct ph; cbn [Demo_Model.step snd]; auto;
      try apply new_shaped; try exact V.
    2,3,4: unfold on_reset; destruct (p_hdf p) eqn:F; [intros f' g' E; discriminate|exact V].
    unfold Demo_Model.on_run. generalize (firstn m (run_acts (p_completed p) (p_todo p) due)) as l.
    intro l. revert p V. induction l as [|a l IH]; intros p V; [exact V|]. cbn. apply IH, act_shaped, V.
  Qed.
  Lemma run_shaped h : ShInv (snd (run h)).
  Proof.
    unfold Demo_Model.run. assert (I0 : ShInv (snd (@start I S))) by (intros f g E; discriminate). revert I0.
    generalize (@start I S). induction h as [|e h IH]; intros x I0; [exact I0|]. cbn. apply IH, step_shaped, I0.
  Qed.

  Lemma not_ok_stays l : forall p, p_ok p = false -> p_ok (fold_left do_act l p) = false.
  Proof.
    induction l as [|a l IH]; intros p H; [exact H|]. cbn. apply IH. unfold Demo_Model.do_act.
    destruct (p_hdf p); [|reflexivity]. destruct (p_gen p); [|reflexivity]. now rewrite H.
  Qed.

  Definition ids (c n : nat) (o : Z) : list (nat * Z) := map (fun i => (i, (Z.of_nat i + o + 1)%Z)) (seq c n).

  (* an act that is not a write *)
  Lemma flush_all p f g (O : p_ok p = true) : p_hdf p = Some f -> p_gen p = Some g -> ShInv p ->
    let p' := fold_left do_act flush p in
    exists f', p_hdf p' = Some f' /\ p_gen p' = Some g /\ p_ok p' = true /\ p_offset p' = p_offset p /\
      p_reports p' = p_reports p /\ f_log f' = f_log f /\ r_uid f' = ds_at (f_uid f') /\ r_data f' = ds_at (f_data f') /\
      r_sum f' = ds_at (f_sum f') /\ ShInv p'.
  Proof.
    intros F G V. cbv zeta. assert (V' : ShInv (fold_left do_act flush p)) by (cbn [flush fold_left]; now repeat apply act_shaped).
    revert V'. cbn [flush fold_left]. unfold Demo_Model.do_act, with_hdf. rewrite F, G, O.
    cbn. intro V'.
    eexists. split; [reflexivity|]. cbn. repeat (split; [assumption || reflexivity|]). exact V'.
  Qed.

  Lemma run_full due : 1 <= height -> 1 <= width -> forall k i p f g,
    p_ok p = true -> p_hdf p = Some f -> p_gen p = Some g -> ShInv p ->
    (forall j, i <= j < i + k -> in_shape (g_index g j) (g_shape g)) ->
    let p' := fold_left do_act (run_acts i k due) p in
    exists f', p_hdf p' = Some f' /\ p_gen p' = Some g /\ p_ok p' = true /\
      f_log f' = f_log f ++ ids i k (p_offset p) /\ p_reports p' = rev (map Datatypes.S (seq i k)) ++ p_reports p /\
      r_uid f' = ds_at (f_uid f') /\ r_data f' = ds_at (f_data f') /\ r_sum f' = ds_at (f_sum f').
  Proof.
    intros Hh Hw. induction k as [|k IH]; intros i p f g O F G V J; cbv zeta; cbn [run_acts].
    - destruct (flush_all p f g O F G V) as (f' & F' & G' & O' & _ & R & L & U & D & Sm & _).
      exists f'. unfold ids. cbn. rewrite app_nil_r. auto 10.
    - cbn [fold_left].
      assert (exists f1, p_hdf (do_act p (Write i)) = Some f1 /\ f_log f1 = f_log f ++ [(i, (Z.of_nat i + p_offset p + 1)%Z)] /\
                p_gen (do_act p (Write i)) = Some g /\ p_ok (do_act p (Write i)) = true /\
                p_offset (do_act p (Write i)) = p_offset p /\ p_reports (do_act p (Write i)) = p_reports p)
        as (f1 & F1 & L1 & G1 & O1 & Of1 & R1).
      { destruct (write_ok g i (p_offset p) f Hh Hw (V f g F G) (J i ltac:(lia))) as (f1 & W).
        unfold Demo_Model.do_act. rewrite F, G, O, W. exists f1. cbn. repeat (split; [first [reflexivity|assumption]|]).
        split; [|auto 10].
        unfold write_data, resize, put_at in W.
        repeat match type of W with context [if ?b then _ else _] => destruct b; [|discriminate] end.
        cbn in W. repeat match type of W with context [if ?b then _ else _] => destruct b; [|discriminate] end.
        injection W as <-. reflexivity. }
      pose proof (act_shaped p (Write i) V) as V1. set (p1 := do_act p (Write i)) in *. clearbody p1.
      rewrite fold_left_app. cbn [fold_left].
      assert (exists p2 f2, fold_left do_act (if due i then flush else []) p1 = p2 /\ p_hdf p2 = Some f2 /\ p_gen p2 = Some g /\
                p_ok p2 = true /\ p_offset p2 = p_offset p /\ p_reports p2 = p_reports p /\ f_log f2 = f_log f1 /\ ShInv p2)
        as (p2 & f2 & -> & F2 & G2 & O2 & Of2 & R2 & L2 & V2).
      { destruct (due i).
        - destruct (flush_all p1 f1 g O1 F1 G1 V1) as (f2 & A1 & A2 & A3 & A4 & A5 & A6 & _ & _ & _ & A7).
          exists (fold_left do_act flush p1), f2. rewrite A4, A5, Of1, R1. auto 10.
        - exists p1, f1. cbn. auto 10. }
      set (p3 := do_act p2 (Report (i + 1))).
      assert (P3 : p_ok p3 = true /\ p_hdf p3 = Some f2 /\ p_gen p3 = Some g /\ p_offset p3 = p_offset p /\
                   p_reports p3 = (i + 1) :: p_reports p).
      { unfold p3, Demo_Model.do_act. rewrite F2, G2, O2. cbn. rewrite R2. auto 10. }
      destruct P3 as (O3 & F3 & G3 & Of3 & R3).
      assert (V3 : ShInv p3) by (unfold p3; now apply act_shaped). clearbody p3.
      destruct (IH (i + 1) p3 f2 g O3 F3 G3 V3) as (f' & F' & G' & O' & L' & R' & U' & D' & S'); [intros; apply J; lia|].
      exists f'. split; [exact F'|]. split; [exact G'|]. split; [exact O'|]. split; [|split; [|auto]].
      + rewrite L', L2, L1, Of3. unfold ids. rewrite Nat.add_1_r. cbn [seq map]. now rewrite <- app_assoc.
      + rewrite R', R3, !Nat.add_1_r. cbn [seq map rev]. now rewrite <- app_assoc.
  Qed.

  Lemma set_open h p : run h = (Set_, p) -> exists f g, p_hdf p = Some f /\ p_gen p = Some g.
  Proof.
    intro E. pose proof (run_inv h) as V. rewrite E in V. destruct V as (_ & g & _ & G & _ & _ & _ & f & F & _). eauto.
  Qed.

  (** If the points of the run are in the shape of the scan then the run, stopped anywhere, is never refused by the file;
      and if it is not stopped then it has written each of its steps, everything that was written can be read, and the
      progress it reported is one more than each step, in order. *)
  Theorem C97_run h p due m f g : run h = (Set_, p) -> p_ok p = true -> p_hdf p = Some f -> p_gen p = Some g ->
    1 <= height -> 1 <= width ->
    (forall i, p_completed p <= i < p_completed p + p_todo p -> in_shape (g_index g i) (g_shape g)) ->
    let p' := snd (step (Set_, p) (Run due m)) in
    p_ok p' = true /\
    (length (run_acts (p_completed p) (p_todo p) due) <= m ->
     exists f', p_hdf p' = Some f' /\
       f_log f' = f_log f ++ map (fun i => (i, (Z.of_nat i + p_offset p + 1)%Z)) (seq (p_completed p) (p_todo p)) /\
       p_reports p' = rev (map Datatypes.S (seq (p_completed p) (p_todo p))) ++ p_reports p /\
       r_uid f' = ds_at (f_uid f') /\ r_data f' = ds_at (f_data f') /\ r_sum f' = ds_at (f_sum f')).
  Proof.
    intros E O F G Hh Hw J. cbv zeta. cbn [Demo_Model.step snd]. unfold Demo_Model.on_run.
    pose proof (run_shaped h) as V. rewrite E in V. cbn [snd] in V.
    destruct (run_full due Hh Hw (p_todo p) (p_completed p) p f g O F G V J) as (f' & F' & G' & O' & L' & R' & U' & D' & S').
    split.
    - destruct (p_ok (fold_left do_act (firstn m (run_acts (p_completed p) (p_todo p) due)) p)) eqn:Q; [reflexivity|].
      exfalso. rewrite <- (firstn_skipn m (run_acts (p_completed p) (p_todo p) due)), fold_left_app in O'.
      rewrite (not_ok_stays _ _ Q) in O'. discriminate.
    - intro Lm. rewrite firstn_all2 by exact Lm. exists f'. auto 10.
  Qed.

  (** After a seek to step c a run that is not stopped writes the steps that were asked for and no others, and their ids
      go on without a gap after the last that the run before would have had. *)
  Theorem C97_resume h ph p c n due m f g : run h = (ph, p) -> ph <> Idle -> p_ok p = true -> p_hdf p = Some f ->
    p_gen p = Some g -> 1 <= height -> 1 <= width ->
    (forall i, c <= i < c + n -> in_shape (g_index g i) (g_shape g)) -> length (run_acts c n due) <= m ->
    exists f', p_hdf (snd (run (h ++ [Seek c n; Run due m]))) = Some f' /\
      let last := (Z.of_nat (p_completed p + p_todo p) + p_offset p)%Z in
      f_log f' = f_log f ++ map (fun k => (c + k, (last + 1 + Z.of_nat k)%Z)) (seq 0 n).
  Proof.
    intros E NI O F G Hh Hw J Lm.
    assert (E2 : run (h ++ [Seek c n]) = (Set_, Demo_Model.on_seek c n p)).
    { unfold Demo_Model.run. rewrite fold_left_app. change (fold_left _ h _) with (run h). rewrite E.
      destruct ph; [congruence|reflexivity|reflexivity]. }
    destruct (C97_run (h ++ [Seek c n]) _ due m f g E2 O F G Hh Hw J) as [_ R].
    destruct (R Lm) as (f' & F' & L' & _). exists f'. split.
    - replace (h ++ [Seek c n; Run due m]) with ((h ++ [Seek c n]) ++ [Run due m]) by (rewrite <- app_assoc; reflexivity).
      unfold Demo_Model.run. rewrite fold_left_app. change (fold_left _ (h ++ [Seek c n]) _) with (run (h ++ [Seek c n])).
      rewrite E2. exact F'.
    - cbv zeta. rewrite L'. cbn [p_completed p_todo p_offset Demo_Model.on_seek]. f_equal.
      clear. assert (X : forall n b, map (fun i => (i, (Z.of_nat i + (p_offset p + (Z.of_nat (p_completed p) + Z.of_nat (p_todo p) - Z.of_nat c)) + 1)%Z)) (seq (c + b) n) =
        map (fun k => (c + k, (Z.of_nat (p_completed p + p_todo p) + p_offset p + 1 + Z.of_nat k)%Z)) (seq b n)).
      { intro j; induction j as [|j IH]; intro b; [reflexivity|]. cbn [seq map]. f_equal; [f_equal; lia|].
        rewrite <- (IH (Datatypes.S b)). do 2 f_equal. lia. }
      specialize (X n 0). rewrite Nat.add_0_r in X. exact X.
  Qed.

  (* ---- The whole scan ---- *)
  Definition written (p : part) (i : nat) : Prop := exists f u, p_hdf p = Some f /\ In (i, u) (f_log f).

  Lemma act_written p a i : written p i -> written (do_act p a) i.
  Proof.
    intros (f & u & F & H). unfold Demo_Model.do_act. rewrite F. destruct (p_gen p) as [g|]; [|exists f, u; auto].
    destruct (p_ok p); [|exists f, u; auto].
    destruct a; try (eexists; exists u; split; [first [reflexivity|exact F]|exact H]).
    destruct (write_data total g i0 (p_offset p) f) as [f'|] eqn:W; [|exists f, u; auto].
    exists f', u. split; [reflexivity|]. unfold write_data, resize, put_at in W.
    repeat match type of W with context [if ?b then _ else _] => destruct b; [|discriminate] end.
    cbn in W. repeat match type of W with context [if ?b then _ else _] => destruct b; [|discriminate] end.
    injection W as <-. cbn. apply in_or_app. now left.
  Qed.

  Definition told (p : part) : Prop := forall n, In n (p_reports p) -> exists i, n = i + 1 /\ written p i.
  Lemma told_keep p a : (forall n, a <> Report n) -> told p -> told (do_act p a).
  Proof.
    intros N T n H. assert (E : p_reports (do_act p a) = p_reports p).
    { unfold Demo_Model.do_act. destruct (p_hdf p); [|reflexivity]. destruct (p_gen p); [|reflexivity].
      destruct (p_ok p); [|reflexivity]. destruct a; try reflexivity; [destruct (write_data _ _ _ _ _); reflexivity|].
      now destruct (N n0). }
    rewrite E in H. destruct (T n H) as (i & -> & W). exists i. split; [reflexivity|now apply act_written].
  Qed.
  Lemma told_flush p i : told p /\ (p_ok p = true -> written p i) -> forall l, (forall a, In a l -> In a flush) ->
    told (fold_left do_act l p) /\ (p_ok (fold_left do_act l p) = true -> written (fold_left do_act l p) i).
  Proof.
    intros H l. revert p H. induction l as [|a l IH]; intros p (T & W) F; [auto|]. cbn. apply IH; [|intros; apply F; now right].
    split.
    - apply told_keep; [|exact T]. intros n ->. destruct (F (Report n) (or_introl eq_refl)) as [?|[?|[?|[]]]]; discriminate.
    - intro O. apply act_written, W. destruct (p_ok p) eqn:Q; [reflexivity|]. pose proof (not_ok_stays [a] p Q) as Z. cbn in Z. congruence.
  Qed.
  Lemma told_run due : forall k i m p, told p -> told (fold_left do_act (firstn m (run_acts i k due)) p).
  Proof.
    induction k as [|k IH]; intros i m p T; cbn [run_acts].
    - assert (G : forall l p, told p -> (forall a, In a l -> In a flush) -> told (fold_left do_act l p)).
      { clear. induction l as [|a l IH]; intros p T F; [exact T|]. cbn. apply IH; [|intros; apply F; now right].
        apply told_keep; [|exact T]. intros n ->. destruct (F (Report n) (or_introl eq_refl)) as [?|[?|[?|[]]]]; discriminate. }
      apply G; [exact T|]. intros a H. rewrite <- (firstn_skipn m flush). apply in_or_app. now left.
    - destruct m as [|m]; [exact T|]. cbn [firstn fold_left].
      assert (A : told (do_act p (Write i)) /\ (p_ok (do_act p (Write i)) = true -> written (do_act p (Write i)) i)).
      { split; [apply told_keep; [discriminate|exact T]|]. unfold Demo_Model.do_act.
        destruct (p_hdf p) as [f|] eqn:F; [|cbn; discriminate]. destruct (p_gen p) as [g|] eqn:G; [|cbn; discriminate].
        destruct (p_ok p) eqn:O; [|cbn; congruence].
        destruct (write_data total g i (p_offset p) f) as [f'|] eqn:W; [|cbn; discriminate]. intros _.
        unfold written. cbn. eexists. eexists. split; [reflexivity|]. unfold write_data, resize, put_at in W.
        repeat match type of W with context [if ?b then _ else _] => destruct b; [|discriminate] end.
        cbn in W. repeat match type of W with context [if ?b then _ else _] => destruct b; [|discriminate] end.
        injection W as <-. cbn. apply in_or_app. right. left. reflexivity. }
      set (p1 := do_act p (Write i)) in *. clearbody p1.
      destruct (firstn_app2 m (if due i then flush else []) (Report (i + 1) :: run_acts (i + 1) k due)) as [m2 ->].
      rewrite fold_left_app.
      pose proof (told_flush p1 i A (firstn m (if due i then flush else []))) as B.
      set (p2 := fold_left do_act (firstn m (if due i then flush else [])) p1) in *.
      destruct B as (B1 & B2).
      { intros a H. destruct (due i); [|now rewrite firstn_nil in H]. rewrite <- (firstn_skipn m flush). apply in_or_app. now left. }
      clearbody p2. destruct m2 as [|m2]; [exact B1|]. cbn [firstn fold_left]. apply IH.
      intros n H. unfold Demo_Model.do_act in *. destruct (p_hdf p2) as [f|] eqn:F; [|exact (B1 n H)].
      destruct (p_gen p2) as [g|] eqn:G; [|exact (B1 n H)]. destruct (p_ok p2) eqn:O; [|exact (B1 n H)].
      cbn in H. assert (Same : forall j, written p2 j -> written (do_act p2 (Report (i + 1))) j) by (intros; now apply act_written).
      unfold Demo_Model.do_act in Same. rewrite F, G, O in Same.
      destruct H as [<-|H]; [exists i; auto|]. destruct (B1 n H) as (j & -> & W). exists j. auto.
  Qed.
  (** Progress is reported only for a step that has been written to the file. *)
  Theorem C97_progress h ph p n : run h = (ph, p) -> ph <> Idle -> In n (p_reports p) ->
    exists i f u, n = i + 1 /\ p_hdf p = Some f /\ In (i, u) (f_log f).
  Proof.
    assert (A : forall h, fst (run h) <> Idle -> told (snd (run h))).
    { clear. induction h as [|e h IH] using rev_ind; [intro H; now destruct H|].
      unfold Demo_Model.run. rewrite fold_left_app. cbn [fold_left]. change (fold_left step h start) with (run h).
      destruct (run h) as [ph q]. cbn [fst snd] in IH.
      destruct e as [c n g|due m|c n|]; destruct ph; cbn [Demo_Model.step fst snd]; intro H; try congruence;
        try (now apply IH); try (intros n0 []).
      apply told_run. now apply IH. }
    intros E N H. specialize (A h). rewrite E in A. destruct (A N n H) as (i & -> & f & u & F & W). eauto 6.
  Qed.

  (** If a scan starts at its first step, and no seek goes beyond a step that was not written, then all steps before the
      place it has come to are in the file. *)
  Theorem C97_whole h p :
    (forall h1 c n g h2, h = h1 ++ Configure c n g :: h2 -> c = 0) ->
    (forall h1 c n h2, h = h1 ++ Seek c n :: h2 -> forall i, i < c -> written (snd (run h1)) i) ->
    run h = (Set_, p) -> forall i, i < p_completed p -> written p i.
  Proof.
    revert p. induction h as [|e h IH] using rev_ind; intros p HC HS E i Hi; [discriminate|].
    unfold Demo_Model.run in E. rewrite fold_left_app in E. cbn [fold_left] in E.
    change (fold_left step h start) with (run h) in E. destruct (run h) as [ph q] eqn:R.
    assert (HC' : forall h1 c n g h2, h = h1 ++ Configure c n g :: h2 -> c = 0).
    { intros h1 c n g h2 ->. eapply (HC h1 c n g (h2 ++ [e])). now rewrite <- app_assoc. }
    assert (HS' : forall h1 c n h2, h = h1 ++ Seek c n :: h2 -> forall i, i < c -> written (snd (run h1)) i).
    { intros h1 c n h2 ->. eapply (HS h1 c n (h2 ++ [e])). now rewrite <- app_assoc. }
    destruct e as [c n g|due m|c n|]; destruct ph; cbn [Demo_Model.step] in E; try discriminate.
    - injection E as <-. cbn in Hi. rewrite (HC h c n g [] eq_refl) in Hi. lia.
    - injection E as <-. now apply IH.
    - injection E as <-. cbn in Hi. rewrite (HC h c n g [] eq_refl) in Hi. lia.
    - injection E as <-. cbn in Hi. destruct (HS h c n [] eq_refl i Hi) as (f & u & F & H). rewrite R in F.
      exists f, u. auto.
    - injection E as <-. cbn in Hi. destruct (HS h c n [] eq_refl i Hi) as (f & u & F & H). rewrite R in F.
      exists f, u. auto.
  Qed.

  (* ---- What it says it makes ---- *)
  Lemma append_inj_l a b c : (a ++ b = a ++ c)%string -> b = c.
  Proof. induction a as [|x a IH]; cbn; intro H; [exact H|]. injection H as H. now apply IH. Qed.
  Lemma str_app_length a b : String.length (a ++ b)%string = String.length a + String.length b.
  Proof. induction a as [|x a IH]; cbn; [reflexivity|]. now rewrite IH. Qed.
  Lemma append_inj_r a b c : (a ++ c = b ++ c)%string -> a = b.
  Proof.
    revert b. induction a as [|x a IH]; intros [|y b] H; [reflexivity| | |].
    - exfalso. apply (f_equal String.length) in H. rewrite !str_app_length in H. cbn in H. lia.
    - exfalso. apply (f_equal String.length) in H. rewrite !str_app_length in H. cbn in H. lia.
    - cbn in H. injection H as -> H. now rewrite (IH _ H).
  Qed.
  Lemma set_path_inj a b : set_path a = set_path b -> a = b.
  Proof. unfold set_path. intro H. apply append_inj_l in H. now apply append_inj_r in H. Qed.
  Lemma set_path_other a : set_path a <> data_path /\ set_path a <> sum_path /\ set_path a <> uid_path.
  Proof.
    unfold set_path, data_path, sum_path, uid_path.
    assert (L : forall x, ("/entry/" ++ a ++ "_set")%string = ("/entry/" ++ x)%string -> String.length x < 4 \/ x = "data" -> False).
    { intros x H K. apply append_inj_l in H. pose proof (f_equal String.length H) as Hl. rewrite str_app_length in Hl. cbn in Hl.
      destruct K as [K| ->]; [lia|]. destruct a as [|y a]; [discriminate|]. cbn in Hl. lia. }
    split; [|split]; intro H.
    - apply (L "data"); [exact H|auto].
    - apply (L "sum"); [exact H|cbn; lia].
    - apply (L "uid"); [exact H|cbn; lia].
  Qed.

  (** If the axes of the generator are those of its dimensions, then every dataset that the part reports is in the file,
      with the rank that was reported, and no two have the same path. *)
  Theorem C97_datasets (g : gen) name file : Permutation (g_axes g) (concat (g_dims g)) -> NoDup (g_axes g) ->
    (forall i, In i (create_infos g name file) -> In (i_path i, i_rank i) (file_paths (S:=S) height width g) /\
       (i_uid i <> "" -> In (i_uid i, length (g_shape g) + 2) (file_paths (S:=S) height width g))) /\
    NoDup (map i_path (create_infos g name file)).
  Proof.
    intros P N. split.
    - intros i [<-|[<-|H]].
      + cbn. rewrite !app_length, !map_length. split; [auto|]. intros _. auto.
      + cbn. rewrite !app_length, !map_length. split; [auto|]. intros _. auto.
      + apply in_map_iff in H. destruct H as (a & <- & H). split; [|cbn; congruence].
        cbn. right. right. right. apply in_map_iff. exists a. split; [reflexivity|]. now apply (Permutation_in _ P).
    - cbn. rewrite map_map. cbn. constructor; [|constructor].
      + intros [H|H]; [discriminate|]. apply in_map_iff in H. destruct H as (a & H & _). now destruct (set_path_other a).
      + intro H. apply in_map_iff in H. destruct H as (a & H & _). now destruct (set_path_other a) as (_ & ? & _).
      + clear P. induction N as [|a l H N IH]; cbn; constructor; [|exact IH].
        intro K. apply in_map_iff in K. destruct K as (b & E & K). apply set_path_inj in E. congruence.
  Qed.
End props.

(** A row of the table is one of the datasets that a part has reported, with all its fields, and each is there. *)
Lemma datasets_in l i : In i (datasets_of l) <-> In (Dataset i) l.
Proof.
  induction l as [|[j|] l IH]; cbn; [tauto| |].
  - rewrite IH. split; (intros [E|H]; [left; congruence|now right]).
  - rewrite IH. split; [now right|intros [E|H]; [discriminate|exact H]].
Qed.
Theorem C97_table pi n f r p u :
  (exists k, nth_error (t_name (on_post_configure pi)) k = Some n /\ nth_error (t_file (on_post_configure pi)) k = Some f /\
     nth_error (t_rank (on_post_configure pi)) k = Some r /\ nth_error (t_path (on_post_configure pi)) k = Some p /\
     nth_error (t_uid (on_post_configure pi)) k = Some u) <->
  (exists name l, In (name, Some l) pi /\ In (Dataset (mkProduced n f r p u)) l).
Proof.
  unfold on_post_configure. cbn.
  assert (A : (exists name l, In (name, Some l) pi /\ In (Dataset (mkProduced n f r p u)) l) <->
              In (mkProduced n f r p u) (filter_values pi)).
  { unfold filter_values. rewrite in_concat. split.
    - intros (name & l & H & K). exists (datasets_of l). split; [|now apply datasets_in].
      apply in_map_iff. exists (name, Some l). auto.
    - intros (x & H & K). apply in_map_iff in H. destruct H as ([name [l|]] & <- & H); cbn in K; [|destruct K].
      exists name, l. split; [exact H|now apply datasets_in]. }
  rewrite A. generalize (filter_values pi) as l. intro l. split.
  - intros (k & H1 & H2 & H3 & H4 & H5). rewrite nth_error_map in *.
    destruct (nth_error l k) as [[]|] eqn:E; [|discriminate]. cbn in *.
    apply nth_error_In in E. congruence.
  - intro H. apply In_nth_error in H. destruct H as (k & E). exists k. rewrite !nth_error_map, E. cbn. auto.
Qed.

(* ---- A scan of 2 by 3 points, paused ---- *)
Definition ex_gen : @gen nat :=
  mkGen [2; 3] ["y"; "x"] [["y"]; ["x"]] (fun i => [i / 3; i mod 3]) (fun i => 10 * i).
Definition ex_hist : list (@event nat) :=
  [Configure 0 6 ex_gen; Run (fun i => Nat.eqb i 1) 9; Seek 2 4; Seek 1 5; Run (fun _ => false) 99].
Definition ex_run := @run nat nat (fun x => x + 1) 4 5 ex_hist.
(* the first run was stopped after step 2 was written: id 3; the ids of the next come after all those that the first run
   and the one that was sought first would have had *)
Example C97_ex_log : exists f, p_hdf (snd ex_run) = Some f /\
  f_log f = [(0, 1%Z); (1, 2%Z); (2, 3%Z); (1, 11%Z); (2, 12%Z); (3, 13%Z); (4, 14%Z); (5, 15%Z)] /\
  map (r_uid f) [[0; 0]; [0; 1]; [0; 2]; [1; 0]; [1; 2]; [2; 0]] = [Some 1%Z; Some 11%Z; Some 12%Z; Some 13%Z; Some 15%Z; None] /\
  map (r_data f) [[0; 1]; [1; 2]] = [Some 10; Some 50] /\ ds_shape (f_data f) = [2; 3; 4; 5].
Proof. eexists. split; [vm_compute; reflexivity|]. split; [vm_compute; reflexivity|]. split; [vm_compute; reflexivity|].
  split; vm_compute; reflexivity. Qed.
(* in the first run, after the flush that followed step 1 and before the next *)
Example C97_ex_reader : exists f,
  p_hdf (snd (@run nat nat (fun x => x + 1) 4 5 [Configure 0 6 ex_gen; Run (fun i => Nat.eqb i 1) 8])) = Some f /\
  map fst (f_log f) = [0; 1; 2] /\ map (r_uid f) [[0; 1]; [0; 2]] = [Some 2%Z; None] /\
  forall i u k v, In (i, u) (f_log f) -> In (k, v) (f_log f) -> g_index ex_gen i = g_index ex_gen k -> i = k.
Proof.
  eexists. split; [vm_compute; reflexivity|]. split; [vm_compute; reflexivity|]. split; [vm_compute; reflexivity|].
  cbn. intros i u k v H K.
  repeat (destruct H as [H|H]; [injection H as <- _|]); try destruct H;
    repeat (destruct K as [K|K]; [injection K as <- _|]); try destruct K; cbn; congruence.
Qed.
Example C97_ex_run : exists p f, @run nat nat (fun x => x + 1) 4 5 (firstn 4 ex_hist) = (Set_, p) /\ p_ok p = true /\
  p_hdf p = Some f /\ p_gen p = Some ex_gen /\ p_completed p = 1 /\ p_todo p = 5 /\ p_offset p = 9%Z /\
  forall i, 1 <= i < 6 -> in_shape (g_index ex_gen i) (g_shape ex_gen).
Proof.
  do 2 eexists. split; [vm_compute; reflexivity|]. repeat (split; [vm_compute; reflexivity|]).
  intros i H. destruct i as [|[|[|[|[|[|]]]]]]; try lia; cbn; repeat constructor.
Qed.
Example C97_ex_resume : exists p f, @run nat nat (fun x => x + 1) 4 5 (firstn 2 ex_hist) = (Ran, p) /\ p_ok p = true /\
  p_hdf p = Some f /\ (forall i, 2 <= i < 2 + 4 -> in_shape (g_index ex_gen i) (g_shape ex_gen)) /\ p_gen p = Some ex_gen.
Proof.
  eexists; eexists. split; [vm_compute; reflexivity|]. split; [reflexivity|]. split; [reflexivity|]. split; [|reflexivity].
  intros i H. assert (C : i = 2 \/ i = 3 \/ i = 4 \/ i = 5) by lia.
  destruct C as [->|[->|[->| ->]]]; vm_compute; auto 10.
Qed.
Example C97_ex_whole : (forall i, i < 1 -> written (snd (@run nat nat (fun x => x + 1) 4 5 (firstn 3 ex_hist))) i) /\
  (forall i, i < 2 -> written (snd (@run nat nat (fun x => x + 1) 4 5 (firstn 2 ex_hist))) i).
Proof.
  split; intros i H; destruct i as [|[|]]; try lia; do 2 eexists; (split; [vm_compute; reflexivity|]); cbn; auto.
Qed.
Example C97_ex_progress : p_reports (snd ex_run) = [6; 5; 4; 3; 2; 3; 2; 1].
Proof. vm_compute. reflexivity. Qed.
Example C97_ex_closed : length (p_closed (snd (@run nat nat (fun x => x + 1) 4 5 (ex_hist ++ [Configure 0 6 ex_gen; Reset])))) = 2.
Proof. vm_compute. reflexivity. Qed.
Example C97_ex_datasets : map i_path (create_infos ex_gen "det" "det.h5") =
    ["/entry/data"; "/entry/sum"; "/entry/y_set"; "/entry/x_set"] /\
  t_rank (on_post_configure [("a", Some [Other; Dataset (mkProduced "n" "f" 3 "p" "u")]); ("b", None);
                             ("c", Some (map Dataset (create_infos ex_gen "det" "det.h5")))]) = [3; 4; 4; 1; 1].
Proof. split; vm_compute; reflexivity. Qed.

(* ---- C98: the motors ---- *)
Local Open Scope Q_scope.
(** v is on the way from a to b. *)
Definition between (a v b : Q) : Prop := (a <= b -> a <= v <= b) /\ (b <= a -> b <= v <= a).
(** Each value is on the way from the one before to b. *)
Fixpoint towards (a b : Q) (l : list Q) : Prop :=
  match l with [] => True | v :: r => between a v b /\ towards v b r end.
(** Times that do not go back. *)
Fixpoint forward (t : Q) (l : list Q) : Prop := match l with [] => True | x :: r => t <= x /\ forward x r end.

Lemma frac r d : 0 < d -> 0 <= r -> r <= d -> 0 <= r / d <= 1.
Proof.
  intros D R L. split; [apply Qle_shift_div_l; lra|apply Qle_shift_div_r; lra].
Qed.
Lemma between_frac k b x y : 0 <= x -> x <= y -> between (b - k * y) (b - k * x) b.
Proof.
  intros X Y. destruct (Qlt_le_dec 0 y) as [P|P].
  - destruct (Qlt_le_dec k 0) as [K|K]; split; intro H; split; nra.
  - assert (X0 : x == 0) by lra. assert (Y0 : y == 0) by lra. split; intro H; rewrite X0, ?Y0 in *; split; nra.
Qed.
Global Instance between_mor : Morphisms.Proper (Qeq ==> Qeq ==> Qeq ==> iff)%signature between.
Proof. intros a a' A b b' B c c' C. unfold between. rewrite A, B, C. reflexivity. Qed.
Lemma towards_mor l : forall a a' b, a == a' -> towards a b l -> towards a' b l.
Proof.
  destruct l as [|v l]; cbn; intros a a' b E; [auto|]. intros [H K]. split; [|exact K]. now rewrite <- E.
Qed.

Lemma ticks_towards st d dem k : 0 < d -> forall clock rem y,
  rem / d <= y -> (forall t, hd_error clock = Some t -> st + d - t <= rem) -> forward (hd 0 clock) (tl clock) ->
  towards (dem - k * y) dem (fst (ticks st d dem k rem clock)).
Proof.
  intro D. induction clock as [|t clock IH]; intros rem y Y T F.
  - cbn [ticks]. destruct (Qlt_le_dec 0 rem) as [R|R]; cbn [fst towards]; (split; [|exact I]).
    + assert (E : dem - k * rem / d == dem - k * (rem / d)) by (field; lra). rewrite E. apply between_frac; [|exact Y].
      apply Qle_shift_div_l; lra.
    + unfold between. split; intro; lra.
  - cbn [ticks]. destruct (Qlt_le_dec 0 rem) as [R|R].
    2:{ cbn. split; [|exact I]. unfold between. split; intro; lra. }
    destruct (ticks st d dem k (st + d - t) clock) as [l dn] eqn:Q. cbn [fst towards].
    assert (E : dem - k * rem / d == dem - k * (rem / d)) by (field; lra).
    split; [rewrite E; apply between_frac; [apply Qle_shift_div_l; lra|exact Y]|].
    apply (towards_mor _ (dem - k * (rem / d))); [symmetry; exact E|].
    specialize (IH (st + d - t) (rem / d)). rewrite Q in IH. cbn [fst] in IH. apply IH.
    + specialize (T t eq_refl). apply Qle_shift_div_r; [exact D|]. assert (rem / d * d == rem) by (field; lra). lra.
    + destruct clock as [|t2 clock]; [discriminate|]. cbn in F. intros x E'. injection E' as <-. lra.
    + destruct clock as [|t2 clock]; [exact I|]. cbn in *. tauto.
Qed.

Lemma ticks_nonempty st d dem k clock rem : fst (ticks st d dem k rem clock) <> [].
Proof.
  destruct clock as [|t clock]; cbn [ticks]; destruct (Qlt_le_dec 0 rem); try discriminate.
  destruct (ticks st d dem k (st + d - t) clock). discriminate.
Qed.
Lemma ticks_last st d dem k : forall clock rem, snd (ticks st d dem k rem clock) = true ->
  last (fst (ticks st d dem k rem clock)) 0 = dem.
Proof.
  induction clock as [|t clock IH]; intros rem; cbn [ticks]; destruct (Qlt_le_dec 0 rem); cbn; try discriminate; try reflexivity.
  specialize (IH (st + d - t)). pose proof (ticks_nonempty st d dem k clock (st + d - t)) as N.
  destruct (ticks st d dem k (st + d - t) clock) as [l dn]. cbn in *. intro H.
  specialize (IH H). destruct l; [congruence|exact IH].
Qed.
Lemma ticks_done st d dem k : forall clock rem,
  snd (ticks st d dem k rem clock) = true <-> rem <= 0 \/ exists t, In t clock /\ st + d <= t.
Proof.
  induction clock as [|t clock IH]; intros rem; cbn [ticks]; destruct (Qlt_le_dec 0 rem) as [R|R]; cbn.
  - split; [discriminate|]. intros [H|(t & [] & _)]. lra.
  - split; auto.
  - specialize (IH (st + d - t)). destruct (ticks st d dem k (st + d - t) clock) as [l dn]. cbn in *. rewrite IH. split.
    + intros [H|(x & H & K)]; right; [exists t; split; [now left|lra]|exists x; auto].
    + intros [H|(x & [->|H] & K)]; [lra|left; lra|right; eauto].
  - split; auto.
Qed.

(** However often the clock is read, if it does not go back, a counter that is moved goes from where it was to the
    demand and not back; the move ends when its time is over, at the demand. *)
Theorem C98_move pos start duration demand clock : forward start clock ->
  towards pos demand (fst (move pos start duration demand clock)) /\
  (snd (move pos start duration demand clock) = true -> last (fst (move pos start duration demand clock)) 0 = demand) /\
  (snd (move pos start duration demand clock) = true <-> duration <= 0 \/ exists t, In t clock /\ start + duration <= t).
Proof.
  intro F. unfold move. split; [|split; [apply ticks_last|apply ticks_done]].
  destruct (Qlt_le_dec 0 duration) as [D|D].
  - apply (towards_mor _ (demand - (demand - pos) * 1)); [lra|]. apply ticks_towards; [exact D| | |].
    + apply Qle_shift_div_r; lra.
    + destruct clock as [|t clock]; [discriminate|]. cbn in F. intros x E. injection E as <-. lra.
    + destruct clock as [|t clock]; cbn in *; tauto.
  - destruct clock; cbn [ticks]; destruct (Qlt_le_dec 0 duration); try (exfalso; lra);
      cbn; (split; [|exact I]); unfold between; split; intro; lra.
Qed.
Example C98_move_ex : move 2 100 3 8 [101; (203 # 2); 103] = ([8 - (8 - 2) * 3 / 3; 8 - (8 - 2) * (100 + 3 - 101) / 3;
    8 - (8 - 2) * (100 + 3 - (203 # 2)) / 3; 8], true) /\ forward 100 [101; (203 # 2); 103].
Proof. split; [vm_compute; reflexivity|]. cbn. repeat split; lra. Qed.
(** If the clock goes back then the counter can leave the way between the two: a finding. *)
Theorem C98_move_refuted : exists pos start duration demand clock v,
  In v (fst (move pos start duration demand clock)) /\ ~ between pos v demand.
Proof.
  exists 0, 100, 1, 4, [99], (4 - 4 * 2 / 1). split; [vm_compute; auto|].
  intros [H _]. assert (0 <= 4) as Z by lra. apply H in Z. assert (4 - 4 * 2 / 1 == -4) as E by reflexivity. rewrite E in Z. lra.
Qed.

(** The mover knows where the axis is. *)
Definition knows (a : axis) : Prop := exists q, a_last a = Some q /\ a_pos a == q.

Lemma same_true l p : same l p = true -> exists q, l = Some q /\ q == p.
Proof. destruct l as [q|]; [|discriminate]. intro H. apply Qeq_bool_iff in H. eauto. Qed.

Lemma start_knows lower c a : a_pos (to_start lower c a) = lower c /\ a_last (to_start lower c a) = Some (lower c).
Proof. unfold to_start, maybe_move. cbn. auto. Qed.

(** If moves end in the order in which they were asked for: after a turn of on_run the axis is at the end of the point;
    what takes the time of the point starts at the start of it; and what was not asked was not needed. *)
Theorem C98_point lower upper late a : knows a ->
  let a' := fst (turn lower upper late false a) in let l := snd (turn lower upper late false a) in
  knows a' /\ a_pos a' == upper /\
  (forall l1 t, l = l1 ++ [t] -> ended 0 t = upper -> ~ lower == upper -> fold_left ended l1 (a_pos a) == lower) /\
  (~ lower == upper -> exists l1, l = l1 ++ [if late then Instant upper else Timed upper]).
Proof.
  intros (q & L & P). cbv zeta. unfold turn, point_tasks, maybe_move.
  destruct (same (a_last a) lower) eqn:S1; cbn [a_last a_pos].
  - apply same_true in S1. destruct S1 as (q1 & E1 & Q1). assert (q1 = q) as -> by congruence.
    destruct (same (a_last a) (match (if late then Instant upper else Timed upper) with Instant p | Timed p => p end)) eqn:S2;
      cbn [fst snd app fold_left a_last a_pos].
    + apply same_true in S2. destruct S2 as (q2 & E2 & Q2). assert (q2 = q) as -> by congruence.
      assert (U : q == upper) by (destruct late; exact Q2).
      split; [exists q; auto|]. split; [lra|]. split; [intros l1 t E; destruct l1; discriminate|]. intro N. exfalso. apply N. lra.
    + split; [|split; [|split]].
      * destruct late; exists upper; cbn; split; reflexivity.
      * destruct late; cbn; reflexivity.
      * intros l1 t E _ _. destruct l1 as [|x [|]]; try discriminate. cbn. lra.
      * intros _. exists []. reflexivity.
  - destruct (same (Some lower) (match (if late then Instant upper else Timed upper) with Instant p | Timed p => p end)) eqn:S2;
      cbn [fst snd app fold_left a_last a_pos].
    + apply same_true in S2. destruct S2 as (q2 & E2 & Q2). injection E2 as <-.
      assert (U : lower == upper) by (destruct late; exact Q2).
      split; [exists lower; cbn; split; reflexivity|]. split; [exact U|].
      split; [intros l1 t E T N; contradiction|intro N; contradiction].
    + split; [|split; [|split]].
      * destruct late; exists upper; cbn; split; reflexivity.
      * destruct late; cbn; reflexivity.
      * intros l1 t E _ _. destruct l1 as [|x [|y [|]]]; try discriminate; injection E as <- <-; cbn; reflexivity.
      * intros _. exists [Instant lower]. reflexivity.
Qed.
Example C98_point_ex : knows (mkAxis 3 (Some 3)) /\
  snd (turn 3 4 false false (mkAxis 3 (Some 3))) = [Timed 4] /\ snd (turn 5 4 true false (mkAxis 3 (Some 3))) = [Instant 5; Instant 4].
Proof. split; [exists 3; split; reflexivity|]. split; vm_compute; reflexivity. Qed.

Lemma motion_spec lower upper late exc : forall n c a, knows a ->
  let '(a', r, ok) := motion_run lower upper late (fun _ => false) exc c n a in
  r = map S (seq c (length r)) /\ knows a' /\
  (ok = false <-> (c < exc <= c + n)%nat) /\ length r = (if ok then n else exc - c)%nat /\
  (r = [] -> a' = a) /\ ((0 < length r)%nat -> a_pos a' == upper (c + length r - 1)%nat).
Proof.
  induction n as [|n IH]; intros c a K; cbn [motion_run].
  - split; [reflexivity|]. split; [exact K|]. cbn. repeat split; try lia; discriminate.
  - destruct (C98_point (lower c) (upper c) (late c) a K) as (K1 & P1 & _). cbv zeta in *.
    set (a1 := fst (turn (lower c) (upper c) (late c) false a)) in *. clearbody a1.
    destruct (Nat.eqb (c + 1) exc) eqn:E.
    + apply Nat.eqb_eq in E. cbn [length seq map]. split; [now rewrite Nat.add_1_r|]. split; [exact K1|].
      split; [split; [intros _; lia|reflexivity]|]. split; [lia|]. split; [discriminate|].
      intros _. replace (c + 1 - 1)%nat with c by lia. exact P1.
    + apply Nat.eqb_neq in E. specialize (IH (c + 1)%nat a1 K1).
      destruct (motion_run lower upper late (fun _ => false) exc (c + 1) n a1) as [[a2 r] ok].
      destruct IH as (R & K2 & O & L & P0 & P). split; [|split; [exact K2|split; [|split; [|split; [discriminate|]]]]].
      * cbn [length seq map]. rewrite Nat.add_1_r in *. now rewrite <- R.
      * rewrite O. lia.
      * cbn [length]. rewrite L. destruct ok; [lia|]. assert (c + 1 < exc <= c + 1 + n)%nat by now apply O. lia.
      * intros _. destruct r as [|x r].
        -- rewrite (P0 eq_refl). cbn [length]. replace (c + 1 - 1)%nat with c by lia. exact P1.
        -- replace (c + length ((c + 1)%nat :: x :: r) - 1)%nat with (c + 1 + length (x :: r) - 1)%nat by (cbn [length]; lia).
           apply P. cbn. lia.
Qed.

(** on_configure, which is called when a scan is configured and at every seek, takes the axis to the start of its first
    point from wherever it is.  If moves end in the order in which they were asked for, the run that follows stops after
    exceptionStep steps if that is one of its steps and else takes them all; it reports one more than each step; and it
    leaves the axis at the end of the last of them. *)
Theorem C98_run lower upper late exc c n a : let s := to_start lower c a in
  a_pos s = lower c /\
  let '(a', r, ok) := motion_run lower upper late (fun _ => false) exc c n s in
  (ok = false <-> (c < exc <= c + n)%nat) /\ r = map S (seq c (if ok then n else exc - c)) /\
  (r <> [] -> a_pos a' == upper (last r 0%nat - 1)%nat).
Proof.
  cbv zeta. destruct (start_knows lower c a) as (P & L). split; [exact P|].
  assert (K : knows (to_start lower c a)) by (exists (lower c); rewrite P, L; split; reflexivity).
  pose proof (motion_spec lower upper late exc n c _ K) as M.
  destruct (motion_run lower upper late (fun _ => false) exc c n (to_start lower c a)) as [[a' r] ok].
  destruct M as (R & _ & O & Ln & _ & U). split; [exact O|]. rewrite <- Ln. split; [exact R|].
  intro N. destruct r as [|x r]; [congruence|]. rewrite U by (cbn; lia).
  assert (E : last (x :: r) 0%nat = (c + length (x :: r))%nat).
  { rewrite R at 1. cbn [length]. generalize (length r) as k. intro k. rewrite seq_S, map_app. cbn [map]. rewrite last_last. lia. }
  rewrite E. reflexivity.
Qed.
Example C98_run_ex :
  motion_run (fun i => inject_Z (Z.of_nat i)) (fun i => inject_Z (Z.of_nat i + 1)) (fun i => Nat.eqb i 4) (fun _ => false) 5 3 4
    (to_start (fun i => inject_Z (Z.of_nat i)) 3 (mkAxis 77 (Some 3))) = (mkAxis 5 (Some 5), [4; 5]%nat, false).
Proof. vm_compute. reflexivity. Qed.

(** Findings.  The move to the start of a point and the one to its end are made by threads of their own: if the time for
    the point is over and the first ends last then the run leaves the axis at the start of its last point. *)
Theorem C98_order_refuted : exists lower upper late swap c n a,
  let '(a', r, ok) := motion_run lower upper late swap 0 c n (to_start lower c a) in
  ok = true /\ r = map S (seq c n) /\ ~ a_pos a' == upper (c + n - 1)%nat.
Proof.
  exists (fun i => inject_Z (2 * Z.of_nat i)), (fun i => inject_Z (2 * Z.of_nat i + 1)), (fun _ => true), (fun i => Nat.eqb i 1),
    0%nat, 2%nat, (mkAxis 9 None). vm_compute. split; [reflexivity|]. split; [reflexivity|]. discriminate.
Qed.
(** If the axis is moved while the scan is paused, after on_configure, then the first point that is taken starts where
    the axis was left: the mover thinks that it is at the start. *)
Theorem C98_paused_refuted : exists lower upper c a moved,
  let s := mkAxis moved (a_last (to_start lower c a)) in
  ~ moved == lower c /\ snd (turn (lower c) (upper c) false false s) = [Timed (upper c)] /\ a_pos s = moved.
Proof.
  exists (fun i => inject_Z (Z.of_nat i)), (fun i => inject_Z (Z.of_nat i + 1)), 3%nat, (mkAxis 0 None), 50.
  vm_compute. split; [discriminate|]. split; reflexivity.
Qed.
(** A point at which no axis moves takes no time, whatever its duration: nothing is asked of any axis, so on_run waits for nothing. *)
Theorem C98_still : forall x late swap a, a_last a = Some x -> turn x x late swap a = (a, []).
Proof.
  intros x late swap [p l] H. cbn in H. subst l. unfold turn, point_tasks, maybe_move. cbn [a_last same].
  assert (E : Qeq_bool x x = true) by (apply Qeq_bool_iff; reflexivity). rewrite E. cbn [a_last].
  destruct late; cbn [same]; rewrite E; destruct swap; reflexivity.
Qed.
Example C98_still_ex : a_last (to_start (fun _ => 3) 0 (mkAxis 1 None)) = Some 3.
Proof. reflexivity. Qed.

Print Assumptions C97_ids.
Print Assumptions C97_reader.
Print Assumptions C97_closed.
Print Assumptions C97_run.
Print Assumptions C97_resume.
Print Assumptions C97_progress.
Print Assumptions C97_whole.
Print Assumptions C97_datasets.
Print Assumptions C97_table.
Print Assumptions C98_move.
Print Assumptions C98_move_refuted.
Print Assumptions C98_point.
Print Assumptions C98_run.
Print Assumptions C98_order_refuted.
Print Assumptions C98_paused_refuted.
Print Assumptions C98_still.
