(* C18-C21: arguments, values, tables and tags. *)
From Coq Require Import String Ascii Bool ZArith QArith Lia List.
From Verif Require Import Base Meta_Model Meta_Spec Meta_Proofs.
Import ListNotations.
Local Open Scope string_scope.
Local Open Scope list_scope.
Local Open Scope nat_scope.

(* ---------------- C18 ---------------- *)
(* Accepted exactly when the arguments fit *)
Theorem C18_accepted_exactly mm ps fill : NoDup (map fst (mm_elements mm)) -> NoDup (map fst ps) ->
  (exists args, validate_map mm ps fill = Ok args) <-> fits mm ps fill.
Proof.
  intros Hn Hnp. unfold validate_map, fits. fold (dkeys ps) (dkeys (mm_elements mm)) in *.
  assert (Hget : forall k v, In (k, v) ps <-> dget k ps = Some v)
    by (intros k v; split; [now apply dget_In_nodup|apply dget_Some_In]).
  split.
  - intros (args & H). destruct (forallb _ (dkeys ps)) eqn:E1; [|discriminate].
    destruct (map_args _ ps fill) as [a|] eqn:E2; [|discriminate].
    destruct (forallb _ (mm_required mm)) eqn:E3; [|discriminate].
    rewrite forallb_forall in E1, E3. split; [|split].
    + intros k Hk. apply dmem_In. now apply E1.
    + intros r Hr. specialize (E3 r Hr). apply dmem_In in E3. rewrite (map_args_keys _ _ _ _ E2) in E3.
      apply filter_In in E3 as [A B]. apply orb_true_iff in B as [B|B].
      * right. auto.
      * left. now apply dmem_In.
    + intros k m Hi. pose proof (map_args_get _ _ _ _ k m Hn E2 Hi) as Hg. split.
      * intros v Hv. apply Hget in Hv. rewrite Hv in Hg. destruct Hg as (x & Hx & _). eauto.
      * intros -> Hk. apply dget_None_notin in Hk. rewrite Hk in Hg. destruct Hg as (x & Hx & _). eauto.
  - intros (H1 & H2 & H3).
    assert (E1 : forallb (fun k => dmem k (mm_elements mm)) (dkeys ps) = true).
    { apply forallb_forall. intros k Hk. apply dmem_In. now apply H1. }
    rewrite E1. destruct (map_args_ok (mm_elements mm) ps fill) as (args & E2).
    { intros k m Hi. destruct (H3 k m Hi) as [A B]. split.
      - intros v Hv. apply A. now apply Hget.
      - intros Hf Hk. apply B; [exact Hf|]. now apply dget_None_notin. }
    rewrite E2.
    assert (E3 : forallb (fun k => dmem k args) (mm_required mm) = true).
    { apply forallb_forall. intros r Hr. apply dmem_In. rewrite (map_args_keys _ _ _ _ E2).
      apply filter_In. destruct (H2 r Hr) as [A|[-> A]].
      - split; [now apply H1|]. apply orb_true_iff. right. now apply dmem_In.
      - split; [exact A|reflexivity]. }
    rewrite E3. eauto.
Qed.
Print Assumptions C18_accepted_exactly.

(* The result: declared order, only what was supplied (all of it if asked to fill), each
   value validated by its own meta *)
Theorem C18_result mm ps fill args : NoDup (map fst (mm_elements mm)) ->
  validate_map mm ps fill = Ok args ->
  map fst args = filter (fun k => fill || dmem k ps) (map fst (mm_elements mm)) /\
  forall k m, In (k, m) (mm_elements mm) ->
    match dget k ps with
    | Some v => exists x, m v = Ok x /\ dget k args = Some x
    | None => if fill then exists x, m PNone = Ok x /\ dget k args = Some x else dget k args = None
    end.
Proof.
  intros Hn H. unfold validate_map in H. destruct (forallb _ (dkeys ps)); [|discriminate].
  destruct (map_args _ ps fill) as [a|] eqn:E2; [|discriminate].
  destruct (forallb _ (mm_required mm)); [|discriminate]. injection H as <-. split.
  - exact (map_args_keys _ _ _ _ E2).
  - intros k m Hi. now apply (map_args_get (mm_elements mm)).
Qed.
Print Assumptions C18_result.

(* Validating the result again changes nothing, if each meta does so *)
Theorem C18_idempotent mm ps fill again args : NoDup (map fst (mm_elements mm)) ->
  (forall k m v x, In (k, m) (mm_elements mm) -> m v = Ok x -> m x = Ok x) ->
  validate_map mm ps fill = Ok args -> (again = true -> fill = true) ->
  validate_map mm args again = Ok args.
Proof.
  intros Hn Hid H Hag. unfold validate_map in *. destruct (forallb _ (dkeys ps)); [|discriminate].
  destruct (map_args _ ps fill) as [a|] eqn:E2; [|discriminate].
  destruct (forallb _ (mm_required mm)) eqn:E3; [|discriminate]. injection H as <-.
  assert (E1 : forallb (fun k => dmem k (mm_elements mm)) (dkeys a) = true).
  { apply forallb_forall. intros k Hk. apply dmem_In. rewrite (map_args_keys _ _ _ _ E2) in Hk.
    now apply filter_In in Hk. }
  rewrite E1, (map_args_again _ _ again Hn Hid ps fill E2 Hag), E3. reflexivity.
Qed.
Print Assumptions C18_idempotent.

Definition mm_ex := mkMM [("flag", validate_bool); ("name", validate_string (fun _ => "?"))] ["name"].
Example C18_ex :
  NoDup (map fst (mm_elements mm_ex)) /\
  (forall k m v x, In (k, m) (mm_elements mm_ex) -> m v = Ok x -> m x = Ok x) /\
  validate_map mm_ex [("name", PInt 3); ("flag", PStr "No")] false
  = Ok [("flag", PBool false); ("name", PStr "?")] /\
  validate_map mm_ex [("name", PStr "x")] true = Ok [("flag", PBool false); ("name", PStr "x")] /\
  validate_map mm_ex [("flag", PNone)] false = Err AssertionError /\
  validate_map mm_ex [("name", PStr "x"); ("other", PNone)] false = Err AssertionError.
Proof.
  split; [repeat constructor; cbn; intuition discriminate|]. split; [|repeat split].
  intros k m v x [H|[H|[]]]; injection H as <- <-.
  - unfold validate_bool. destruct (hashable v); [|discriminate].
    destruct (existsb _ _); intros H; injection H as <-; [reflexivity|].
    destruct (truth v); reflexivity.
  - destruct v; cbn [validate_string]; intros H; injection H as <-; reflexivity.
Qed.

(* ---------------- C19 ---------------- *)
(* Whatever is accepted is one of the choices *)
Theorem C19_choice_in_choices cs m v x : set_choices cs = Ok m -> cs <> [] ->
  validate_choice m v = Ok x -> In x cs.
Proof.
  intros Hs Hne H. unfold set_choices in Hs. destruct (add_choices cs 0 None []) as [lk|] eqn:E; [|discriminate].
  injection Hs as <-. unfold validate_choice in H. destruct (hashable v); [|discriminate].
  cbn [cm_lookup] in H. destruct (pget v _) as [y|] eqn:Eg; [|discriminate]. injection H as <-.
  destruct cs as [|c r]; [congruence|]. apply pget_In in Eg as (k & Hk). revert k y Hk.
  apply pset_In; [|now left]. intros k y. apply (add_choices_In (c :: r) 0 None [] lk (c :: r) E); [apply incl_refl|].
  intros a b [].
Qed.
Print Assumptions C19_choice_in_choices.

(* What is accepted: nothing (the first choice), the number of a choice, the choice or the
   string it is known by.  Numbers compare as in Python: True is 1, 1.0 is 1 *)
Theorem C19_choice_accepts cs m v : set_choices cs = Ok m ->
  ((exists x, validate_choice m v = Ok x) <->
   v = PNone \/
   exists i c, nth_error cs i = Some c /\
     ((exists q, as_number v = Some q /\ Qeq q (inject_Z (Z.of_nat i))) \/
      (exists s, known_by c s /\ v = PStr s) \/
      (exists k n w w', v = PEnum k n w /\ c = PEnum k n w'))).
Proof.
  intros Hs. unfold set_choices in Hs. destruct (add_choices cs 0 None []) as [lk|] eqn:E; [|discriminate].
  injection Hs as <-. unfold validate_choice. cbn [cm_lookup].
  pose proof (add_choices_dom cs 0 None [] lk v E) as Hd. cbn [pget plus] in Hd.
  assert (Hnone : forall d w, pget v (pset PNone w d) <> None <-> v = PNone \/ pget v d <> None).
  { intros d w. rewrite pget_pset_iff. apply or_iff_compat_r. unfold key_eq.
    split; [|intros ->; reflexivity]. destruct v; cbn [as_number]; try discriminate. reflexivity. }
  transitivity (hashable v = true /\ pget v (pset PNone (match cs with c :: _ => c | [] => PStr "" end) lk) <> None).
  { split.
    - intros (x & H). destruct (hashable v); [|discriminate]. split; [reflexivity|].
      intros Hg. rewrite Hg in H. discriminate.
    - intros [-> H]. destruct (pget v (pset _ _ _)) as [x|]; [eauto|destruct (H eq_refl)]. }
  rewrite Hnone, Hd. split.
  - intros [Hh [->|[A|(j & c & Hj & Hn)]]]; [now left|congruence|]. right. exists j, c. split; [exact Hj|].
    destruct Hn as [Hn|[Hn|Hn]].
    + left. unfold key_eq in Hn. cbn [as_number] in Hn. destruct (as_number v) as [q|]; [|destruct v; discriminate].
      exists q. split; [reflexivity|]. now apply Qeq_bool_iff.
    + right. unfold key_eq in Hn.
      assert (Hc : exists s, c = PStr s \/ exists k n w, c = PEnum k n w).
      { clear - E Hj. assert (G : forall cs i typ lk0, add_choices cs i typ lk0 = Ok lk -> In c cs ->
          exists s, c = PStr s \/ exists k n w, c = PEnum k n w).
        { induction cs0 as [|x r IH]; intros i typ lk0 H Hi; [destruct Hi|].
          cbn [add_choices] in H. destruct Hi as [->|Hi].
          - destruct c; try discriminate; eauto. exists "". eauto.
          - destruct x; try discriminate.
            + destruct typ; [discriminate|]. eauto.
            + destruct (match typ with Some k' => _ | None => _ end); [|discriminate]. eauto. }
        apply (G cs 0 None [] E). now apply nth_error_In in Hj. }
      destruct Hc as (s & [->|(k & n & w & ->)]).
      * cbn [as_number] in Hn. destruct (as_number v) eqn:Ev; [discriminate|]. destruct v; try discriminate.
        apply String.eqb_eq in Hn. subst. left. exists s. split; reflexivity.
      * cbn [as_number] in Hn. destruct (as_number v) eqn:Ev; [discriminate|]. destruct v; try discriminate.
        apply andb_true_iff in Hn as [A B]. apply Nat.eqb_eq in A. apply String.eqb_eq in B. subst.
        right. eauto 6.
    + right. left. exact Hn.
  - intros [->|(j & c & Hj & H)].
    + split; [reflexivity|now left].
    + destruct H as [(q & Hq & He)|[(s & Hs & ->)|(k & n & w & w' & -> & ->)]].
      * split; [destruct v; try discriminate; reflexivity|]. right. right. exists j, c. split; [exact Hj|].
        left. unfold key_eq. cbn [as_number]. rewrite Hq. now apply Qeq_bool_iff.
      * split; [reflexivity|]. right. right. exists j, c. split; [exact Hj|]. right. right. eauto.
      * split; [reflexivity|]. right. right. eexists j, _. split; [exact Hj|]. right. left.
        unfold key_eq. cbn [as_number]. now rewrite Nat.eqb_refl, String.eqb_refl.
Qed.
Print Assumptions C19_choice_accepts.

(* A valid value is returned as it is: choices of one kind *)
Theorem C19_choice_idempotent cs m v x : set_choices cs = Ok m -> cs <> [] -> one_kind cs ->
  validate_choice m v = Ok x -> validate_choice m x = Ok x.
Proof.
  intros Hs Hne Hk H. pose proof (C19_choice_in_choices cs m v x Hs Hne H) as Hi. clear H.
  unfold set_choices in Hs. destruct (add_choices cs 0 None []) as [lk|] eqn:E; [|discriminate].
  injection Hs as <-. unfold validate_choice. cbn [cm_lookup].
  assert (Hx : (exists s, x = PStr s) \/ exists k n w, x = PEnum k n w).
  { destruct Hk as [Hk|(k & Hk & _)]; [left; auto|right]. destruct (Hk x Hi) as (n & w & ->). eauto. }
  assert (Hh : hashable x = true /\ key_eq x PNone = false)
    by (destruct Hx as [(s & ->)|(k & n & w & ->)]; split; reflexivity).
  destruct Hh as [-> Hkn]. rewrite pget_pset_other by exact Hkn.
  rewrite (add_choices_self cs cs Hk 0 None [] lk E (incl_refl _) x Hi (or_intror Hi)). reflexivity.
Qed.
Print Assumptions C19_choice_idempotent.

(* None gives the first choice *)
Theorem C19_choice_default c r m : set_choices (c :: r) = Ok m -> validate_choice m PNone = Ok c.
Proof.
  intros Hs. unfold set_choices in Hs. destruct (add_choices (c :: r) 0 None []) as [lk|]; [|discriminate].
  injection Hs as <-. unfold validate_choice. cbn [hashable cm_lookup]. now rewrite pget_pset_same.
Qed.
Print Assumptions C19_choice_default.

(* The same for an array of choices *)
Theorem C19_choice_array cs m v l : set_choices cs = Ok m -> cs <> [] -> validate_choices m v = Ok l ->
  (forall x, In x l -> In x cs) /\ (one_kind cs -> validate_choices m (PList l) = Ok l).
Proof.
  intros Hs Hne H.
  assert (Hl : exists vs, Forall2 (fun a b => validate_choice m a = Ok b) vs l).
  { unfold validate_choices in H. destruct v; cbn [elements_of] in H; try discriminate;
      try (apply each_ok in H; eauto). injection H as <-. exists []. constructor. }
  destruct Hl as (vs & Hf). split.
  - intros x Hx. clear H. induction Hf as [|a b l1 l2 Hab Hf IH]; [destruct Hx|].
    destruct Hx as [<-|Hx]; [now apply (C19_choice_in_choices cs m a)|auto].
  - intros Hk. cbn [validate_choices elements_of]. apply each_id. clear H.
    induction Hf as [|a b l1 l2 Hab Hf IH]; constructor; [|exact IH].
    now apply (C19_choice_idempotent cs m a).
Qed.
Print Assumptions C19_choice_array.

(* Booleans: the result is one, valid ones are kept, None is False; what counts as False *)
Theorem C19_boolean v x : validate_bool v = Ok x ->
  exists b, x = PBool b /\ validate_bool x = Ok x /\
    (b = false <-> v = PNone \/ v = PBool false \/ (exists q, as_number v = Some q /\ Qeq q 0) \/
                   v = PStr "" \/ exists s, In s ["0"; "False"; "false"; "FALSE"; "No"; "no"; "NO"] /\ v = PStr s).
Proof.
  unfold validate_bool. destruct (hashable v) eqn:Hh; [|discriminate].
  destruct (existsb _ FALSE_STRINGS) eqn:E; intros H; injection H as <-.
  - exists false. split; [reflexivity|]. split; [reflexivity|]. split; [intros _|reflexivity].
    apply existsb_exists in E as (s & Hs & He). apply key_str in He. right; right; right; right. eauto.
  - exists (truth v). split; [reflexivity|]. split; [destruct (truth v); reflexivity|].
    assert (Hn : forall s, In s FALSE_STRINGS -> v <> PStr s).
    { intros s Hs ->. rewrite <- not_true_iff_false in E. apply E. apply existsb_exists. exists s.
      split; [exact Hs|]. now apply key_str. }
    split.
    + destruct v; cbn [truth hashable] in *; try discriminate; intros H.
      * now left.
      * right; left. now subst.
      * right; right; left. apply negb_false_iff, Z.eqb_eq in H. subst. eexists. split; [reflexivity|]. reflexivity.
      * right; right; left. apply negb_false_iff, Qeq_bool_iff in H. eexists. split; [reflexivity|]. exact H.
      * right; right; right; left. apply negb_false_iff, String.eqb_eq in H. now subst.
    + intros [->|[->|[(q & Hq & Hz)|[->|(s & Hs & ->)]]]]; try reflexivity.
      * destruct v; cbn [as_number] in Hq; try discriminate; injection Hq as <-; cbn [truth].
        -- destruct b; [|reflexivity]. discriminate Hz.
        -- apply negb_false_iff, Z.eqb_eq. unfold Qeq in Hz. cbn in Hz. lia.
        -- apply negb_false_iff. now apply Qeq_bool_iff.
      * exfalso. now apply (Hn s Hs).
Qed.
Print Assumptions C19_boolean.

(* Strings *)
Theorem C19_string pystr v x : validate_string pystr v = Ok x ->
  exists s, x = PStr s /\ validate_string pystr x = Ok x /\ (v = PNone -> s = "") /\
            (forall t, v = PStr t -> s = t).
Proof.
  destruct v; cbn [validate_string]; intros H; injection H as <-; eexists;
    (split; [reflexivity|]; split; [reflexivity|]; split; [congruence|intros t Ht; congruence]).
Qed.
Print Assumptions C19_string.

Definition cs_ex := [PEnum 1 "A" "a"; PEnum 1 "B" "b"].
Example C19_ex : one_kind cs_ex /\ exists m, set_choices cs_ex = Ok m /\
  validate_choice m (PStr "b") = Ok (PEnum 1 "B" "b") /\
  validate_choice m (PInt 0) = Ok (PEnum 1 "A" "a") /\
  validate_choice m (PBool true) = Ok (PEnum 1 "B" "b") /\
  validate_choice m (PStr "c") = Err ValueError /\ validate_choice m (PList []) = Err TypeError /\
  validate_choices m (PList [PStr "a"; PInt 1]) = Ok [PEnum 1 "A" "a"; PEnum 1 "B" "b"].
Proof.
  split.
  - right. exists 1. split.
    + intros c [<-|[<-|[]]]; eauto.
    + intros n v v' [H|[H|[]]] [H'|[H'|[]]]; congruence.
  - eexists. split; [reflexivity|]. repeat split.
Qed.
Example C19_bool_ex : validate_bool (PStr "no") = Ok (PBool false) /\ validate_bool (PStr "nO") = Ok (PBool true)
  /\ validate_string (fun _ => "3") (PInt 3) = Ok (PStr "3").
Proof. repeat split. Qed.

(* With no choices the default is the empty string, which is then refused itself *)
Theorem C19_no_choices_refuted : exists m, set_choices [] = Ok m /\
  validate_choice m PNone = Ok (PStr "") /\ validate_choice m (PStr "") = Err ValueError.
Proof. eexists. split; [reflexivity|]. split; reflexivity. Qed.
Print Assumptions C19_no_choices_refuted.
(* A string together with an Enum member of that value: the string choice can not be kept *)
Theorem C19_mixed_choices_refuted : exists cs m x, set_choices cs = Ok m /\ In x cs /\
  validate_choice m (PInt 0) = Ok x /\ validate_choice m x <> Ok x.
Proof.
  exists [PStr "a"; PEnum 1 "A" "a"]. eexists. exists (PStr "a"). split; [reflexivity|].
  split; [now left|]. split; [reflexivity|]. vm_compute. discriminate.
Qed.
Print Assumptions C19_mixed_choices_refuted.

(* ---------------- C20 ---------------- *)
(* An accepted table has the declared columns, in order, all of one length *)
Theorem C20_accepted_is_rectangular es v t : validate_table es v = Ok t ->
  map fst t = map fst es /\ exists n, rect t n.
Proof.
  unfold validate_table. destruct (match v with PNone => _ | _ => _ end) as [d|]; [|discriminate].
  destruct (_ && _); [|discriminate]. destruct (table_args es d) as [t0|] eqn:E; [|discriminate].
  destruct (same_lengths t0) eqn:El; [|discriminate]. intros H. injection H as <-.
  split; [|now apply same_lengths_spec]. clear El. revert t0 E.
  induction es as [|[k m] r IH]; intros t0 E; cbn [table_args] in E.
  - injection E as <-. reflexivity.
  - destruct (dget k d) as [x|]; [|discriminate]. destruct (m x); [|discriminate].
    destruct (table_args r d); [|discriminate]. injection E as <-. cbn [map fst]. f_equal. now apply IH.
Qed.
Print Assumptions C20_accepted_is_rectangular.

(* Validating an accepted table again gives the same one, if each column does so *)
Theorem C20_idempotent es v t : NoDup (map fst es) -> ~ In "typeid" (map fst es) ->
  (forall k m x l, In (k, m) es -> m x = Ok l -> m (PList l) = Ok l) ->
  validate_table es v = Ok t -> validate_table es (PTable t) = Ok t.
Proof.
  intros Hn Hty Hid H. destruct (C20_accepted_is_rectangular es v t H) as [Hk [n Hr]].
  unfold validate_table in *. destruct (match v with PNone => _ | _ => _ end) as [d|]; [|discriminate].
  destruct (_ && _); [|discriminate]. destruct (table_args es d) as [t0|] eqn:E; [|discriminate].
  destruct (same_lengths t0) eqn:El; [|discriminate]. injection H as <-.
  set (d' := map (fun kc => (fst kc, PList (snd kc))) t0).
  assert (Hkd : dkeys d' = dkeys es) by (unfold dkeys, d'; rewrite map_map; exact Hk).
  assert (Hf : filter (fun k => negb (String.eqb k "typeid")) (dkeys d') = dkeys es).
  { rewrite Hkd. unfold dkeys. clear - Hty. induction (map fst es) as [|k r IH]; [reflexivity|].
    cbn [filter]. destruct (String.eqb_spec k "typeid") as [->|Hne]; [exfalso; apply Hty; now left|].
    cbn [negb]. f_equal. apply IH. intros Hi. apply Hty. now right. }
  rewrite Hf.
  assert (B1 : forallb (fun k => smem k (dkeys es)) (dkeys es) = true)
    by (apply forallb_forall; intros k Hi; now apply smem_In).
  assert (B2 : forallb (fun k => dmem k es) (dkeys es) = true)
    by (apply forallb_forall; intros k Hi; now apply dmem_In).
  rewrite B1, B2. cbn [andb].
  assert (E' : table_args es d' = Ok t0).
  { assert (G : forall es0 t1, incl es0 es -> NoDup (dkeys es0) -> table_args es0 d = Ok t1 ->
      (forall k c, In (k, c) t1 -> dget k d' = Some (PList c)) -> table_args es0 d' = Ok t1).
    { induction es0 as [|[k m] r IH]; intros t1 Hin Hn0 H1 Hg; cbn [table_args] in *; [exact H1|].
      inversion Hn0 as [|a b Ha Hb]; subst. destruct (dget k d) as [x|]; [|discriminate].
      destruct (m x) as [l|] eqn:Em; [|discriminate]. destruct (table_args r d) as [t2|]; [|discriminate].
      injection H1 as <-. rewrite (Hg k l (or_introl eq_refl)), (Hid k m x l (Hin _ (or_introl eq_refl)) Em).
      rewrite (IH t2); auto.
      - intros z Hz. apply Hin. now right.
      - intros k' c' Hc. apply Hg. now right. }
    apply G; auto; [apply incl_refl|]. intros k c Hc. apply dget_In_nodup.
    - rewrite Hkd. exact Hn.
    - unfold d'. apply in_map_iff. exists (k, c). auto. }
  rewrite E', El. reflexivity.
Qed.
Print Assumptions C20_idempotent.

(* one row: of each column the value with that number, counted from the end if negative; no row of a table
   whose columns differ in length *)
Definition number_in (n : nat) (i : Z) (j : nat) : Prop :=
  (0 <= i /\ i = Z.of_nat j \/ i < 0 /\ i = Z.of_nat j - Z.of_nat n)%Z /\ j < n.
Theorem C20_row t n i j : rect t n -> number_in n i j ->
  exists xs, table_row t i = Ok xs /\ Forall2 (fun kc x => nth_error (snd kc) j = Some x) t xs.
Proof.
  intros Hr [Hi Hj]. unfold table_row. assert (El : same_lengths t = true) by (apply same_lengths_spec; eauto). rewrite El.
  destruct Hr as [_ Hr]. revert Hr. clear El. induction t as [|[k c] r IH]; intros Hr; cbn [row_of]; [exists []; split; [reflexivity|constructor]|].
  assert (Hc : length c = n) by (apply (Hr k); now left).
  assert (E : exists x, index c i = Ok x /\ nth_error c j = Some x).
  { unfold index. rewrite Hc. cbn zeta.
    assert (Ej : (if Z.ltb i 0 then i + Z.of_nat n else i)%Z = Z.of_nat j) by (destruct (Z.ltb_spec i 0); lia).
    rewrite Ej. destruct (Z.ltb_spec (Z.of_nat j) 0); [lia|]. rewrite Nat2Z.id.
    destruct (nth_error c j) as [x|] eqn:N; [eauto|]. apply nth_error_None in N. lia. }
  destruct E as (x & -> & N). destruct IH as (xs & -> & F); [intros k' c' I; apply (Hr k'); now right|].
  exists (x :: xs). split; [reflexivity|]. constructor; assumption.
Qed.
Print Assumptions C20_row.
Theorem C20_no_row t i k1 c1 k2 c2 : In (k1, c1) t -> In (k2, c2) t -> length c1 <> length c2 ->
  table_row t i = Err AssertionError /\ table_rows t = Err AssertionError.
Proof.
  intros I1 I2 N. assert (E : same_lengths t = false).
  { apply not_true_iff_false. intros E. apply same_lengths_spec in E as (n & _ & E).
    apply N. rewrite (E _ _ I1), (E _ _ I2). reflexivity. }
  unfold table_row, table_rows. rewrite E. auto.
Qed.
Print Assumptions C20_no_row.
Example C20_ex_row : let t := [("a", [PInt 1; PInt 2; PInt 3]); ("b", [PStr "x"; PStr "y"; PStr "z"])] in
  number_in 3 (-1) 2 /\ table_row t (-1) = Ok [PInt 3; PStr "z"] /\ table_row (("c", [PInt 1]) :: t) 0 = Err AssertionError.
Proof. unfold number_in. split; [lia|]. split; reflexivity. Qed.

(* to rows and back *)
Theorem C20_rows_round_trip t n : rect t n -> NoDup (map fst t) ->
  exists rs, table_rows t = Ok rs /\ length rs = n /\ from_rows (map fst t) rs = t.
Proof.
  intros Hr Hn. unfold table_rows. assert (El : same_lengths t = true) by (apply same_lengths_spec; eauto).
  rewrite El. destruct t as [|[k0 c0] r] eqn:Et; [destruct Hr; congruence|]. rewrite <- Et in *.
  destruct Hr as [_ Hr].
  assert (Hc0 : length c0 = n) by (apply (Hr k0); rewrite Et; now left).
  assert (Hcols : forall c, In c (map snd t) -> length c = n).
  { intros c Hc. apply in_map_iff in Hc as ([k c'] & <- & Hc). now apply (Hr k). }
  eexists. split; [reflexivity|]. rewrite Hc0. split; [now apply zip_rows_length|].
  assert (Hlen : length (zip_rows n (map snd t)) = n) by now apply zip_rows_length.
  rewrite from_rows_spec; [|exact Hn|].
  - rewrite map_length. apply nth_ext with (d := ("", [])) (d' := ("", [])).
    { now rewrite map_length, seq_length. }
    intros i Hi. rewrite map_length, seq_length in Hi.
    rewrite nth_indep with (d' := (fun i => (nth i (map fst t) "", map (fun r => nth i r PNone) (zip_rows n (map snd t)))) 0)
      by (rewrite map_length, seq_length; exact Hi).
    rewrite (map_nth (fun i => (nth i (map fst t) "", map (fun r => nth i r PNone) (zip_rows n (map snd t))))).
    rewrite seq_nth by exact Hi. cbn [plus].
    rewrite (map_nth fst t ("", []) i : nth i (map fst t) "" = _).
    assert (Hin : In (nth i t ("", [])) t) by now apply nth_In.
    destruct (nth i t ("", [])) as [k c] eqn:Ei. cbn [fst]. f_equal.
    assert (Hc : length c = n) by now apply (Hr k).
    apply nth_ext with (d := PNone) (d' := PNone); [now rewrite map_length, Hlen|].
    intros j Hj. rewrite map_length, Hlen in Hj.
    assert (Hz := zip_rows_nth n (map snd t) j Hcols Hj).
    rewrite nth_indep with (d' := (fun r => nth i r PNone) []) by (rewrite map_length; lia).
    rewrite (map_nth (fun r => nth i r PNone)). rewrite (nth_error_nth _ _ [] Hz).
    rewrite map_map.
    rewrite nth_indep with (d' := (fun x : string * list pv => nth j (snd x) PNone) ("", []))
      by (rewrite map_length; exact Hi).
    rewrite (map_nth (fun x : string * list pv => nth j (snd x) PNone)). now rewrite Ei.
  - intros r0 Hr0. apply In_nth_error in Hr0 as (j & Hj).
    assert (Hjn : j < n) by (rewrite <- Hlen; apply nth_error_Some; congruence).
    rewrite (zip_rows_nth n _ j Hcols Hjn) in Hj. injection Hj as <-. now rewrite !map_length.
Qed.
Print Assumptions C20_rows_round_trip.

(* from rows and back *)
Theorem C20_from_rows_round_trip keys rs : keys <> [] -> NoDup keys ->
  (forall r, In r rs -> length r = length keys) ->
  table_rows (from_rows keys rs) = Ok rs.
Proof.
  intros Hne Hn Hl. rewrite from_rows_spec by auto. unfold table_rows.
  assert (Hrect : rect (map (fun i => (nth i keys "", map (fun r => nth i r PNone) rs)) (seq 0 (length keys))) (length rs)).
  { split; [destruct keys; [congruence|discriminate]|]. intros k c Hi. apply in_map_iff in Hi as (i & He & _).
    injection He as <- <-. apply map_length. }
  assert (El : same_lengths (map (fun i => (nth i keys "", map (fun r => nth i r PNone) rs)) (seq 0 (length keys))) = true)
    by (apply same_lengths_spec; eauto).
  rewrite El. destruct keys as [|k0 ks]; [congruence|]. cbn [length seq map].
  rewrite map_length. f_equal.
  set (cols := map (fun r => nth 0 r PNone) rs :: map snd (map (fun i => (nth i (k0 :: ks) "", map (fun r => nth i r PNone) rs)) (seq 1 (length ks)))).
  assert (Hc : cols = map (fun i => map (fun r => nth i r PNone) rs) (seq 0 (S (length ks)))).
  { unfold cols. cbn [seq map]. rewrite map_map. reflexivity. }
  cbn [snd]. fold cols. rewrite Hc.
  assert (Hcl : forall c, In c (map (fun i => map (fun r => nth i r PNone) rs) (seq 0 (S (length ks)))) -> length c = length rs).
  { intros c Hi. apply in_map_iff in Hi as (i & <- & _). apply map_length. }
  apply nth_ext with (d := []) (d' := []); [now apply zip_rows_length|].
  intros j Hj. rewrite zip_rows_length in Hj by exact Hcl.
  rewrite (nth_error_nth _ _ [] (zip_rows_nth _ _ _ Hcl Hj)). rewrite map_map.
  assert (Hr : length (nth j rs []) = S (length ks)) by (apply Hl; now apply nth_In).
  apply nth_ext with (d := PNone) (d' := PNone); [now rewrite map_length, seq_length|].
  intros i Hi. rewrite map_length, seq_length in Hi.
  rewrite nth_indep with (d' := (fun i => nth j (map (fun r => nth i r PNone) rs) PNone) 0)
    by (rewrite map_length, seq_length; exact Hi).
  rewrite (map_nth (fun i => nth j (map (fun r => nth i r PNone) rs) PNone)), seq_nth by exact Hi.
  cbn [plus]. rewrite nth_indep with (d' := (fun r => nth i r PNone) []) by (rewrite map_length; exact Hj).
  rewrite (map_nth (fun r => nth i r PNone)). reflexivity.
Qed.
Print Assumptions C20_from_rows_round_trip.

(* one row by its number, counted from the end if negative *)
Theorem C20_single_row t n rs i : rect t n -> table_rows t = Ok rs ->
  table_row t i =
  (if ((- Z.of_nat n <=? i) && (i <? Z.of_nat n))%Z
   then match nth_error rs (Z.to_nat (if (i <? 0)%Z then i + Z.of_nat n else i)) with
        | Some r => Ok r | None => Err IndexError end
   else Err IndexError).
Proof.
  intros Hr H. unfold table_rows, table_row in *.
  assert (El : same_lengths t = true) by (apply same_lengths_spec; eauto). rewrite El in *.
  destruct t as [|[k0 c0] r0] eqn:Et; [destruct Hr; congruence|]. rewrite <- Et in *.
  assert (Hne : t <> []) by (rewrite Et; discriminate).
  destruct Hr as [_ Hr].
  assert (Hc0 : length c0 = n) by (apply (Hr k0); rewrite Et; now left).
  rewrite Hc0 in H.
  assert (Hcols : forall c, In c (map snd t) -> length c = n).
  { intros c Hc. apply in_map_iff in Hc as ([k c'] & <- & Hc). now apply (Hr k). }
  assert (Hrs : rs = zip_rows n (map snd t)) by congruence. subst rs. clear H Et El.
  assert (Hidx : forall c, length c = n -> index c i =
    if ((- Z.of_nat n <=? i) && (i <? Z.of_nat n))%Z
    then Ok (nth (Z.to_nat (if (i <? 0)%Z then i + Z.of_nat n else i)) c PNone) else Err IndexError).
  { intros c Hc. unfold index. rewrite Hc.
    destruct (Z.ltb_spec i 0).
    - destruct (Z.leb_spec (- Z.of_nat n) i); cbn [andb].
      + destruct (Z.ltb_spec i (Z.of_nat n)); [|lia]. destruct (Z.ltb_spec (i + Z.of_nat n) 0); [lia|].
        rewrite (nth_error_nth' c PNone) by lia. reflexivity.
      + destruct (Z.ltb_spec (i + Z.of_nat n) 0); [reflexivity|lia].
    - destruct (Z.leb_spec (- Z.of_nat n) i); cbn [andb]; [|lia].
      destruct (Z.ltb_spec i 0); [lia|]. destruct (Z.ltb_spec i (Z.of_nat n)).
      + rewrite (nth_error_nth' c PNone) by lia. reflexivity.
      + destruct (nth_error c (Z.to_nat i)) eqn:E; [|reflexivity].
        assert (Z.to_nat i < length c) by (apply nth_error_Some; congruence). lia. }
  destruct ((- Z.of_nat n <=? i) && (i <? Z.of_nat n))%Z eqn:Eb.
  - apply andb_true_iff in Eb as [E1 E2]. apply Z.leb_le in E1. apply Z.ltb_lt in E2.
    rewrite (zip_rows_nth n _ _ Hcols); [|destruct (Z.ltb_spec i 0); lia].
    set (j := Z.to_nat _) in *. clearbody j. clear Hne Hc0 Hcols k0 c0 r0.
    induction t as [|[k c] r IH]; cbn [row_of map snd]; [reflexivity|].
    rewrite (Hidx c) by (apply (Hr k); now left). rewrite IH; [reflexivity|].
    intros k' c' Hi. apply (Hr k'). now right.
  - destruct t as [|[k c] r]; [congruence|]. cbn [row_of]. rewrite (Hidx c) by (apply (Hr k); now left).
    reflexivity.
Qed.
Print Assumptions C20_single_row.

Definition t_ex : table := [("a", [PInt 1; PInt 2]); ("b", [PStr "x"; PStr "y"])].
Example C20_ex : rect t_ex 2 /\ NoDup (map fst t_ex) /\
  table_rows t_ex = Ok [[PInt 1; PStr "x"]; [PInt 2; PStr "y"]] /\
  table_row t_ex (-1) = Ok [PInt 2; PStr "y"] /\ table_row t_ex 2 = Err IndexError /\
  validate_table [("a", fun v => match v with PList l => Ok l | _ => Err TypeError end);
                  ("b", fun v => match v with PList l => Ok l | _ => Err TypeError end)]
    (PDict [("typeid", PStr "malcolm:core/Table:1.0"); ("b", PList [PStr "x"; PStr "y"]); ("a", PList [PInt 1; PInt 2])])
  = Ok t_ex.
Proof.
  split; [|split; [repeat constructor; cbn; intuition discriminate|repeat split]].
  split; [discriminate|]. intros k c [H|[H|[]]]; injection H as <- <-; reflexivity.
Qed.

(* from_rows checks nothing: a short row gives a table that is not rectangular *)
Theorem C20_short_row_refuted : exists keys rs, keys <> [] /\ NoDup keys /\
  table_rows (from_rows keys rs) = Err AssertionError.
Proof.
  exists ["a"; "b"], [[PInt 1; PInt 2]; [PInt 3]]. split; [discriminate|].
  split; [repeat constructor; cbn; intuition discriminate|]. reflexivity.
Qed.
Print Assumptions C20_short_row_refuted.
(* A table attribute without columns accepts nothing, not even its own default *)
Theorem C20_no_columns_refuted : validate_table [] PNone = Err AssertionError.
Proof. reflexivity. Qed.
Print Assumptions C20_no_columns_refuted.

(* ---------------- C21 ---------------- *)
(* A port tag parses back to what it was made of, wherever it is among tags that are no port tags *)
Theorem C21_port_tag_round_trip b p v before rest :
  no_char ":"%char v -> no_char "010"%char v ->
  (forall t, In t before -> starts_with "sourcePort:" t = false /\ starts_with "sinkPort:" t = false) ->
  port_tag_details (before ++ port_tag b p v :: rest) = Ok (Some (b, p, v)).
Proof.
  intros Hc Hn Hb. induction before as [|t r IH]; cbn [app port_tag_details].
  - now rewrite port_match_tag, port_of_value.
  - destruct (Hb t (or_introl eq_refl)) as [H1 H2]. unfold starts_with in H1, H2. unfold port_match.
    destruct (after "sourcePort:" t); [discriminate|]. destruct (after "sinkPort:" t); [discriminate|].
    apply IH. intros x Hx. apply Hb. now right.
Qed.
Print Assumptions C21_port_tag_round_trip.

(* Making a source port: every other tag is kept, in order, and it is the only source port *)
Theorem C21_with_source_port p tags v :
  let out := with_source_port_tag p tags v in
  (exists pre, out = pre ++ [port_tag true p v] /\
     pre = filter (fun t => negb (starts_with "sourcePort:" t)) tags) /\
  (forall t, In t out -> starts_with "sourcePort:" t = true -> t = port_tag true p v) /\
  (no_char ":"%char v -> no_char "010"%char v ->
   (forall t, In t tags -> starts_with "sinkPort:" t = false) ->
   port_tag_details out = Ok (Some (true, p, v))).
Proof.
  intros out. unfold out, with_source_port_tag. split; [eauto|]. split.
  - intros t Hi Hs. apply in_app_or in Hi as [Hi|[<-|[]]]; [|reflexivity].
    apply filter_In in Hi as [_ Hi]. rewrite Hs in Hi. discriminate.
  - intros Hc Hn Hk. apply C21_port_tag_round_trip; auto. intros t Hi. apply filter_In in Hi as [A B].
    split; [now apply negb_true_iff|now apply Hk].
Qed.
Print Assumptions C21_with_source_port.

(* Removing tags by prefix: exactly those go, the others stay in order; a second removal does
   nothing *)
Theorem C21_without_tags prefix tags :
  let out := without_tags prefix tags in
  (forall t, In t out <-> In t tags /\ starts_with prefix t = false) /\
  (forall a t b u c, tags = a ++ t :: b ++ u :: c -> In t out -> In u out ->
     exists a' b' c', out = a' ++ t :: b' ++ u :: c') /\
  without_tags prefix out = out.
Proof.
  intros out. unfold out, without_tags. split; [|split].
  - intros t. rewrite filter_In, negb_true_iff. reflexivity.
  - intros a t b u c -> Ht Hu. rewrite filter_In in Ht, Hu. destruct Ht as [_ Ht], Hu as [_ Hu].
    rewrite filter_app. cbn [filter]. rewrite Ht, filter_app. cbn [filter]. rewrite Hu. eauto.
  - induction tags as [|t r IH]; cbn [filter]; [reflexivity|].
    destruct (negb (starts_with prefix t)) eqn:E; cbn [filter]; [rewrite E; now f_equal|exact IH].
Qed.
Print Assumptions C21_without_tags.

(* The config tag found is the first one, and it is found if there is one *)
Theorem C21_config_tag tags :
  match get_config_tag tags with
  | Some t => exists a b, tags = a ++ t :: b /\ starts_with "config:" t = true /\
                          forall u, In u a -> starts_with "config:" u = false
  | None => forall u, In u tags -> starts_with "config:" u = false
  end.
Proof.
  induction tags as [|t r IH]; cbn [get_config_tag]; [intros u []|].
  destruct (starts_with "config:" t) eqn:E.
  - exists [], r. split; [reflexivity|]. split; [exact E|]. intros u [].
  - destruct (get_config_tag r) as [x|].
    + destruct IH as (a & b & -> & Hx & Hu). exists (t :: a), b. split; [reflexivity|]. split; [exact Hx|].
      intros u [<-|Hi]; auto.
    + intros u [<-|Hi]; auto.
Qed.
Print Assumptions C21_config_tag.

Example C21_ex :
  port_tag_details ["widget:combo"; port_tag false BOOL "ZERO"; "config:1"] = Ok (Some (false, BOOL, "ZERO")) /\
  no_char ":"%char "SEQ1.OUTA" /\ no_char "010"%char "SEQ1.OUTA" /\
  with_source_port_tag BOOL ["sourcePort:bool:X"; "config:1"] "SEQ1.OUTA" = ["config:1"; "sourcePort:bool:SEQ1.OUTA"] /\
  without_tags "group:" ["group:a"; "config:1"; "group:b"] = ["config:1"].
Proof. repeat split; try reflexivity; unfold no_char; cbn; intuition discriminate. Qed.

(* A colon in the value: the pattern is greedy, so the kind of port is not found and reading
   the tags raises.  A manager block makes such a tag of its own mri
   (managercontroller.py 101) *)
Theorem C21_colon_refuted : exists p v, no_char "010"%char v /\
  port_tag_details [port_tag true p v] = Err ValueError.
Proof.
  exists BLOCK, "BL45P:ML:SCAN". split; [unfold no_char; cbn; intuition discriminate|reflexivity].
Qed.
Print Assumptions C21_colon_refuted.
(* A newline in the value cuts it *)
Theorem C21_newline_refuted : exists p v, no_char ":"%char v /\
  port_tag_details [port_tag true p v] = Ok (Some (true, p, "a")) /\ v <> "a".
Proof.
  exists BLOCK, ("a" ++ String "010"%char "b")%string.
  split; [unfold no_char; cbn; intuition discriminate|]. split; [reflexivity|discriminate].
Qed.
Print Assumptions C21_newline_refuted.
