(* C72 and C73: the attributes of a PandA block show its fields, and the changes of the device reach them. *)
From Coq Require Import String Ascii Bool Arith Lia List Permutation Sorted.
From Verif Require Import Base PField_Model PField_Spec PField_Proofs PField_Names.
From Verif Require Savu_Model Savu_Proofs Reg_Model Meta_Model Bus_Model.
Import ListNotations.
Local Open Scope string_scope.
Local Open Scope list_scope.
Local Open Scope nat_scope.

(* ---- C72 ---- *)
(* Names are compared with HEALTH, and its value with OK, letter by letter, small letters as capitals. *)
Definition capital_of (c : ascii) : ascii :=
  match In_dec ascii_dec c (list_ascii_of_string "abcdefghijklmnopqrstuvwxyz") with
  | left _ => ascii_of_nat (nat_of_ascii c - 32) | right _ => c end.
Theorem C72_upper : forall s, list_ascii_of_string (to_upper s) = map capital_of (list_ascii_of_string s).
Proof.
  induction s as [|c r IH]; cbn [to_upper list_ascii_of_string map]; [reflexivity|]. rewrite IH. f_equal. clear.
  destruct c as [[] [] [] [] [] [] [] []]; vm_compute; reflexivity.
Qed.
Print Assumptions C72_upper.
Example C72_upper_ex : to_upper "Health" = "HEALTH" /\ to_upper "o2_k{" = "O2_K{".
Proof. split; reflexivity. Qed.

(* Of each field everything that the device reports is shown as its type asks for, or left to the busses. *)
Theorem C72_fields : forall fs b, make_block fs = Ok b ->
  NoDup (map fst fs) -> (forall f d, In (f, d) fs -> free "." f) ->
  forall f d x h, In (f, d) fs -> to_upper f <> "HEALTH" -> shows d x h ->
    dget (f +++ x) (b_fields b) = Some h.
Proof.
  intros fs b H N F f d x h I NH S. destruct (make_all_fields _ _ _ H) as [E _]. rewrite E.
  apply dget_dsets_in; [now apply all_nodup|]. apply in_flat_map. exists (f, d). split; [assumption|].
  cbn. apply entries_shows. eauto.
Qed.
Print Assumptions C72_fields.

(* And nothing else, but the label. *)
Theorem C72_only : forall fs b, make_block fs = Ok b ->
  NoDup (map fst fs) -> (forall f d, In (f, d) fs -> free "." f) ->
  forall k h, dget k (b_fields b) = Some h ->
    k = "LABEL" /\ h = Some HLabel \/ exists f d x, In (f, d) fs /\ k = f +++ x /\ shows d x h.
Proof.
  intros fs b H N F k h D. destruct (make_all_fields _ _ _ H) as [E _]. rewrite E in D.
  set (l := flat_map (fun fd => entries (fst fd) (snd fd)) fs) in *.
  destruct (in_dec String.string_dec k (map fst l)) as [I|I].
  - apply in_map_iff in I. destruct I as ([k' h'] & A & I). cbn in A. subst k'.
    rewrite (dget_dsets_in l _ k h') in D; [|now apply all_nodup|assumption]. injection D as ->.
    right. unfold l in I. apply in_flat_map in I. destruct I as ([f d] & I1 & I2). cbn in I2.
    apply entries_shows in I2. destruct I2 as (_ & x & A & B). eauto 10.
  - rewrite dget_dsets_other in D by assumption. left. cbn in D.
    destruct (String.eqb k "LABEL") eqn:K; [|discriminate]. apply String.eqb_eq in K. split; congruence.
Qed.
Print Assumptions C72_only.

(* The attributes and methods of the block have different names, all in camel case, and each field part has one
   made from its own name. *)
Theorem C72_names : forall fs b, make_block fs = Ok b ->
  NoDup (b_names b) /\ (forall a, In a (b_names b) -> Reg_Model.camel a = true)
  /\ forall k kind w c, dget k (b_fields b) = Some (Some (HField kind w c)) ->
       exists a, snake_to_camel (underscored k) = Some a /\ In a (b_names b).
Proof.
  intros fs b H. destruct (names_all fs common b H names_common) as (A & _ & _ & B & C). eauto.
Qed.
Print Assumptions C72_names.

(* The label is not lost to a field. *)
Definition labelled (b : blk) : Prop := In "label" (b_names b) /\ dget "LABEL" (b_fields b) = Some (Some HLabel).
Lemma labelled_add name attr b b' : add_part name attr b = Ok b' -> labelled b -> labelled b' /\ attr <> Some "label".
Proof.
  unfold add_part, labelled. destruct (negb (part_name_ok name)); [discriminate|]. destruct (smem name (b_parts b)); [discriminate|].
  destruct attr as [a|]; [|discriminate]. destruct (negb (Reg_Model.camel a)); [discriminate|].
  destruct (smem a (b_names b)) eqn:M; [discriminate|]. intros E [L F]. injection E as <-. cbn [b_names b_fields].
  apply smem_false in M. split; [split; [apply in_or_app; left; exact L|exact F]|congruence].
Qed.
Lemma labelled_set k h b : k <> "LABEL" -> labelled b -> labelled (set_field_part k h b).
Proof. intros N [L F]. split; [exact L|]. cbn [set_field_part b_fields]. rewrite dget_dset_other; [exact F|congruence]. Qed.
Lemma labelled_group a b b' : make_group a b = Ok b' -> labelled b -> labelled b'.
Proof.
  unfold make_group. destruct (smem a (b_parts b)); [intros E; injection E as <-; auto|].
  intros E L. exact (proj1 (labelled_add _ _ _ _ E L)).
Qed.
Lemma bind_ok {A B} (r : result berr A) (f : A -> result berr B) x : bind r f = Ok x -> exists a, r = Ok a /\ f a = Ok x.
Proof. destruct r as [a|]; cbn; [eauto|discriminate]. Qed.
Lemma labelled_field f k w i b b' : make_field_part f k w i b = Ok b' -> labelled b -> labelled b'.
Proof.
  unfold make_field_part. intros E L. apply bind_ok in E as (c & E1 & E2). injection E2 as <-.
  destruct (labelled_add _ _ _ _ E1 L) as [L' N]. apply labelled_set; [|exact L']. intros ->. apply N. reflexivity.
Qed.
Lemma dotted f x : (f +++ String "."%char x)%string <> "LABEL".
Proof.
  assert (H : forall a y, free "." (a +++ String "."%char y) -> False).
  { induction a as [|c a IH]; cbn; [tauto|]. intros y [_ F]. exact (IH y F). }
  intros E. apply (H f x). rewrite E. cbn. repeat (split; [discriminate|]). exact I.
Qed.
Lemma labelled_parts f d b b' : make_parts_for f d b = Ok b' -> labelled b -> labelled b'.
Proof.
  unfold make_parts_for. destruct (String.eqb (to_upper f) "HEALTH"); [intros E; injection E as <-; auto|]. cbn zeta.
  assert (Out : forall t c c', make_out f t c = Ok c' -> labelled c -> labelled c').
  { unfold make_out. intros t c c' E L. apply bind_ok in E as (c1 & E1 & E2). destruct (make_meta t []); [|discriminate].
    exact (labelled_field _ _ _ _ _ _ E2 (labelled_group _ _ _ E1 L)). }
  assert (Mux : forall c c', make_mux f d c = Ok c' -> labelled c -> labelled c').
  { unfold make_mux. intros c c' E L. apply bind_ok in E as (c1 & E1 & E2). apply bind_ok in E2 as (c2 & E2 & E3). injection E3 as <-.
    pose proof (labelled_field _ _ _ _ _ _ E2 (labelled_group _ _ _ E1 L)) as [A B]. split; [exact A|exact B]. }
  destruct (_ || _).
  { unfold make_time. intros E L. apply bind_ok in E as (c1 & E1 & E2). apply bind_ok in E2 as (c2 & E2 & E3).
    exact (labelled_field _ _ _ _ _ _ E3 (labelled_field _ _ _ _ _ _ E2 (labelled_group _ _ _ E1 L))). }
  destruct (_ && _).
  { unfold make_action. intros E L. apply bind_ok in E as (c1 & E1 & E2). exact (proj1 (labelled_add _ _ _ _ E2 (labelled_group _ _ _ E1 L))). }
  destruct (smem _ _).
  { unfold make_param. intros E L. apply bind_ok in E as (c1 & E1 & E2). destruct (make_meta _ _); [|discriminate].
    exact (labelled_field _ _ _ _ _ _ E2 (labelled_group _ _ _ E1 L)). }
  destruct (String.eqb (f_type d) "bit_out"); [apply Out|].
  destruct (String.eqb (f_type d) "pos_out").
  { intros E L. apply bind_ok in E as (c1 & E1 & E2). injection E2 as <-. pose proof (Out _ _ _ E1 L) as L1. clear - L1.
    unfold pos_suffixes. cbn [fold_left]. repeat (apply labelled_set; [apply dotted|]). exact L1. }
  destruct (String.eqb (f_type d) "ext_out").
  { destruct (String.eqb (f_sub d) "bits").
    - intros E L. injection E as <-. apply labelled_set; [apply dotted|exact L].
    - unfold make_ext_capture. intros E L. apply bind_ok in E as (c1 & E1 & E2).
      exact (labelled_field _ _ _ _ _ _ E2 (labelled_group _ _ _ E1 L)). }
  destruct (String.eqb (f_type d) "bit_mux").
  { intros E L. apply bind_ok in E as (c1 & E1 & E2). unfold make_mux_delay in E2. apply bind_ok in E2 as (c2 & E2 & E3).
    exact (labelled_field _ _ _ _ _ _ E3 (labelled_group _ _ _ E2 (Mux _ _ E1 L))). }
  destruct (String.eqb (f_type d) "pos_mux"); [apply Mux|].
  destruct (String.eqb (f_type d) "table"); [|discriminate].
  unfold make_table. intros E L. apply bind_ok in E as (c1 & E1 & E2). apply bind_ok in E2 as (c2 & E2 & E3). injection E3 as <-.
  destruct (labelled_add _ _ _ _ E2 (labelled_group _ _ _ E1 L)) as [L' N]. apply labelled_set; [|exact L'].
  intros ->. apply N. reflexivity.
Qed.
Theorem C72_label : forall fs b, make_block fs = Ok b -> dget "LABEL" (b_fields b) = Some (Some HLabel) /\ In "label" (b_names b).
Proof.
  intros fs b E. assert (L : labelled b).
  { unfold make_block in E. assert (L0 : labelled common) by (split; [cbn; tauto|reflexivity]).
    revert E L0. generalize common. induction fs as [|[f d] fs IH]; intros c E L; cbn [make_all] in E.
    - injection E as <-. exact L.
    - apply bind_ok in E as (c1 & E1 & E2). exact (IH _ E2 (labelled_parts _ _ _ _ E1 L)). }
  destruct L; auto.
Qed.
Print Assumptions C72_label.

(* The muxes are the fields of these types. *)
Theorem C72_muxes : forall fs b, make_block fs = Ok b ->
  forall f, In f (b_muxes b) <-> exists d, In (f, d) fs /\ to_upper f <> "HEALTH" /\ is_mux d.
Proof.
  intros fs b H f. destruct (make_all_fields _ _ _ H) as [_ E]. rewrite E. cbn [common b_muxes app].
  rewrite in_flat_map. unfold muxes, is_mux. split.
  - intros ([f' d] & I & X). cbn in X. destruct (String.eqb (to_upper f') "HEALTH") eqn:HE; [destruct X|].
    apply String.eqb_neq in HE.
    destruct (String.eqb (f_type d) "bit_mux" || String.eqb (f_type d) "pos_mux") eqn:T; [|destruct X].
    destruct X as [->|[]]. exists d. split; [assumption|]. split; [assumption|].
    apply orb_prop in T. destruct T as [T|T]; apply String.eqb_eq in T; auto.
  - intros (d & I & NH & T). exists (f, d). split; [assumption|]. cbn. apply String.eqb_neq in NH. rewrite NH.
    destruct T as [-> | ->]; cbn; auto.
Qed.
Print Assumptions C72_muxes.

(* The choices of a mux are the labels of the device, the constants first. *)
Lemma insert_perm x l : Permutation (x :: l) (insert x l).
Proof.
  induction l as [|y l IH]; cbn; [reflexivity|]. destruct (String.leb x y); [reflexivity|].
  rewrite perm_swap. now constructor.
Qed.
Lemma sorted_perm l : Permutation l (sorted l).
Proof. induction l as [|x l IH]; cbn; [reflexivity|]. rewrite <- insert_perm. now constructor. Qed.
Lemma filter_perm {A} (p : A -> bool) l : Permutation l (filter p l ++ filter (fun x => negb (p x)) l).
Proof.
  induction l as [|x l IH]; cbn; [reflexivity|]. destruct (p x); cbn.
  - now constructor.
  - rewrite <- Permutation_middle. now constructor.
Qed.
Lemma insert_sorted x l : Sorted (fun a b => String.leb a b = true) l -> Sorted (fun a b => String.leb a b = true) (insert x l).
Proof.
  intros S. induction S as [|y l S IH H]; cbn; [repeat constructor|].
  destruct (String.leb x y) eqn:E.
  - constructor; [constructor; assumption|]. constructor. assumption.
  - constructor; [assumption|].
    assert (Y : String.leb y x = true). { destruct (String.leb_total x y); congruence. }
    destruct l as [|z l]; cbn; [now constructor|]. destruct (String.leb x z); constructor; auto. now inversion H.
Qed.
Theorem C72_mux_choices : forall l, exists c r, mux_labels l = c ++ r /\ Permutation l (mux_labels l)
  /\ (forall x, In x c -> x = "ZERO" \/ x = "ONE") /\ (forall x, In x r -> x <> "ZERO" /\ x <> "ONE")
  /\ Sorted (fun a b => String.leb a b = true) r.
Proof.
  intros l. unfold mux_labels. eexists. eexists. split; [reflexivity|]. split; [|split; [|split]].
  - rewrite <- sorted_perm. apply (filter_perm (fun x => smem x ["ZERO"; "ONE"])).
  - intros x H. apply filter_In in H. destruct H as [_ H]. apply smem_In in H.
    destruct H as [<-|[<-|[]]]; auto.
  - intros x H. apply (Permutation_in x (Permutation_sym (sorted_perm _))) in H.
    apply filter_In in H. destruct H as [_ H]. apply negb_true_iff in H. apply smem_false in H.
    split; intros ->; apply H; cbn; auto.
  - induction (filter (fun x => negb (smem x ["ZERO"; "ONE"])) l) as [|y k IH]; [constructor|].
    now apply insert_sorted.
Qed.
Print Assumptions C72_mux_choices.

(* The name of a part is that of its field with an underscore for each dot. *)
Theorem C72_part_name : forall s i, String.get i (underscored s) =
  match String.get i s with Some c => Some (if ascii_dec c "."%char then "_"%char else c) | None => None end.
Proof.
  induction s as [|c s IH]; intros i; [destruct i; reflexivity|]. destruct i as [|i]; cbn [underscored String.get].
  - destruct (ascii_dec c "."%char) as [->|N]; [reflexivity|]. apply Ascii.eqb_neq in N. rewrite N. reflexivity.
  - apply IH.
Qed.
Print Assumptions C72_part_name.
Example C72_ex_part_name : underscored "INP.DELAY" = "INP_DELAY".
Proof. reflexivity. Qed.

(* Names made of words that end in their digits keep apart as attributes. *)
Theorem C72_apart : forall s s', snake 0 s -> snake 0 s' -> s <> s' -> snake_to_camel s <> snake_to_camel s'.
Proof. intros s s' H H' N E. apply N. now apply camel_injective. Qed.
Print Assumptions C72_apart.

(* A block with such names, of known types, can be made. *)
Theorem C72_made : forall fs,
  NoDup (map fst fs) ->
  (forall f d, In (f, d) fs -> known d) ->
  (forall f d p, In (f, d) fs -> makes f d p -> snake 0 p /\ ~ In p taken) ->
  (forall f d f' d' p, In (f, d) fs -> In (f', d') fs -> makes f d p -> makes f' d' p -> f = f') ->
  exists b, make_block fs = Ok b.
Proof. exact made. Qed.
Print Assumptions C72_made.

(* a pulse block *)
Definition ex_fs : dict fdata :=
  [("ENABLE", mkF "bit_mux" "" ["TTLIN1.VAL"; "ZERO"; "ONE"; "PCAP.ACTIVE"]); ("DELAY", mkF "time" "" []);
   ("PULSES", mkF "param" "uint" []); ("TRIG_EDGE", mkF "param" "enum" ["Rising"; "Falling"]);
   ("OUT", mkF "bit_out" "" []); ("QUEUED", mkF "read" "uint" []); ("POS1", mkF "pos_out" "" []);
   ("HEALTH", mkF "read" "enum" ["OK"])].
Example C72_ex : exists b, make_block ex_fs = Ok b
  /\ b_names b = ["health"; "icon"; "label"; "help"; "inputs"; "enable"; "enableDelay"; "parameters"; "delay";
                  "delayUnits"; "pulses"; "trigEdge"; "outputs"; "out"; "readbacks"; "queued"; "pos1"]
  /\ b_muxes b = ["ENABLE"]
  /\ dget "DELAY.UNITS" (b_fields b) = Some (Some (HField (KChoice ["min"; "s"; "ms"; "us"]) true (Some 1)))
  /\ dget "ENABLE" (b_fields b)
     = Some (Some (HField (KChoice ["ZERO"; "ONE"; "PCAP.ACTIVE"; "TTLIN1.VAL"]) true (Some 1)))
  /\ dget "POS1.SCALE" (b_fields b) = Some None /\ dget "HEALTH" (b_fields b) = None.
Proof. eexists. split; [vm_compute; reflexivity|]. repeat split; vm_compute; reflexivity. Qed.

Ltac snk := repeat (first [apply snake_end; discriminate
  | apply snake_next; [discriminate|]
  | apply snake_letter; [discriminate|unfold upper_letter; cbn; lia|]
  | apply snake_digit; [discriminate|unfold digit_char; cbn; lia|]]).
Example C72_made_ex :
  (forall f d, In (f, d) [("DELAY", mkF "time" "" []); ("OUT1", mkF "bit_out" "" [])] -> known d)
  /\ (forall f d p, In (f, d) [("DELAY", mkF "time" "" []); ("OUT1", mkF "bit_out" "" [])] -> makes f d p ->
        snake 0 p /\ ~ In p taken)
  /\ (forall f d f' d' p, In (f, d) [("DELAY", mkF "time" "" []); ("OUT1", mkF "bit_out" "" [])] ->
        In (f', d') [("DELAY", mkF "time" "" []); ("OUT1", mkF "bit_out" "" [])] -> makes f d p -> makes f' d' p -> f = f').
Proof.
  assert (A : forall p, makes "DELAY" (mkF "time" "" []) p -> p = "DELAY" \/ p = "DELAY_UNITS").
  { intros p [(x & h & S & ->)|[[X _] _]]; [|discriminate]. apply suffixes_shows in S.
    destruct S as [E|[E|[]]]; injection E as <- <-; cbn; auto. }
  assert (B : forall p, makes "OUT1" (mkF "bit_out" "" []) p -> p = "OUT1").
  { intros p [(x & h & S & ->)|[[X _] _]]; [|discriminate]. apply suffixes_shows in S.
    destruct S as [E|[]]; injection E as <- <-; cbn; auto. }
  split; [|split].
  - intros f d [E|[E|[]]]; injection E as <- <-; right; eexists; eexists; [apply sh_time|apply sh_bit_out]; auto.
  - intros f d p [E|[E|[]]]; injection E as <- <-; intros M.
    + destruct (A p M) as [->| ->]; (split; [snk|cbn; intuition discriminate]).
    + rewrite (B p M). split; [snk|cbn; intuition discriminate].
  - intros f d f' d' p [E|[E|[]]] [E'|[E'|[]]]; injection E as <- <-; injection E' as <- <-; intros M M'; auto;
      [destruct (A p M); rewrite (B p M') in *|destruct (A p M'); rewrite (B p M) in *]; discriminate.
Qed.

(* Two fields that the device keeps apart can have one attribute name: the block, and with it the PandA, is not
   made. *)
Theorem C72_unique_refuted : exists fs, NoDup (map fst fs) /\ (forall f d, In (f, d) fs -> known d)
  /\ make_block fs = Err Clash
  /\ fs = [("OUT_1", mkF "bit_out" "" []); ("OUT1", mkF "bit_out" "" [])].
Proof.
  eexists. split; [|split; [|split; [|reflexivity]]].
  - repeat constructor; cbn; intuition discriminate.
  - intros f d [E|[E|[]]]; injection E as <- <-; right; eexists; eexists; apply sh_bit_out; reflexivity.
  - vm_compute. reflexivity.
Qed.
Print Assumptions C72_unique_refuted.

(* A time may be a param or a read, but not a write: the block is not made. *)
Theorem C72_write_time_refuted : exists f, make_block [(f, mkF "write" "time" [])] = Err Unknown
  /\ (exists b, make_block [(f, mkF "param" "time" [])] = Ok b) /\ exists b, make_block [(f, mkF "read" "time" [])] = Ok b.
Proof.
  exists "T". split; [vm_compute; reflexivity|]. split; eexists; vm_compute; reflexivity.
Qed.
Print Assumptions C72_write_time_refuted.

(* ---- C73 ---- *)
Section Changes.
Context {V : Type} (eqb : V -> V -> bool) (eqb_eq : forall a b, eqb a b = true -> a = b).

Lemma handle_value v (p : part V) : p_value (handle_change eqb v p) = v /\ p_pending (handle_change eqb v p) = false.
Proof.
  unfold handle_change. destruct (p_pending p); [|auto]. destruct (eqb v (p_value p)) eqn:E; cbn; [|auto].
  split; [|reflexivity]. symmetry. now apply eqb_eq.
Qed.

Lemma one_other pre (s : bst V) k v k' : k <> k' ->
  dget k' (s_parts (fst (one_change eqb pre s k v))) = dget k' (s_parts s)
  /\ dget k' (s_tags (fst (one_change eqb pre s k v))) = dget k' (s_tags s).
Proof.
  intros N. unfold one_change. destruct (String.eqb (to_upper k) "HEALTH"); [auto|].
  destruct (dget k (s_parts s)) as [[l|]|]; [|auto|auto].
  destruct (live_change eqb v l) as [l'|]; [|auto]. cbn.
  destruct (dget k (s_tags s)) as [t|]; cbn.
  - destruct (mux_tags pre v t) as [t'|]; cbn; rewrite ?dget_dset_other by assumption; auto.
  - rewrite dget_dset_other by assumption. auto.
Qed.
Lemma one_health pre (s : bst V) k v : to_upper k <> "HEALTH" -> s_fault (fst (one_change eqb pre s k v)) = s_fault s.
Proof.
  intros N. apply String.eqb_neq in N. unfold one_change. rewrite N.
  destruct (dget k (s_parts s)) as [[l|]|]; [|auto|auto].
  destruct (live_change eqb v l) as [l'|]; [|auto]. cbn.
  destruct (dget k (s_tags s)) as [t|]; cbn; [|auto]. destruct (mux_tags pre v t); auto.
Qed.

Lemma changes_other pre cs : forall (s s' : bst V) r k, block_changes eqb pre s cs = (s', r) -> ~ In k (map fst cs) ->
  dget k (s_parts s') = dget k (s_parts s) /\ dget k (s_tags s') = dget k (s_tags s).
Proof.
  induction cs as [|[k0 v0] cs IH]; intros s s' r k H N; cbn [block_changes] in H.
  - injection H as <- _. auto.
  - cbn in N. pose proof (one_other pre s k0 v0 k ltac:(intuition)) as [A B].
    destruct (one_change eqb pre s k0 v0) as [s1 []]; cbn in A, B.
    + injection H as <- _. auto.
    + destruct (IH _ _ _ k H ltac:(tauto)) as [C D]. rewrite C, D. auto.
Qed.
Lemma changes_health pre cs : forall (s s' : bst V) r, block_changes eqb pre s cs = (s', r) ->
  (forall k v, In (k, v) cs -> to_upper k <> "HEALTH") -> s_fault s' = s_fault s.
Proof.
  induction cs as [|[k0 v0] cs IH]; intros s s' r H N; cbn [block_changes] in H.
  - injection H as <- _. auto.
  - pose proof (one_health pre s k0 v0 (N k0 v0 (or_introl eq_refl))) as A.
    destruct (one_change eqb pre s k0 v0) as [s1 []]; cbn in A.
    + injection H as <- _. auto.
    + rewrite (IH _ _ _ H); [assumption|]. intros k v I. apply (N k v). now right.
Qed.
Lemma changes_app pre l1 : forall l2 (s s' : bst V), block_changes eqb pre s (l1 ++ l2) = (s', false) ->
  exists s1, block_changes eqb pre s l1 = (s1, false) /\ block_changes eqb pre s1 l2 = (s', false).
Proof.
  induction l1 as [|[k v] l1 IH]; intros l2 s s' H; cbn [block_changes Datatypes.app] in *; [eauto|].
  destruct (one_change eqb pre s k v) as [s1 []]; [discriminate|]. apply IH. exact H.
Qed.

Lemma changes_at pre cs (s s' : bst V) k v : block_changes eqb pre s cs = (s', false) -> NoDup (map fst cs) -> In (k, v) cs ->
  exists s1 s2, one_change eqb pre s1 k v = (s2, false)
    /\ dget k (s_parts s1) = dget k (s_parts s) /\ dget k (s_tags s1) = dget k (s_tags s)
    /\ dget k (s_parts s') = dget k (s_parts s2) /\ dget k (s_tags s') = dget k (s_tags s2).
Proof.
  intros H N I. apply in_split in I. destruct I as (l1 & l2 & ->).
  rewrite map_app in N. cbn in N. apply NoDup_remove in N. destruct N as [_ N]. rewrite in_app_iff in N.
  destruct (changes_app _ _ _ _ _ H) as (s1 & A & B). cbn [block_changes] in B.
  destruct (one_change eqb pre s1 k v) as [s2 []] eqn:E; [discriminate|].
  exists s1, s2. destruct (changes_other _ _ _ _ _ k A ltac:(tauto)) as [C1 C2].
  destruct (changes_other _ _ _ _ _ k B ltac:(tauto)) as [C3 C4]. auto.
Qed.

(* After the changes of a poll each field that changed shows the value of the device, whatever was pending. *)
Theorem C73_shown : forall pre cs (s s' : bst V) k v val p, block_changes eqb pre s cs = (s', false) ->
  NoDup (map fst cs) -> In (k, v) cs -> to_upper k <> "HEALTH" ->
  dget k (s_parts s) = Some (Some (LField val p)) ->
  exists x p', val v = Some x /\ dget k (s_parts s') = Some (Some (LField val p')) /\ p_value p' = x.
Proof.
  intros pre cs s s' k v val p H N I NH D. destruct (changes_at _ _ _ _ _ _ H N I) as (s1 & s2 & E & A & _ & B & _).
  apply String.eqb_neq in NH. unfold one_change in E. rewrite NH, A, D in E. cbn [live_change] in E.
  destruct (val v) as [x|]; [|discriminate]. exists x, (handle_change eqb x p).
  split; [reflexivity|]. split; [|apply handle_value]. rewrite B.
  destruct (dget k (s_tags s1)) as [t|].
  - destruct (mux_tags pre v t); [|discriminate]. injection E as <-. cbn. apply dget_dset_same.
  - injection E as <-. cbn. apply dget_dset_same.
Qed.

(* The label is the one of the device, or the one from the description of the block where the device has none. *)
Theorem C73_label : forall pre cs (s s' : bst V) k v ini old, block_changes eqb pre s cs = (s', false) ->
  NoDup (map fst cs) -> In (k, v) cs -> to_upper k <> "HEALTH" ->
  dget k (s_parts s) = Some (Some (LLabel ini old)) ->
  (v <> "" -> dget k (s_parts s') = Some (Some (LLabel ini v)))
  /\ (v = "" -> dget k (s_parts s') = Some (Some (LLabel ini ini))).
Proof.
  intros pre cs s s' k v ini old H N I NH D. destruct (changes_at _ _ _ _ _ _ H N I) as (s1 & s2 & E & A & _ & B & _).
  apply String.eqb_neq in NH. unfold one_change in E. rewrite NH, A, D in E. cbn [live_change] in E.
  assert (X : dget k (s_parts s') = Some (Some (LLabel ini (if String.eqb v "" then ini else v)))).
  { rewrite B. destruct (dget k (s_tags s1)) as [t|].
    - destruct (mux_tags pre v t); [|discriminate]. injection E as <-. cbn. apply dget_dset_same.
    - injection E as <-. cbn. apply dget_dset_same. }
  rewrite X. split; intros Y.
  - apply String.eqb_neq in Y. rewrite Y. reflexivity.
  - subst v. reflexivity.
Qed.

(* What was not in the changes stays as it is, and so do the fields that the busses show. *)
Theorem C73_others : forall pre cs (s s' : bst V) r k, block_changes eqb pre s cs = (s', r) ->
  ~ In k (map fst cs) -> dget k (s_parts s') = dget k (s_parts s) /\ dget k (s_tags s') = dget k (s_tags s).
Proof. intros. eapply changes_other; eauto. Qed.

(* The health is that of the last report of it. *)
Theorem C73_health : forall pre l1 l2 (s s' : bst V) k v, block_changes eqb pre s (l1 ++ (k, v) :: l2) = (s', false) ->
  to_upper k = "HEALTH" -> (forall k' v', In (k', v') l2 -> to_upper k' <> "HEALTH") ->
  (to_upper v = "OK" -> s_fault s' = None) /\ (to_upper v <> "OK" -> s_fault s' = Some v).
Proof.
  intros pre l1 l2 s s' k v H K N. destruct (changes_app _ _ _ _ _ H) as (s1 & _ & B).
  cbn [block_changes] in B. unfold one_change in B. rewrite K in B. cbn in B.
  rewrite (changes_health _ _ _ _ _ B N). cbn. split; intros O.
  - apply String.eqb_eq in O. now rewrite O.
  - apply String.eqb_neq in O. now rewrite O.
Qed.

(* The tags of a mux: one link to the attribute of the block that it is set to, none if it is set to a
   constant; the other tags stay. *)
Definition is_link (t : string) : Prop := exists r, t = "linkedvalue:" +++ r.

Lemma starts_link t : Meta_Model.starts_with "linkedvalue:" t = true <-> is_link t.
Proof.
  unfold Meta_Model.starts_with, is_link. split.
  - destruct (Meta_Model.after "linkedvalue:" t) as [r|] eqn:E; [|discriminate]. intros _. exists r.
    revert E. generalize "linkedvalue:". intros pre. revert t. induction pre as [|c pre IH]; intros t E; cbn in *.
    + congruence.
    + destruct t as [|x t]; [discriminate|]. destruct (Ascii.eqb c x) eqn:X; [|discriminate].
      apply Ascii.eqb_eq in X. subst x. f_equal. now apply IH.
  - intros [r ->]. generalize "linkedvalue:". intros pre. induction pre as [|c pre IH]; cbn; [reflexivity|].
    rewrite Ascii.eqb_refl. exact IH.
Qed.

Theorem C73_link : forall pre cs (s s' : bst V) k v val p tags, block_changes eqb pre s cs = (s', false) ->
  NoDup (map fst cs) -> In (k, v) cs -> to_upper k <> "HEALTH" ->
  dget k (s_parts s) = Some (Some (LField val p)) -> dget k (s_tags s) = Some tags ->
  exists tags', dget k (s_tags s') = Some tags'
    /\ (forall t, ~ is_link t -> (In t tags' <-> In t tags))
    /\ (forall b f, v = b +++ "." +++ f -> free "." b -> free "." f ->
          exists a, snake_to_camel (underscored f) = Some a /\
            forall t, is_link t -> (In t tags' <-> t = "linkedvalue:" +++ a +++ ":" +++ pre +++ ":" +++ b))
    /\ ((forall b f, free "." b -> free "." f -> v <> b +++ "." +++ f) -> forall t, In t tags' -> ~ is_link t).
Proof.
  intros pre cs s s' k v val p tags H N I NH D T.
  destruct (changes_at _ _ _ _ _ _ H N I) as (s1 & s2 & E & A & A2 & _ & B).
  apply String.eqb_neq in NH. unfold one_change in E. rewrite NH, A, D, A2, T in E. cbn [live_change] in E.
  destruct (val v) as [x|]; [|discriminate].
  destruct (mux_tags pre v tags) as [t'|] eqn:M; [|discriminate]. injection E as <-. cbn in B.
  rewrite dget_dset_same in B. exists t'. split; [assumption|]. clear - M.
  assert (W : forall t, In t (Meta_Model.without_tags "linkedvalue:" tags) <-> In t tags /\ ~ is_link t).
  { intros t. unfold Meta_Model.without_tags. rewrite filter_In, <- starts_link, negb_true_iff.
    destruct (Meta_Model.starts_with "linkedvalue:" t); intuition congruence. }
  assert (FD : forall z, free "." z -> Savu_Model.split "."%char z = [z]).
  { intros z. induction z as [|c z IH]; [reflexivity|]. cbn. intros [F1 F2].
    destruct (Ascii.eqb c "."%char) eqn:X; [apply Ascii.eqb_eq in X; contradiction|]. now rewrite IH. }
  assert (SP : forall z z', free "." z -> Savu_Model.split "."%char (z +++ "." +++ z') = z :: Savu_Model.split "."%char z').
  { intros z z'. induction z as [|c z IH]; [reflexivity|]. intros [F1 F2]. 
    change (String c z +++ "." +++ z') with (String c (z +++ "." +++ z')). cbn [Savu_Model.split].
    destruct (Ascii.eqb c "."%char) eqn:X; [apply Ascii.eqb_eq in X; contradiction|].
    rewrite (IH F2). reflexivity. }
  assert (INV : forall z b f, Savu_Model.split "."%char z = [b; f] -> z = b +++ "." +++ f /\ free "." b /\ free "." f).
  { assert (ONE : forall z w, Savu_Model.split "."%char z = [w] -> z = w /\ free "." z).
    { intros z. induction z as [|c z IH]; intros w; cbn.
      - intros X; injection X as <-. auto.
      - destruct (Ascii.eqb c "."%char) eqn:X.
        + intros Y. destruct z as [|c' z]; cbn in Y; [discriminate|]. destruct (Ascii.eqb c' "."%char); [discriminate|].
          destruct (Savu_Model.split "."%char z); discriminate.
        + apply Ascii.eqb_neq in X. destruct (Savu_Model.split "."%char z) as [|w' l'] eqn:Y.
          * destruct z as [|c' z]; cbn in Y; [discriminate|]. destruct (Ascii.eqb c' "."%char); [discriminate|].
            destruct (Savu_Model.split "."%char z); discriminate.
          * intros Z; injection Z as <- ->. destruct (IH w' eq_refl) as [-> F]. auto. }
    intros z. induction z as [|c z IH]; intros b f; cbn; [discriminate|].
    destruct (Ascii.eqb c "."%char) eqn:X.
    - apply Ascii.eqb_eq in X. subst c. intros Y; injection Y as <- Y. destruct (ONE _ _ Y) as [-> F]. cbn. auto.
    - apply Ascii.eqb_neq in X. destruct (Savu_Model.split "."%char z) as [|w' l'] eqn:Y; [discriminate|].
      intros Z; injection Z as <- ->. destruct (IH w' f eq_refl) as (-> & F1 & F2). cbn. auto. }
  unfold mux_tags in M. split; [|split].
  - intros t L.
    assert (X : (exists l, t' = Meta_Model.without_tags "linkedvalue:" tags ++ l /\ forall y, In y l -> is_link y)).
    { destruct (Savu_Model.split "."%char v) as [|b [|f [|? ?]]].
      - exists []. injection M as <-. rewrite app_nil_r. split; [reflexivity|intros y []].
      - exists []. injection M as <-. rewrite app_nil_r. split; [reflexivity|intros y []].
      - destruct (snake_to_camel (underscored f)) as [a|]; [|discriminate]. injection M as <-.
        eexists. split; [reflexivity|]. intros y [<-|[]]. eexists. reflexivity.
      - exists []. injection M as <-. rewrite app_nil_r. split; [reflexivity|intros y []]. }
    destruct X as (l & -> & X). rewrite in_app_iff, W. split; [|tauto]. intros [Y|Y]; [tauto|]. destruct (L (X t Y)).
  - intros b f -> Fb Ff. rewrite (SP b f Fb), (FD f Ff) in M.
    destruct (snake_to_camel (underscored f)) as [a|]; [|discriminate]. injection M as <-.
    exists a. split; [reflexivity|]. intros t L. rewrite in_app_iff, W. cbn [In].
    unfold linked_value_tag. split; [intros [Y|[Y|[]]]; [tauto|now symmetry]|intros ->; auto].
  - intros NV t.
    destruct (Savu_Model.split "."%char v) as [|b [|f [|? ?]]] eqn:E.
    + injection M as <-. rewrite W. tauto.
    + injection M as <-. rewrite W. tauto.
    + destruct (INV _ _ _ E) as (X & Y & Z). destruct (NV b f Y Z X).
    + injection M as <-. rewrite W. tauto.
Qed.
End Changes.
Print Assumptions C73_shown.
Print Assumptions C73_label.
Print Assumptions C73_others.
Print Assumptions C73_health.
Print Assumptions C73_link.

Definition all_ok (v : string) : option string := Some v.
Definition small (v : string) : option string := if String.eqb v "BAD" then None else Some v.
Definition ex_block : bst string :=
  mkBS [("LABEL", Some (LLabel "Pulse 1" "Mine")); ("ENABLE", Some (LField small (mkP "ZERO" true)));
        ("WIDTH", Some (LField small (mkP "0" false))); ("POS.SCALE", None)]
       [("ENABLE", ["group:inputs"; "linkedvalue:val:P:TTLIN2"])] (Some "no clock").
Example C73_ex : block_changes String.eqb "P" ex_block
    [("ENABLE", "TTLIN1.VAL"); ("LABEL", ""); ("POS.SCALE", "2"); ("WIDTH", "3"); ("HEALTH", "ok"); ("NEW", "1")]
  = (mkBS [("LABEL", Some (LLabel "Pulse 1" "Pulse 1")); ("ENABLE", Some (LField small (mkP "TTLIN1.VAL" false)));
           ("WIDTH", Some (LField small (mkP "3" false))); ("POS.SCALE", None)]
          [("ENABLE", ["group:inputs"; "linkedvalue:val:P:TTLIN1"])] None, false).
Proof. vm_compute. reflexivity. Qed.

(* Where one value is refused, the changes after it are lost: the device will not tell of them again. *)
Theorem C73_refused_refuted : exists (cs : list (string * string)) (s s' : bst string), block_changes String.eqb "P" s cs = (s', true)
  /\ In ("WIDTH", "3") cs /\ dget "WIDTH" (s_parts s) = Some (Some (LField small (mkP "0" false)))
  /\ dget "WIDTH" (s_parts s') = Some (Some (LField small (mkP "0" false))) /\ small "3" = Some "3".
Proof.
  exists [("ENABLE", "BAD"); ("WIDTH", "3")], ex_block. eexists. split; [vm_compute; reflexivity|].
  split; [cbn; auto|]. repeat split; vm_compute; reflexivity.
Qed.
Print Assumptions C73_refused_refuted.

(* -- routing -- *)
Definition dest (k : string) : option (string * string) :=
  match split1 "."%char k with
  | None => None
  | Some (bn, fn) =>
    if String.eqb bn "*METADATA" then
      if Savu_Model.startswith "LABEL_" fn then
        match split1 "_"%char fn with Some (fn', bn') => Some (bn', fn') | None => None end
      else None
    else Some (bn, fn)
  end.
Lemma split1_free c a b : free c a -> split1 c (a +++ String c b) = Some (a, b).
Proof.
  induction a as [|x a IH]; cbn; [rewrite Ascii.eqb_refl; reflexivity|]. intros [F1 F2].
  destruct (Ascii.eqb x c) eqn:E; [apply Ascii.eqb_eq in E; contradiction|]. now rewrite IH.
Qed.
Lemma split1_inv c s : forall a b, split1 c s = Some (a, b) -> s = a +++ String c b /\ free c a.
Proof.
  induction s as [|x s IH]; intros a b; cbn; [discriminate|]. destruct (Ascii.eqb x c) eqn:E.
  - apply Ascii.eqb_eq in E. subst x. intros H; injection H as <- <-. cbn; auto.
  - apply Ascii.eqb_neq in E. destruct (split1 c s) as [[a' b']|]; [|discriminate].
    intros H; injection H as <- <-. destruct (IH a' b' eq_refl) as [-> F]. cbn; auto.
Qed.
Lemma startswith_inv fn : Savu_Model.startswith "LABEL_" fn = true -> exists r, fn = "LABEL_" +++ r.
Proof.
  unfold Savu_Model.startswith.
  assert (G : forall p s, String.prefix p s = true -> exists r, s = p +++ r).
  { intros p. induction p as [|c p IH]; intros s H; [exists s; reflexivity|]. destruct s as [|x s]; [discriminate|].
    cbn in H. destruct (ascii_dec c x) as [->|]; [|discriminate]. destruct (IH s H) as [r ->]. exists r. reflexivity. }
  apply G.
Qed.
Lemma dest_reports bn fn k : reports bn fn k <-> dest k = Some (bn, fn).
Proof.
  unfold dest. split.
  - intros [F N|L].
    + change (bn +++ "." +++ fn) with (bn +++ String "."%char fn). rewrite (split1_free _ _ _ F).
      apply String.eqb_neq in N. rewrite N. reflexivity.
    + subst fn. change ("*METADATA.LABEL_" +++ bn) with ("*METADATA" +++ String "."%char ("LABEL_" +++ bn)).
      rewrite split1_free by (cbn; repeat split; discriminate). cbn [String.eqb Ascii.eqb Bool.eqb].
      change ("LABEL_" +++ bn) with ("LABEL" +++ String "_"%char bn).
      rewrite split1_free by (cbn; repeat split; discriminate).
      cbn. destruct bn; reflexivity.
  - destruct (split1 "."%char k) as [[b0 f0]|] eqn:E; [|discriminate].
    destruct (split1_inv _ _ _ _ E) as [-> F].
    destruct (String.eqb b0 "*METADATA") eqn:M.
    + apply String.eqb_eq in M. subst b0. destruct (Savu_Model.startswith "LABEL_" f0) eqn:S; [|discriminate].
      destruct (startswith_inv _ S) as [r ->].
      change ("LABEL_" +++ r) with ("LABEL" +++ String "_"%char r).
      rewrite split1_free by (cbn; repeat split; discriminate). intros H; injection H as <- <-.
      apply (rep_label _ "LABEL"). reflexivity.
    + apply String.eqb_neq in M. intros H; injection H as <- <-. now constructor.
Qed.
Definition get2 (bn fn : string) (bc : dict (dict string)) : option string :=
  match dget bn bc with Some d => dget fn d | None => None end.
Lemma route_dest bc k v bc' : route bc k v = Some bc' ->
  match dest k with
  | Some (bn, fn) => bc' = dset bn (dset fn v (match dget bn bc with Some d => d | None => [] end)) bc
  | None => bc' = bc
  end.
Proof.
  unfold route, dest. destruct (split1 "."%char k) as [[b0 f0]|]; [|discriminate].
  destruct (String.eqb b0 "*METADATA").
  - destruct (Savu_Model.startswith "LABEL_" f0); [|congruence].
    destruct (split1 "_"%char f0) as [[a b]|]; [congruence|discriminate].
  - congruence.
Qed.
Lemma route_get bc k v bc' bn fn : route bc k v = Some bc' ->
  get2 bn fn bc' = match dest k with
                   | Some (b0, f0) => if (String.eqb b0 bn && String.eqb f0 fn)%bool then Some v else get2 bn fn bc
                   | None => get2 bn fn bc
                   end.
Proof.
  intros H. apply route_dest in H. destruct (dest k) as [[b0 f0]|]; [|congruence]. subst bc'. unfold get2.
  destruct (String.eqb b0 bn) eqn:B; cbn [andb].
  - apply String.eqb_eq in B. subst b0. rewrite dget_dset_same.
    destruct (String.eqb f0 fn) eqn:F.
    + apply String.eqb_eq in F. subst f0. apply dget_dset_same.
    + apply String.eqb_neq in F. rewrite dget_dset_other by assumption. destruct (dget bn bc); reflexivity.
  - apply String.eqb_neq in B. rewrite dget_dset_other by assumption. reflexivity.
Qed.
Lemma route_all_get cs : forall bc bc' bn fn, route_all bc cs = Some bc' ->
  (exists v, last_report bn fn cs v /\ get2 bn fn bc' = Some v)
  \/ (forall k v, In (k, v) cs -> ~ reports bn fn k) /\ get2 bn fn bc' = get2 bn fn bc.
Proof.
  induction cs as [|[k v] cs IH]; intros bc bc' bn fn H; cbn [route_all] in H.
  - injection H as <-. right. split; [intros k v []|reflexivity].
  - destruct (route bc k v) as [bc1|] eqn:R; [|discriminate].
    destruct (IH bc1 bc' bn fn H) as [(w & (k' & l1 & l2 & E & A & B) & G)|[N G]].
    + left. exists w. split; [|assumption]. exists k', ((k, v) :: l1), l2. rewrite E. auto.
    + rewrite (route_get _ _ _ _ bn fn R) in G.
      destruct (dest k) as [[b0 f0]|] eqn:D.
      * destruct (String.eqb b0 bn && String.eqb f0 fn)%bool eqn:X.
        -- apply andb_prop in X. destruct X as [X1 X2]. apply String.eqb_eq in X1. apply String.eqb_eq in X2. subst.
           left. exists v. split; [|assumption]. exists k, [], cs. split; [reflexivity|].
           split; [now apply dest_reports|assumption].
        -- right. split; [|assumption]. intros k0 v0 [Y|Y]; [|eapply N; eauto]. injection Y as <- <-.
           rewrite dest_reports, D. intros Z; injection Z as -> ->. rewrite !String.eqb_refl in X. discriminate.
      * right. split; [|assumption]. intros k0 v0 [Y|Y]; [|eapply N; eauto]. injection Y as <- <-.
        rewrite dest_reports, D. discriminate.
Qed.

(* Each block is given the last change of each of its fields, with its label, and nothing else. *)
Theorem C73_routed : forall cs bc bn fn v, route_all [] cs = Some bc ->
  ((exists d, dget bn bc = Some d /\ dget fn d = Some v) <-> last_report bn fn cs v).
Proof.
  intros cs bc bn fn v H. 
  assert (G : (exists d, dget bn bc = Some d /\ dget fn d = Some v) <-> get2 bn fn bc = Some v).
  { unfold get2. destruct (dget bn bc) as [d|]; split.
    - intros (d' & A & B). congruence.
    - intros A. eauto.
    - intros (d' & A & _). discriminate.
    - discriminate. }
  rewrite G. clear G. destruct (route_all_get cs [] bc bn fn H) as [(w & L & G)|[N G]].
  - rewrite G. split; [intros X; injection X as ->; assumption|]. intros L'. f_equal.
    destruct L as (k & l1 & l2 & E & R & A). destruct L' as (k' & l1' & l2' & E' & R' & A').
    rewrite E in E'. clear - E' R A R' A'. revert l1' E'. induction l1 as [|x l1 IH]; intros l1' E'; destruct l1' as [|y l1']; cbn in E'.
    + now injection E' as _ <- _.
    + injection E' as <- E'. exfalso. apply (A k' v); [|assumption]. rewrite E'. apply in_app_iff. right. now left.
    + injection E' as -> E'. exfalso. apply (A' k w); [|assumption]. rewrite <- E'. apply in_app_iff. right. now left.
    + injection E' as _ E'. eapply IH; eauto.
  - rewrite G. unfold get2; cbn. split; [discriminate|].
    intros (k & l1 & l2 & E & R & A). exfalso. apply (N k v); [|assumption]. rewrite E. apply in_app_iff. right. now left.
Qed.
Print Assumptions C73_routed.

(* The changes can be routed where each key has a dot. *)
Theorem C73_route_total : forall cs, (forall k v, In (k, v) cs -> exists b f, k = b +++ "." +++ f) ->
  exists bc, route_all [] cs = Some bc.
Proof.
  intros cs H. generalize (@nil (string * dict string)). induction cs as [|[k v] cs IH]; intros bc; cbn [route_all]; [eauto|].
  destruct (H k v (or_introl eq_refl)) as (b & f & ->).
  assert (R : exists bc', route bc (b +++ "." +++ f) v = Some bc').
  { unfold route.
    assert (S : exists x, split1 "."%char (b +++ "." +++ f) = Some x).
    { clear. induction b as [|c b [x IH]]; [eexists; reflexivity|].
      change (String c b +++ "." +++ f) with (String c (b +++ "." +++ f)). cbn [split1].
      destruct (Ascii.eqb c "."%char); [eauto|]. rewrite IH. destruct x. eauto. }
    destruct S as [[bn fn] ->]. destruct (String.eqb bn "*METADATA"); [|eauto].
    destruct (Savu_Model.startswith "LABEL_" fn) eqn:L; [|eauto].
    destruct (startswith_inv _ L) as [r ->].
    change ("LABEL_" +++ r) with ("LABEL" +++ String "_"%char r).
    rewrite split1_free by (cbn; repeat split; discriminate). eauto. }
  destruct R as [bc' ->]. apply IH. intros k' v' I. apply (H k' v'). now right.
Qed.
Print Assumptions C73_route_total.

Example C73_route_ex : route_all [] [("PULSE1.WIDTH", "3"); ("*METADATA.LABEL_PCAP1", "Mine"); ("PULSE1.WIDTH.UNITS", "s");
                                     ("*METADATA.OTHER", "x"); ("PULSE1.WIDTH", "4")]
  = Some [("PULSE1", [("WIDTH", "4"); ("WIDTH.UNITS", "s")]); ("PCAP1", [("LABEL", "Mine")])].
Proof. vm_compute. reflexivity. Qed.

(* -- with the device -- *)
Section Device.
Context {V : Type} (eqb : V -> V -> bool) (eqb_eq : forall a b, eqb a b = true -> a = b).

Definition up (y : sys V) : Prop :=
  (y_changed y = true \/ y_reply y = Some (y_dev y) \/ y_reply y = None /\ y_set y = None /\ p_value (y_part y) = y_dev y)
  /\ (y_set y <> None -> y_changed y = true \/ y_reply y = Some (y_dev y)).

Lemma up_step e (y y' : sys V) es : up y -> step eqb e y = Some y' ->
  apart (match y_set y with Some _ => true | None => false end) (e :: es) = true ->
  up y' /\ apart (match y_set y' with Some _ => true | None => false end) es = true.
Proof.
  destruct y as [dev ch re st p]. unfold up. cbn [y_dev y_changed y_reply y_set y_part].
  intros [U1 U2] H A. destruct e as [v|v|v| | |]; cbn in H, A.
  - injection H as <-. cbn. split; [|destruct st; exact A]. split; auto.
  - destruct st; [discriminate|]. injection H as <-. cbn. split; [|exact A]. auto.
  - destruct st; [discriminate|]. injection H as <-. cbn. split; [|exact A]. split; [|intros X; congruence].
    destruct U1 as [U|[U|[U [_ W]]]]; auto.
  - destruct st as [v|]; [|discriminate]. injection H as <-. cbn. split; [|exact A].
    specialize (U2 ltac:(discriminate)). split; [|congruence]. tauto.
  - destruct re; [discriminate|]. injection H as <-. cbn. split; [|destruct st; exact A].
    destruct ch; [auto|]. split.
    + destruct U1 as [U|[U|U]]; [discriminate|discriminate|auto].
    + intros X. destruct (U2 X) as [U|U]; discriminate.
  - destruct re as [v|]; [|discriminate]. destruct st as [w|]; [discriminate|]. cbn in A. injection H as <-. cbn.
    split; [|exact A]. split; [|congruence].
    destruct U1 as [U|[U|[U _]]]; [auto| |discriminate]. injection U as ->. right. right.
    split; [reflexivity|]. split; [reflexivity|]. apply (handle_value eqb eqb_eq).
Qed.
Lemma up_steps es : forall y y' : sys V, up y -> steps eqb es y = Some y' ->
  apart (match y_set y with Some _ => true | None => false end) es = true -> up y'.
Proof.
  induction es as [|e es IH]; intros y y' U H A; cbn [steps] in H.
  - injection H as <-. exact U.
  - destruct (step eqb e y) as [y1|] eqn:E; [|discriminate].
    destruct (up_step _ _ _ es U E A) as [U1 A1]. eapply IH; eauto.
Qed.

(* However the device changes and is set, set requests fail, and polls come in between: when all is answered and
   the device has nothing more to tell, the attribute shows the device's value; as long as no poll is handled
   while a set is under way. *)
Theorem C73_converges : forall es dev p (y : sys V), steps eqb es (mkSys dev true None None p) = Some y ->
  apart false es = true -> y_changed y = false -> y_reply y = None -> y_set y = None ->
  p_value (y_part y) = y_dev y.
Proof.
  intros es dev p y H A C R S.
  assert (U : up y). { eapply up_steps; [|exact H|exact A]. split; cbn; [auto|congruence]. }
  destruct U as [[U|[U|(_ & _ & U)]] _]; congruence.
Qed.
(* A last poll is enough for it to have nothing more to tell. *)
Theorem C73_one_poll : forall es dev p (y : sys V), steps eqb es (mkSys dev true None None p) = Some y ->
  apart false es = true -> y_reply y = None -> y_set y = None ->
  exists y', (steps eqb (es ++ [PollSend; PollHandle]) (mkSys dev true None None p) = Some y'
              \/ steps eqb (es ++ [PollSend]) (mkSys dev true None None p) = Some y')
    /\ p_value (y_part y') = y_dev y /\ y_dev y' = y_dev y.
Proof.
  intros es dev p y H A R S.
  assert (APP : forall l1 l2 (a b : sys V), steps eqb l1 a = Some b -> steps eqb (l1 ++ l2) a = steps eqb l2 b).
  { induction l1 as [|e l1 IH]; intros l2 a b X; cbn in *; [congruence|].
    destruct (step eqb e a); [|discriminate]. now apply IH. }
  destruct (y_changed y) eqn:C.
  - exists (mkSys (y_dev y) false None None (handle_change eqb (y_dev y) (y_part y))). split; [left|].
    + rewrite (APP es _ _ _ H). cbn. rewrite R, C. cbn. rewrite S. reflexivity.
    + cbn. split; [apply (handle_value eqb eqb_eq)|reflexivity].
  - exists (mkSys (y_dev y) false None None (y_part y)). split; [right|].
    + rewrite (APP es _ _ _ H). cbn. rewrite R, C, S. reflexivity.
    + cbn. split; [|reflexivity]. eapply C73_converges; eauto.
Qed.
End Device.
Print Assumptions C73_converges.
Print Assumptions C73_one_poll.

Example C73_device_ex : apart false [PollSend; PollHandle; SetRefused 9; DevChange 4; PollSend; SetSend 5; SetEnd; PollHandle; PollSend; PollHandle] = true
  /\ steps Nat.eqb [PollSend; PollHandle; SetRefused 9; DevChange 4; PollSend; SetSend 5; SetEnd; PollHandle; PollSend; PollHandle]
       (mkSys 3 true None None (mkP 0 false)) = Some (mkSys 5 false None None (mkP 5 false)).
Proof. split; vm_compute; reflexivity. Qed.

(* A poll handled while a set is under way, the device having changed the value again: the attribute is left at
   the value set, and nothing tells of the other one. *)
Theorem C73_race_refuted : exists es y, steps Nat.eqb es (mkSys 0 false None None (mkP 0 false)) = Some y
  /\ y_changed y = false /\ y_reply y = None /\ y_set y = None /\ p_value (y_part y) = 5 /\ y_dev y = 6
  /\ es = [SetSend 5; DevChange 6; PollSend; PollHandle; SetEnd].
Proof.
  exists [SetSend 5; DevChange 6; PollSend; PollHandle; SetEnd]. eexists. split; [vm_compute; reflexivity|].
  repeat split; reflexivity.
Qed.
Print Assumptions C73_race_refuted.
