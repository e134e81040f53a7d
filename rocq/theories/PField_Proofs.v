From Coq Require Import String Ascii Bool Arith Lia List.
From Verif Require Import Base PField_Model PField_Spec.
From Verif Require Savu_Model Savu_Proofs Reg_Model Meta_Model Bus_Model Hdf_Proofs.
Import ListNotations.
Local Open Scope string_scope.
Local Open Scope list_scope.
Local Open Scope nat_scope.

(* ---- dictionaries ---- *)
Definition dsets {A} (l : list (string * A)) (d : dict A) : dict A := fold_left (fun d kv => dset (fst kv) (snd kv) d) l d.

Lemma dsets_app {A} (l1 l2 : list (string * A)) d : dsets (l1 ++ l2) d = dsets l2 (dsets l1 d).
Proof. unfold dsets. apply fold_left_app. Qed.
Lemma dget_dsets_other {A} (l : list (string * A)) : forall d k, ~ In k (map fst l) -> dget k (dsets l d) = dget k d.
Proof.
  induction l as [|[k0 v0] l IH]; intros d k N; [reflexivity|].
  cbn in N. change (dsets ((k0, v0) :: l) d) with (dsets l (dset k0 v0 d)).
  rewrite IH by tauto. apply dget_dset_other. intros E. apply N. now left.
Qed.
Lemma dget_dsets_in {A} (l : list (string * A)) : forall d k v,
  NoDup (map fst l) -> In (k, v) l -> dget k (dsets l d) = Some v.
Proof.
  induction l as [|[k0 v0] l IH]; intros d k v N I; [destruct I|].
  cbn in N. inversion N as [|? ? N1 N2]; subst.
  change (dsets ((k0, v0) :: l) d) with (dsets l (dset k0 v0 d)).
  destruct I as [E|I].
  - injection E as <- <-. rewrite dget_dsets_other by assumption. apply dget_dset_same.
  - apply IH; assumption.
Qed.

(* ---- what is made of a field ---- *)
(* the entries of field_parts, and whether the type is known *)
Definition kinds (sub : string) (labels : list string) : list mkind :=
  match make_meta sub labels with Some k => [k] | None => [] end.
Definition suffixes (d : fdata) : list (string * option handler) :=
  let typ := f_type d in
  let sub := f_sub d in
  let w := negb (String.eqb typ "read") in
  if String.eqb typ "time" || (smem typ ["param"; "read"] && String.eqb sub "time") then
    [("", Some (HField (KNum "float64") w (if w then Some 2 else None))); (".UNITS", Some (HField units true (Some 1)))]
  else if String.eqb typ "write" && String.eqb sub "action" then []
  else if smem typ ["param"; "read"; "write"] then
    map (fun k => ("", Some (HField k w (if w then Some 1 else None)))) (kinds sub (f_labels d))
  else if String.eqb typ "bit_out" then [("", Some (HField KBool false None))]
  else if String.eqb typ "pos_out" then
    ("", Some (HField (KNum "int32") false None))
      :: map (fun x => ("." +++ x, None)) pos_suffixes
  else if String.eqb typ "ext_out" then
    if String.eqb sub "bits" then [(".CAPTURE", None)]
    else [(".CAPTURE", Some (HField (KChoice (f_labels d)) true (Some 1)))]
  else if String.eqb typ "bit_mux" then
    [("", Some (HField (KChoice (mux_labels (f_labels d))) true (Some 1)));
     (".DELAY", Some (HField (KNum "uint8") true (Some 1)))]
  else if String.eqb typ "pos_mux" then [("", Some (HField (KChoice (mux_labels (f_labels d))) true (Some 1)))]
  else if String.eqb typ "table" then [("", Some HTable)]
  else [].

Lemma make_meta_kind sub labels k : make_meta sub labels = Some k <-> kind_of labels sub k.
Proof.
  unfold make_meta. split.
  - destruct (String.eqb sub "enum") eqn:E1; [apply String.eqb_eq in E1; subst; intros H; injection H as <-; constructor|].
    destruct (String.eqb sub "bit") eqn:E2; [apply String.eqb_eq in E2; subst; intros H; injection H as <-; constructor|].
    destruct (smem sub ["uint"; ""]) eqn:E3.
    { apply smem_In in E3. intros H; injection H as <-. destruct E3 as [<-|[<-|[]]]; constructor. }
    destruct (smem sub ["int"; "pos"]) eqn:E4.
    { apply smem_In in E4. intros H; injection H as <-. destruct E4 as [<-|[<-|[]]]; constructor. }
    destruct (String.eqb sub "scalar") eqn:E5; [apply String.eqb_eq in E5; subst; intros H; injection H as <-; constructor|].
    destruct (String.eqb sub "lut") eqn:E6; [apply String.eqb_eq in E6; subst; intros H; injection H as <-; constructor|].
    discriminate.
  - intros []; reflexivity.
Qed.

Lemma kinds_In sub labels k : In k (kinds sub labels) <-> kind_of labels sub k.
Proof.
  unfold kinds. rewrite <- make_meta_kind. destruct (make_meta sub labels) as [k0|].
  - split; [intros [->|[]]; reflexivity|intros H; injection H as ->; now left].
  - split; [intros []|discriminate].
Qed.

Ltac eqs := repeat match goal with
  | H : String.eqb _ _ = true |- _ => apply String.eqb_eq in H
  | H : smem _ _ = true |- _ => apply smem_In in H
  | H : _ && _ = true |- _ => apply andb_prop in H; destruct H
  | H : _ || _ = true |- _ => apply orb_prop in H
  end.

Lemma kind_not_time labels k : kind_of labels "time" k -> False.
Proof. intros H. apply make_meta_kind in H. discriminate. Qed.
Lemma kind_not_action labels k : kind_of labels "action" k -> False.
Proof. intros H. apply make_meta_kind in H. discriminate. Qed.

Lemma suffixes_shows d x h : In (x, h) (suffixes d) <-> shows d x h.
Proof.
  destruct d as [typ sub labels]. split.
  - unfold suffixes; cbn [f_type f_sub f_labels].
    destruct (String.eqb typ "time" || smem typ ["param"; "read"] && String.eqb sub "time") eqn:E1.
    { eqs. assert (T : typ = "time" \/ (typ = "param" \/ typ = "read") /\ sub = "time").
      { destruct E1 as [E|E]; [left; now apply String.eqb_eq|right].
        apply andb_prop in E. destruct E as [A B]. apply smem_In in A. apply String.eqb_eq in B.
        destruct A as [<-|[<-|[]]]; auto. }
      intros [H|[H|[]]]; injection H as <- <-.
      - destruct (String.eqb typ "read") eqn:R; cbn [negb].
        + apply String.eqb_eq in R. subst typ. destruct T as [T|[_ T]]; [discriminate|]. now constructor.
        + constructor. destruct T as [T|[[T|T] T2]]; auto. subst typ; discriminate.
      - constructor. exact T. }
    apply orb_false_elim in E1. destruct E1 as [E1 E1'].
    destruct (String.eqb typ "write" && String.eqb sub "action") eqn:E2; [intros []|].
    destruct (smem typ ["param"; "read"; "write"]) eqn:E3.
    { intros H. apply in_map_iff in H. destruct H as (k & H & K). injection H as <- <-.
      apply kinds_In in K. apply smem_In in E3.
      destruct E3 as [<-|[<-|[<-|[]]]]; cbn [String.eqb negb] in *.
      - apply sh_param; auto.
      - apply sh_read; auto.
      - apply sh_param; auto. }
    destruct (String.eqb typ "bit_out") eqn:E4.
    { eqs; subst. intros [H|[]]; injection H as <- <-. now constructor. }
    destruct (String.eqb typ "pos_out") eqn:E5.
    { eqs; subst. intros [H|H].
      - injection H as <- <-. now constructor.
      - apply in_map_iff in H. destruct H as (s & H & K). injection H as <- <-.
        apply sh_pos_bus; [reflexivity|]. cbn in K |- *.
        destruct K as [<-|[<-|[<-|[<-|[<-|[]]]]]]; cbn; auto 10. }
    destruct (String.eqb typ "ext_out") eqn:E6.
    { eqs; subst. destruct (String.eqb sub "bits") eqn:B.
      - eqs; subst. intros [H|[]]; injection H as <- <-. now constructor.
      - apply String.eqb_neq in B. intros [H|[]]; injection H as <- <-. now apply sh_ext. }
    destruct (String.eqb typ "bit_mux") eqn:E7.
    { eqs; subst. intros [H|[H|[]]]; injection H as <- <-.
      - eapply sh_mux; cbn; auto.
      - now constructor. }
    destruct (String.eqb typ "pos_mux") eqn:E8.
    { eqs; subst. intros [H|[]]; injection H as <- <-. eapply sh_mux; cbn; auto. }
    destruct (String.eqb typ "table") eqn:E9.
    { eqs; subst. intros [H|[]]; injection H as <- <-. now constructor. }
    intros [].
  - unfold suffixes; intros H. inversion H; cbn [f_type f_sub f_labels] in *; subst.
    + destruct H0 as [->|[-> ->]]; cbn; auto.
    + cbn; auto.
    + destruct H0 as [->|[[->| ->] ->]]; cbn; auto.
    + destruct (String.eqb sub "time") eqn:T.
      { apply String.eqb_eq in T; subst sub. destruct (kind_not_time _ _ H1). }
      destruct (String.eqb sub "action") eqn:A.
      { apply String.eqb_eq in A; subst sub. destruct (kind_not_action _ _ H1). }
      destruct H0 as [->| ->]; cbn; rewrite ?T, ?A;
        (apply in_map_iff; exists k; split; [reflexivity|now apply kinds_In]).
    + destruct (String.eqb sub "time") eqn:T.
      { apply String.eqb_eq in T; subst sub. destruct (kind_not_time _ _ H1). }
      cbn; rewrite ?T. apply in_map_iff; exists k; split; [reflexivity|now apply kinds_In].
    + cbn; auto.
    + cbn; auto.
    + cbn. right. destruct H1 as [<-|[<-|[<-|[<-|[<-|[]]]]]]; cbn; auto 10.
    + cbn; auto.
    + cbn. apply String.eqb_neq in H1. rewrite H1. now left.
    + destruct H0 as [->| ->]; cbn; auto.
    + cbn; auto.
    + cbn; auto.
Qed.

(* ---- the fields of the block ---- *)
Lemma add_part_fields n a b b' : add_part n a b = Ok b' -> b_fields b' = b_fields b /\ b_muxes b' = b_muxes b.
Proof.
  unfold add_part. destruct (negb (part_name_ok n)); [discriminate|].
  destruct (smem n (b_parts b)); [discriminate|]. destruct a as [a|]; [|discriminate].
  destruct (negb (Reg_Model.camel a)); [discriminate|]. destruct (smem a (b_names b)); [discriminate|].
  intros H; injection H as <-. split; reflexivity.
Qed.
Lemma make_group_fields n b b' : make_group n b = Ok b' -> b_fields b' = b_fields b /\ b_muxes b' = b_muxes b.
Proof.
  unfold make_group. destruct (smem n (b_parts b)); [intros H; injection H as <-; auto|apply add_part_fields].
Qed.
Lemma make_field_part_fields f k w i b b' : make_field_part f k w i b = Ok b' ->
  b_fields b' = dset f (Some (HField k w (if w then Some i else None))) (b_fields b) /\ b_muxes b' = b_muxes b.
Proof.
  unfold make_field_part, bind.
  destruct (add_part (underscored f) (snake_to_camel (underscored f)) b) as [b1|] eqn:E; [|discriminate].
  intros H; injection H as <-. destruct (add_part_fields _ _ _ _ E) as [A B].
  cbn. rewrite A, B. auto.
Qed.

Definition entries (f : string) (d : fdata) : list (string * option handler) :=
  if String.eqb (to_upper f) "HEALTH" then []
  else map (fun xh => (f +++ fst xh, snd xh)) (suffixes d).
Definition muxes (f : string) (d : fdata) : list string :=
  if String.eqb (to_upper f) "HEALTH" then []
  else if String.eqb (f_type d) "bit_mux" || String.eqb (f_type d) "pos_mux" then [f] else [].

Lemma append_nil s : s +++ "" = s.
Proof. induction s as [|c s IH]; [reflexivity|]. cbn. f_equal. exact IH. Qed.

Ltac binds := repeat match goal with
  | H : bind ?r _ = Ok _ |- _ => let E := fresh "E" in destruct r eqn:E; [cbn [bind] in H|discriminate]
  end.
Ltac facts := repeat match goal with
  | H : make_group _ _ = Ok _ |- _ => apply make_group_fields in H; destruct H
  | H : make_field_part _ _ _ _ _ = Ok _ |- _ => apply make_field_part_fields in H; destruct H
  | H : add_part _ _ _ = Ok _ |- _ => apply add_part_fields in H; destruct H
  end.

Lemma make_mux_fields f d b b' : make_mux f d b = Ok b' ->
  b_fields b' = dset f (Some (HField (KChoice (mux_labels (f_labels d))) true (Some 1))) (b_fields b)
  /\ b_muxes b' = b_muxes b ++ [f].
Proof.
  unfold make_mux. intros H. binds. injection H as <-. facts. cbn. split; congruence.
Qed.

Lemma parts_for_fields f d b b' : make_parts_for f d b = Ok b' ->
  b_fields b' = dsets (entries f d) (b_fields b) /\ b_muxes b' = b_muxes b ++ muxes f d.
Proof.
  destruct d as [typ sub labels].
  unfold make_parts_for, entries, muxes, suffixes; cbn [f_type f_sub f_labels].
  destruct (String.eqb (to_upper f) "HEALTH") eqn:HE.
  { intros H; injection H as <-. cbn. rewrite app_nil_r. auto. }
  destruct (String.eqb typ "time" || smem typ ["param"; "read"] && String.eqb sub "time") eqn:E1.
  { assert (NM : String.eqb typ "bit_mux" || String.eqb typ "pos_mux" = false).
    { apply orb_prop in E1. destruct E1 as [A|A]; eqs.
      - subst; reflexivity.
      - destruct H as [<-|[<-|[]]]; reflexivity. }
    rewrite NM. unfold make_time. intros H. binds. facts. cbn [map fst snd dsets fold_left].
    rewrite append_nil, app_nil_r. split; [|congruence]. unfold units. congruence. }
  destruct (String.eqb typ "write" && String.eqb sub "action") eqn:E2.
  { eqs; subst. cbn. unfold make_action. intros H. binds. facts. rewrite app_nil_r. split; congruence. }
  destruct (smem typ ["param"; "read"; "write"]) eqn:E3.
  { assert (NM : String.eqb typ "bit_mux" || String.eqb typ "pos_mux" = false).
    { apply smem_In in E3. destruct E3 as [<-|[<-|[<-|[]]]]; reflexivity. }
    rewrite NM. unfold make_param, kinds; cbn [f_sub f_labels]. intros H. binds.
    destruct (make_meta sub labels) as [k|]; [|discriminate]. facts.
    cbn [map fst snd dsets fold_left]. rewrite append_nil, app_nil_r. split; congruence. }
  destruct (String.eqb typ "bit_out") eqn:E4.
  { eqs; subst. cbn [String.eqb orb]. unfold make_out. intros H. binds. cbn in H. facts.
    cbn. rewrite append_nil, app_nil_r. split; congruence. }
  destruct (String.eqb typ "pos_out") eqn:E5.
  { eqs; subst. unfold make_out. intros H. binds. cbn in E. injection H as <-.
    destruct (make_group_fields _ _ _ E0) as [G1 G2]. destruct (make_field_part_fields _ _ _ _ _ _ E) as [F1 F2].
    cbn [String.eqb orb Ascii.eqb Bool.eqb]. cbn. rewrite append_nil, app_nil_r. rewrite F1, F2, G1, G2. auto. }
  destruct (String.eqb typ "ext_out") eqn:E6.
  { eqs; subst. destruct (String.eqb sub "bits") eqn:B.
    - intros H; injection H as <-. cbn. rewrite app_nil_r. auto.
    - unfold make_ext_capture. intros H. binds. facts. cbn. rewrite app_nil_r. cbn in *. split; congruence. }
  destruct (String.eqb typ "bit_mux") eqn:E7.
  { eqs; subst. intros H. binds. apply make_mux_fields in E. destruct E as [A B].
    unfold make_mux_delay in H. binds. facts. cbn. rewrite append_nil. cbn [f_labels] in *. split; congruence. }
  destruct (String.eqb typ "pos_mux") eqn:E8.
  { eqs; subst. intros H. apply make_mux_fields in H. destruct H as [A B].
    cbn. rewrite append_nil. cbn [f_labels] in *. split; congruence. }
  destruct (String.eqb typ "table") eqn:E9.
  { eqs; subst. unfold make_table. intros H. binds. injection H as <-. facts. cbn.
    rewrite append_nil, app_nil_r. split; congruence. }
  discriminate.
Qed.

Lemma make_all_fields fs : forall b b', make_all fs b = Ok b' ->
  b_fields b' = dsets (flat_map (fun fd => entries (fst fd) (snd fd)) fs) (b_fields b)
  /\ b_muxes b' = b_muxes b ++ flat_map (fun fd => muxes (fst fd) (snd fd)) fs.
Proof.
  induction fs as [|[f d] fs IH]; intros b b' H; cbn [make_all flat_map fst snd] in *.
  - injection H as <-. cbn. rewrite app_nil_r. auto.
  - binds. destruct (IH _ _ H) as [A B]. destruct (parts_for_fields _ _ _ _ E) as [C D].
    rewrite A, B, C, D, dsets_app, app_assoc. auto.
Qed.

(* the keys of different fields are different *)
Fixpoint root (s : string) : string :=
  match s with EmptyString => "" | String c r => if Ascii.eqb c "."%char then "" else String c (root r) end.
Lemma root_free s : free "." s -> root s = s.
Proof.
  induction s as [|c s IH]; [reflexivity|]. cbn. intros [A B].
  destruct (Ascii.eqb c "."%char) eqn:E; [apply Ascii.eqb_eq in E; contradiction|]. f_equal; auto.
Qed.
Lemma root_suffix s x : free "." s -> root (s +++ String "."%char x) = s.
Proof.
  induction s as [|c s IH]; [reflexivity|]. cbn. intros [A B].
  destruct (Ascii.eqb c "."%char) eqn:E; [apply Ascii.eqb_eq in E; contradiction|]. f_equal; auto.
Qed.

Lemma shows_suffix d x h : shows d x h -> x = "" \/ exists y, x = String "."%char y.
Proof.
  intros H. destruct H; try (left; reflexivity); try (right; eexists; reflexivity).
  destruct H0 as [<-|[<-|[<-|[<-|[<-|[]]]]]]; right; eexists; reflexivity.
Qed.

Lemma suffixes_nodup d : NoDup (map fst (suffixes d)).
Proof.
  destruct d as [typ sub labels]. unfold suffixes; cbn [f_type f_sub f_labels].
  destruct (String.eqb typ "time" || smem typ ["param"; "read"] && String.eqb sub "time").
  { cbn. repeat constructor; cbn; intuition discriminate. }
  destruct (String.eqb typ "write" && String.eqb sub "action"); [constructor|].
  destruct (smem typ ["param"; "read"; "write"]).
  { unfold kinds. destruct (make_meta sub labels); cbn; repeat constructor; cbn; tauto. }
  destruct (String.eqb typ "bit_out"); [cbn; repeat constructor; cbn; tauto|].
  destruct (String.eqb typ "pos_out"); [cbn; repeat constructor; cbn; intuition discriminate|].
  destruct (String.eqb typ "ext_out"); [destruct (String.eqb sub "bits"); cbn; repeat constructor; cbn; tauto|].
  destruct (String.eqb typ "bit_mux"); [cbn; repeat constructor; cbn; intuition discriminate|].
  destruct (String.eqb typ "pos_mux"); [cbn; repeat constructor; cbn; tauto|].
  destruct (String.eqb typ "table"); cbn; repeat constructor; cbn; tauto.
Qed.

Lemma entries_root f d k : free "." f -> In k (map fst (entries f d)) -> root k = f.
Proof.
  intros F. unfold entries. destruct (String.eqb (to_upper f) "HEALTH"); [intros []|].
  rewrite map_map. intros H. apply in_map_iff in H. destruct H as ([x h] & <- & I). cbn.
  apply suffixes_shows in I. destruct (shows_suffix _ _ _ I) as [->|[y ->]].
  - rewrite append_nil. now apply root_free.
  - now apply root_suffix.
Qed.

Lemma append_inj f x y : f +++ x = f +++ y -> x = y.
Proof. induction f as [|c f IH]; cbn; [auto|]. intros H; injection H; auto. Qed.

Lemma NoDup_map_inj' {A B} (g : A -> B) l : (forall x y, In x l -> In y l -> g x = g y -> x = y) -> NoDup l -> NoDup (map g l).
Proof.
  intros I N. induction N as [|a l A0 N IH]; cbn; constructor.
  - intros H. apply in_map_iff in H. destruct H as (y & E & Y). apply A0.
    rewrite (I a y); auto; [now left|now right].
  - apply IH. intros x y X Y. apply I; now right.
Qed.
Lemma entries_nodup f d : NoDup (map fst (entries f d)).
Proof.
  unfold entries. destruct (String.eqb (to_upper f) "HEALTH"); [constructor|].
  rewrite map_map. cbn [fst]. rewrite <- (map_map fst (fun x => f +++ x)).
  apply NoDup_map_inj'; [|apply suffixes_nodup]. intros x y _ _. apply append_inj.
Qed.

Lemma NoDup_app' {A} (l1 l2 : list A) : NoDup l1 -> NoDup l2 -> (forall x, In x l1 -> ~ In x l2) -> NoDup (l1 ++ l2).
Proof.
  intros N1 N2 D. induction N1 as [|a l A0 N IH]; cbn; [assumption|]. constructor.
  - intros H. apply in_app_iff in H. destruct H as [H|H]; [contradiction|]. apply (D a); [now left|assumption].
  - apply IH. intros x X. apply D. now right.
Qed.

Lemma all_nodup fs : NoDup (map fst fs) -> (forall f d, In (f, d) fs -> free "." f) ->
  NoDup (map fst (flat_map (fun fd => entries (fst fd) (snd fd)) fs)).
Proof.
  induction fs as [|[f d] fs IH]; intros N F; cbn [flat_map map fst snd] in *; [constructor|].
  inversion N as [|? ? N1 N2]; subst. rewrite map_app. apply NoDup_app'.
  - apply entries_nodup.
  - apply IH; [assumption|]. intros f' d' I. apply (F f' d'). now right.
  - intros x X Y. apply entries_root in X; [|apply (F f d); now left].
    apply in_map_iff in Y. destruct Y as ([k h] & E & Y). cbn in E. subst k.
    apply in_flat_map in Y. destruct Y as ([f' d'] & I & Y). cbn in Y.
    assert (Z : root x = f').
    { apply (entries_root f' d'); [apply (F f' d'); now right|]. apply in_map_iff. exists (x, h). auto. }
    apply N1. rewrite <- X, Z. apply in_map_iff. exists (f', d'). auto.
Qed.

Lemma entries_shows f d k h : In (k, h) (entries f d) <->
  to_upper f <> "HEALTH" /\ exists x, k = f +++ x /\ shows d x h.
Proof.
  unfold entries. destruct (String.eqb (to_upper f) "HEALTH") eqn:E.
  - apply String.eqb_eq in E. split; [intros []|]. intros [N _]. contradiction.
  - apply String.eqb_neq in E. split.
    + intros H. apply in_map_iff in H. destruct H as ([x h'] & A & I). cbn in A. injection A as <- <-.
      split; [assumption|]. exists x. split; [reflexivity|]. now apply suffixes_shows.
    + intros (_ & x & -> & S). apply in_map_iff. exists (x, h). split; [reflexivity|]. now apply suffixes_shows.
Qed.

(* ---- the names ---- *)
Definition names_of (b : blk) : Prop :=
  NoDup (b_names b) /\ NoDup (b_parts b)
  /\ (forall p, In p (b_parts b) -> exists a, snake_to_camel p = Some a /\ In a (b_names b))
  /\ (forall a, In a (b_names b) -> Reg_Model.camel a = true)
  /\ (forall k k' w c, dget k (b_fields b) = Some (Some (HField k' w c)) -> exists a, snake_to_camel (underscored k) = Some a /\ In a (b_names b)).

Lemma nodup_snoc {A} (l : list A) x : NoDup l -> ~ In x l -> NoDup (l ++ [x]).
Proof.
  intros N I. apply NoDup_app'; [assumption|repeat constructor; cbn; tauto|].
  intros y Y [->|[]]. contradiction.
Qed.

Lemma add_part_spec n a b b' : add_part n a b = Ok b' ->
  exists a', a = Some a' /\ b_parts b' = b_parts b ++ [n] /\ b_names b' = b_names b ++ [a'] /\ ~ In n (b_parts b)
    /\ ~ In a' (b_names b) /\ Reg_Model.camel a' = true /\ b_fields b' = b_fields b.
Proof.
  unfold add_part. destruct (negb (part_name_ok n)); [discriminate|].
  destruct (smem n (b_parts b)) eqn:P; [discriminate|]. destruct a as [a|]; [|discriminate].
  destruct (Reg_Model.camel a) eqn:C; cbn [negb]; [|discriminate].
  destruct (smem a (b_names b)) eqn:S; [discriminate|].
  intros H; injection H as <-. exists a. cbn. apply smem_false in P. apply smem_false in S. auto 10.
Qed.

Lemma names_add n b b' : snake_to_camel n <> None -> add_part n (snake_to_camel n) b = Ok b' -> names_of b -> names_of b'.
Proof.
  intros _ H (N1 & N2 & N3 & N4 & N5). destruct (add_part_spec _ _ _ _ H) as (a & E & A & B & C & D & F & G).
  unfold names_of. rewrite A, B, G. repeat split.
  - now apply nodup_snoc.
  - now apply nodup_snoc.
  - intros p Hp. apply in_app_iff in Hp. destruct Hp as [Hp|[<-|[]]].
    + destruct (N3 p Hp) as (a' & X & Y). exists a'. split; [assumption|]. apply in_app_iff. now left.
    + exists a. split; [assumption|]. apply in_app_iff. right. now left.
  - intros a' Ha. apply in_app_iff in Ha. destruct Ha as [Ha|[<-|[]]]; auto.
  - intros k k' w c K. destruct (N5 k k' w c K) as (a' & X & Y). exists a'. split; [assumption|].
    apply in_app_iff. now left.
Qed.

Definition groups : list string := ["parameters"; "readbacks"; "outputs"; "inputs"].
Lemma groups_camel g : In g groups -> snake_to_camel g = Some g.
Proof. intros [<-|[<-|[<-|[<-|[]]]]]; vm_compute; reflexivity. Qed.

Lemma names_group g b b' : In g groups -> make_group g b = Ok b' -> names_of b -> names_of b'.
Proof.
  intros G. unfold make_group. destruct (smem g (b_parts b)); [intros H; injection H as <-; auto|].
  rewrite <- (groups_camel g G). apply names_add. rewrite (groups_camel g G). discriminate.
Qed.
Lemma names_set k h b a : names_of b -> snake_to_camel (underscored k) = Some a -> In a (b_names b) ->
  names_of (set_field_part k h b).
Proof.
  intros (N1 & N2 & N3 & N4 & N5) A I. unfold names_of; cbn. repeat split; auto.
  intros k0 k' w c. destruct (String.eqb k k0) eqn:E.
  - apply String.eqb_eq in E. subst k0. intros _. eauto.
  - apply String.eqb_neq in E. rewrite dget_dset_other by assumption. apply N5.
Qed.
Lemma names_none k b : names_of b -> names_of (set_field_part k None b).
Proof.
  intros (N1 & N2 & N3 & N4 & N5). unfold names_of; cbn. repeat split; auto.
  intros k0 k' w c. destruct (String.eqb k k0) eqn:E.
  - apply String.eqb_eq in E. subst k0. rewrite dget_dset_same. discriminate.
  - apply String.eqb_neq in E. rewrite dget_dset_other by assumption. apply N5.
Qed.
Lemma names_table k b : names_of b -> names_of (set_field_part k (Some HTable) b).
Proof.
  intros (N1 & N2 & N3 & N4 & N5). unfold names_of; cbn. repeat split; auto.
  intros k0 k' w c. destruct (String.eqb k k0) eqn:E.
  - apply String.eqb_eq in E. subst k0. rewrite dget_dset_same. discriminate.
  - apply String.eqb_neq in E. rewrite dget_dset_other by assumption. apply N5.
Qed.
Lemma names_field f k w i b b' : make_field_part f k w i b = Ok b' -> names_of b -> names_of b'.
Proof.
  unfold make_field_part. intros H N. binds. injection H as <-.
  destruct (add_part_spec _ _ _ _ E) as (a' & A & _ & B & _).
  eapply names_set.
  - eapply names_add; eauto. congruence.
  - exact A.
  - rewrite B. apply in_app_iff. right. now left.
Qed.

Ltac grp := match goal with
  | H : make_group _ ?b = Ok ?b', N : names_of ?b |- _ =>
      apply names_group in H; [|cbn; auto 10|exact N]
  end.

Lemma names_for f d b b' : make_parts_for f d b = Ok b' -> names_of b -> names_of b'.
Proof.
  destruct d as [typ sub labels]. unfold make_parts_for; cbn [f_type f_sub f_labels]. intros H N.
  destruct (String.eqb (to_upper f) "HEALTH"); [injection H as <-; assumption|].
  destruct (String.eqb typ "time" || smem typ ["param"; "read"] && String.eqb sub "time").
  { unfold make_time in H. binds. destruct (negb (String.eqb typ "read")); grp;
      apply names_field in E0; auto; apply names_field in H; auto. }
  destruct (String.eqb typ "write" && String.eqb sub "action").
  { unfold make_action in H. binds. grp. eapply names_add; eauto.
    destruct (add_part_spec _ _ _ _ H) as (a' & A & _). congruence. }
  destruct (smem typ ["param"; "read"; "write"]).
  { unfold make_param in H. binds. destruct (make_meta _ _); [|discriminate].
    destruct (negb (String.eqb typ "read")); grp; apply names_field in H; auto. }
  destruct (String.eqb typ "bit_out").
  { unfold make_out in H. binds. destruct (make_meta _ _); [|discriminate]. grp. apply names_field in H; auto. }
  destruct (String.eqb typ "pos_out").
  { binds. injection H as <-. unfold make_out in E. binds. grp. apply names_field in E; auto.
    repeat apply names_none. exact E. }
  destruct (String.eqb typ "ext_out").
  { destruct (String.eqb sub "bits"); [injection H as <-; now apply names_none|].
    unfold make_ext_capture in H. binds. grp. apply names_field in H; auto. }
  assert (MUX : forall d b b', make_mux f d b = Ok b' -> names_of b -> names_of b').
  { intros d0 b0 b1 M N0. unfold make_mux in M. binds. injection M as <-. 
    apply names_group in E; [|cbn; auto 10|exact N0]. apply names_field in E0; auto.  }
  destruct (String.eqb typ "bit_mux").
  { binds. apply MUX in E; auto. unfold make_mux_delay in H. binds.
    apply names_group in E0; [|cbn; auto 10|exact E]. apply names_field in H; auto. }
  destruct (String.eqb typ "pos_mux"); [eapply MUX; eauto|].
  destruct (String.eqb typ "table"); [|discriminate].
  unfold make_table in H. binds. injection H as <-. grp. apply names_table.
  eapply names_add; eauto. destruct (add_part_spec _ _ _ _ E0) as (a' & A & _). congruence.
Qed.
Lemma names_all fs : forall b b', make_all fs b = Ok b' -> names_of b -> names_of b'.
Proof.
  induction fs as [|[f d] fs IH]; intros b b' H N; cbn [make_all] in H.
  - injection H as <-. assumption.
  - binds. eapply IH; eauto. eapply names_for; eauto.
Qed.
Lemma names_common : names_of common.
Proof.
  unfold names_of, common; cbn. repeat split.
  - repeat constructor; cbn; intuition discriminate.
  - repeat constructor; cbn; intuition discriminate.
  - intros p [<-|[<-|[<-|[]]]]; eexists; (split; [vm_compute; reflexivity|auto 10]).
  - intros a [<-|[<-|[<-|[<-|[]]]]]; reflexivity.
  - intros k k' w c. destruct (String.eqb k "LABEL"); discriminate.
Qed.
