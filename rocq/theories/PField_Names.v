(* Names of attributes: proofs for C72. *)
From Coq Require Import String Ascii Bool Arith Lia List.
From Verif Require Import Base PField_Model PField_Spec PField_Proofs.
From Verif Require Savu_Model Reg_Model Bus_Model.
Import ListNotations.
Local Open Scope string_scope.
Local Open Scope list_scope.
Local Open Scope nat_scope.

Fixpoint camels (after : bool) (s : string) : string :=
  match s with
  | EmptyString => ""
  | String c r => if Ascii.eqb c "_"%char then camels false r
                  else String (if after then Bus_Model.lower_char c else upper_char c)
                              (camels (Reg_Model.lower c || Reg_Model.upper c) r)
  end.
Fixpoint joined (l : list string) : string := match l with [] => "" | x :: r => x +++ joined r end.
Lemma concat_joined l : String.concat "" l = joined l.
Proof.
  induction l as [|x l IH]; [reflexivity|]. cbn [joined]. rewrite <- IH. destruct l as [|y l]; cbn.
  - symmetry. apply append_nil.
  - reflexivity.
Qed.
Lemma camels_split s : forall after w l, Savu_Model.split "_"%char s = w :: l ->
  title after w +++ joined (map (title false) l) = camels after s.
Proof.
  induction s as [|c s IH]; intros after w l H; cbn [Savu_Model.split camels] in *.
  - injection H as <- <-. reflexivity.
  - destruct (Ascii.eqb c "_"%char).
    + injection H as <- <-. cbn [title String.append].
      destruct (Savu_Model.split "_"%char s) as [|w' l'] eqn:E.
      * destruct s as [|x s]; cbn in E; [discriminate|]. destruct (Ascii.eqb x "_"%char); [discriminate|].
        destruct (Savu_Model.split "_"%char s); discriminate.
      * apply (IH false w' l' eq_refl).
    + destruct (Savu_Model.split "_"%char s) as [|w' l'] eqn:E.
      * destruct s as [|x s]; cbn in E; [discriminate|]. destruct (Ascii.eqb x "_"%char); [discriminate|].
        destruct (Savu_Model.split "_"%char s); discriminate.
      * injection H as <- <-. cbn [title String.append]. f_equal. apply IH. reflexivity.
Qed.
Lemma snake_to_camel_camels s :
  snake_to_camel s = match camels false s with EmptyString => None | String c r => Some (String (Bus_Model.lower_char c) r) end.
Proof.
  unfold snake_to_camel. rewrite concat_joined. destruct (Savu_Model.split "_"%char s) as [|w l] eqn:E.
  - destruct s as [|x s]; cbn in E; [discriminate|]. destruct (Ascii.eqb x "_"%char); [discriminate|].
    destruct (Savu_Model.split "_"%char s); discriminate.
  - cbn [map joined]. rewrite (camels_split s false w l E). reflexivity.
Qed.

Fixpoint decode (s : string) : string :=
  match s with
  | EmptyString => ""
  | String c r => if Reg_Model.upper c then String "_"%char (String c (decode r)) else String (upper_char c) (decode r)
  end.

Lemma upper_letter_facts c : upper_letter c ->
  Reg_Model.upper c = true /\ Reg_Model.lower c = false /\ Ascii.eqb c "_"%char = false /\ upper_char c = c
  /\ Reg_Model.upper (Bus_Model.lower_char c) = false /\ upper_char (Bus_Model.lower_char c) = c
  /\ Reg_Model.lower (Bus_Model.lower_char c) = true.
Proof.
  unfold upper_letter. intros H.
  destruct c as [[] [] [] [] [] [] [] []]; cbn in H; try lia; vm_compute; auto 10.
Qed.
Lemma digit_facts c : digit_char c ->
  Reg_Model.upper c = false /\ Reg_Model.lower c = false /\ Ascii.eqb c "_"%char = false /\ upper_char c = c
  /\ Bus_Model.lower_char c = c /\ Reg_Model.digit c = true.
Proof.
  unfold digit_char. intros H.
  destruct c as [[] [] [] [] [] [] [] []]; cbn in H; try lia; vm_compute; auto 10.
Qed.

Lemma decode_camels st s : snake st s ->
  (st = 0 -> decode (camels false s) = String "_"%char s)
  /\ (st = 1 -> decode (camels true s) = s) /\ (st = 2 -> decode (camels false s) = s).
Proof.
  intros H. induction H as [st N|st c r N U H IH|st c r N D H IH|st r N H IH].
  - repeat split; intros ->; try reflexivity. congruence.
  - destruct (upper_letter_facts c U) as (F1 & F2 & F3 & F4 & F5 & F6 & F7).
    destruct IH as (_ & IH & _). specialize (IH eq_refl).
    repeat split; intros ->; cbn [camels decode]; rewrite F3, F1, F2; cbn [orb].
    + rewrite F4. cbn [decode]. rewrite F1, IH. reflexivity.
    + cbn [decode]. rewrite F5, F6, IH. reflexivity.
    + congruence.
  - destruct (digit_facts c D) as (F1 & F2 & F3 & F4 & F5 & F6).
    destruct IH as (_ & _ & IH). specialize (IH eq_refl).
    repeat split; intros ->; cbn [camels decode]; rewrite F3, F1, F2; cbn [orb].
    + congruence.
    + cbn [decode]. rewrite F5, F1, F4, IH. reflexivity.
    + cbn [decode]. rewrite F4, F1, F4, IH. reflexivity.
  - destruct IH as (IH & _ & _). specialize (IH eq_refl).
    repeat split; intros ->; cbn [camels]; rewrite Ascii.eqb_refl; auto. congruence.
Qed.

Lemma snake_camel s : snake 0 s -> exists a, snake_to_camel s = Some a /\ decode a = s.
Proof.
  intros H. rewrite snake_to_camel_camels.
  inversion H as [st N|st c r N U H1|st c r N D H1|st r N H1]; subst; try congruence.
  destruct (upper_letter_facts c U) as (F1 & F2 & F3 & F4 & F5 & F6 & F7).
  cbn [camels]. rewrite F3, F1, F2; cbn [orb]. eexists. split; [reflexivity|].
  rewrite F4. cbn [decode]. rewrite F5, F6. f_equal. now apply (decode_camels 1 r H1).
Qed.

Lemma camel_injective s s' : snake 0 s -> snake 0 s' -> snake_to_camel s = snake_to_camel s' -> s = s'.
Proof.
  intros H H' E. destruct (snake_camel s H) as (a & A & B). destruct (snake_camel s' H') as (a' & A' & B').
  congruence.
Qed.

Lemma camels_rest st s after : snake st s -> Reg_Model.camel_rest (camels after s) = true.
Proof.
  intros H. revert after. induction H as [st N|st c r N U H IH|st c r N D H IH|st r N H IH]; intros after; cbn [camels].
  - reflexivity.
  - destruct (upper_letter_facts c U) as (F1 & F2 & F3 & F4 & F5 & F6 & F7). rewrite F3.
    cbn [Reg_Model.camel_rest]. destruct after; [rewrite F7|rewrite F4, F1, F2]; apply IH.
  - destruct (digit_facts c D) as (F1 & F2 & F3 & F4 & F5 & F6). rewrite F3.
    cbn [Reg_Model.camel_rest]. destruct after; rewrite ?F4, ?F5, F6, F1, F2; apply IH.
  - rewrite Ascii.eqb_refl. apply IH.
Qed.
Lemma snake_is_camel s a : snake 0 s -> snake_to_camel s = Some a -> Reg_Model.camel a = true.
Proof.
  intros H. rewrite snake_to_camel_camels.
  inversion H as [st N|st c r N U H1|st c r N D H1|st r N H1]; subst; try congruence.
  destruct (upper_letter_facts c U) as (F1 & F2 & F3 & F4 & F5 & F6 & F7).
  cbn [camels]. rewrite F3, F1, F2, F4; cbn [orb]. intros E; injection E as <-.
  cbn [Reg_Model.camel]. rewrite F7. cbn [andb]. now apply (camels_rest 1).
Qed.
Lemma snake_part_ok st s : snake st s -> part_name_ok s = true.
Proof.
  intros H. induction H as [st N|st c r N U H IH|st c r N D H IH|st r N H IH]; cbn [part_name_ok].
  - reflexivity.
  - destruct (upper_letter_facts c U) as (F1 & _). rewrite F1, IH. destruct (Reg_Model.lower c); reflexivity.
  - destruct (digit_facts c D) as (_ & _ & _ & _ & _ & F6). rewrite F6, IH.
    destruct (Reg_Model.lower c), (Reg_Model.upper c); reflexivity.
  - exact IH.
Qed.

(* ---- the block is made ---- *)
Definition reserved : list string := ["health"; "icon"; "label"; "help"] ++ groups.
Definition st_ok (done : string -> Prop) (b : blk) : Prop :=
  names_of b /\ (forall a, In a (b_names b) -> In a reserved \/ done a)
  /\ (forall g, In g groups -> In g (b_names b) -> In g (b_parts b)).
Definition fine (p : string) (a : string) : Prop :=
  part_name_ok p = true /\ snake_to_camel p = Some a /\ Reg_Model.camel a = true /\ ~ In a reserved.

Lemma add_ok n a done b : fine n a -> ~ done a -> st_ok done b ->
  exists b', add_part n (snake_to_camel n) b = Ok b' /\ st_ok (fun x => done x \/ x = a) b'.
Proof.
  intros (F1 & F2 & F3 & F4) D (N & R & G).
  assert (NI : ~ In a (b_names b)). { intros I. destruct (R a I); contradiction. }
  assert (NP : ~ In n (b_parts b)).
  { intros I. destruct N as (_ & _ & N3 & _). destruct (N3 n I) as (a' & A & B). congruence. }
  assert (E : add_part n (snake_to_camel n) b
              = Ok (mkB (b_parts b ++ [n]) (b_names b ++ [a]) (b_fields b) (b_muxes b))).
  { unfold add_part. rewrite F1, F2, F3. cbn [negb].
    apply smem_false in NP. apply smem_false in NI. rewrite NP, NI. reflexivity. }
  eexists. split; [exact E|]. split; [eapply names_add; eauto; congruence|]. cbn [b_names b_parts]. split.
  - intros x X. apply in_app_iff in X. destruct X as [X|[<-|[]]]; [|auto]. destruct (R x X); auto.
  - intros g I X. apply in_app_iff. apply in_app_iff in X. destruct X as [X|[<-|[]]]; [left; auto|].
    exfalso. apply F4. apply in_app_iff. now right.
Qed.
Lemma st_ok_set k h done b : (h = None \/ h = Some HTable \/ exists a, snake_to_camel (underscored k) = Some a /\ In a (b_names b)) ->
  st_ok done b -> st_ok done (set_field_part k h b).
Proof.
  intros H (N & R & G). split; [|auto].
  destruct H as [->|[->|(a & A & B)]]; [now apply names_none|now apply names_table|eapply names_set; eauto].
Qed.
Lemma field_ok f k w i a done b : fine (underscored f) a -> ~ done a -> st_ok done b ->
  exists b', make_field_part f k w i b = Ok b' /\ st_ok (fun x => done x \/ x = a) b'.
Proof.
  intros F D S. destruct (add_ok _ _ _ _ F D S) as (b' & E & S'). unfold make_field_part. rewrite E. cbn [bind].
  eexists. split; [reflexivity|]. apply st_ok_set; [|assumption]. right. right. exists a.
  destruct F as (_ & F & _). split; [assumption|].
  destruct (add_part_spec _ _ _ _ E) as (a' & A & _ & B & _). rewrite B. apply in_app_iff. right. left. congruence.
Qed.
Lemma group_ok g done b : In g groups -> st_ok done b -> exists b', make_group g b = Ok b' /\ st_ok done b'.
Proof.
  intros I (N & R & G). unfold make_group. destruct (smem g (b_parts b)) eqn:P; [exists b; split; [reflexivity|split; auto]|].
  assert (NP : ~ In g (b_parts b)) by (now apply smem_false).
  assert (NI : ~ In g (b_names b)) by (intros X; auto).
  assert (C : part_name_ok g = true /\ Reg_Model.camel g = true).
  { destruct I as [<-|[<-|[<-|[<-|[]]]]]; vm_compute; auto. }
  assert (E : add_part g (Some g) b
              = Ok (mkB (b_parts b ++ [g]) (b_names b ++ [g]) (b_fields b) (b_muxes b))).
  { unfold add_part. destruct C as [-> ->]. cbn [negb]. rewrite P. apply smem_false in NI. rewrite NI. reflexivity. }
  eexists. split; [exact E|]. split.
  - rewrite <- (groups_camel g I) in E at 1. eapply names_add; eauto. rewrite (groups_camel g I). discriminate.
  - cbn [b_names b_parts]. split.
    + intros x X. apply in_app_iff in X. destruct X as [X|[<-|[]]]; [auto|]. left. apply in_app_iff. now right.
    + intros x X Y. apply in_app_iff in Y. apply in_app_iff. destruct Y as [Y|[<-|[]]]; [left; auto|right; now left].
Qed.
Lemma st_ok_iff (d1 d2 : string -> Prop) b : (forall x, d1 x -> d2 x) -> st_ok d1 b -> st_ok d2 b.
Proof. intros I (N & R & G). split; [assumption|]. split; [|assumption]. intros a A. destruct (R a A); auto. Qed.

Lemma under_len s : String.length (underscored s) = String.length s.
Proof. induction s as [|c s IH]; cbn; congruence. Qed.
Lemma app_len a b : String.length (a +++ b) = String.length a + String.length b.
Proof. induction a as [|c a IH]; cbn; [reflexivity|]. rewrite IH. reflexivity. Qed.

Section Made.
Variables (f : string) (d : fdata) (done : string -> Prop) (b : blk).
Hypothesis K : known d.
Hypothesis M : forall p, makes f d p -> exists a, fine p a /\ ~ done a.
Hypothesis Inj : forall p p', makes f d p -> makes f d p' -> snake_to_camel p = snake_to_camel p' -> p = p'.
Hypothesis S : st_ok done b.

Lemma makes_shows x h : shows d x (Some h) -> makes f d (underscored (f +++ x)).
Proof. intros H. left. eauto. Qed.
Definition then_done (x : string) : Prop := done x \/ exists p, makes f d p /\ snake_to_camel p = Some x.

Lemma one_made k w i x h g b0 : shows d x (Some h) -> In g groups -> st_ok done b0 ->
  exists b1 b2, make_group g b0 = Ok b1 /\ make_field_part (f +++ x) k w i b1 = Ok b2 /\ st_ok then_done b2
    /\ exists a, snake_to_camel (underscored (f +++ x)) = Some a /\ st_ok (fun y => done y \/ y = a) b2.
Proof.
  intros H G S0. destruct (group_ok g done b0 G S0) as (b1 & E1 & S1).
  destruct (M _ (makes_shows _ _ H)) as (a & F & D).
  destruct (field_ok (f +++ x) k w i a done b1 F D S1) as (b2 & E2 & S2).
  exists b1, b2. repeat split; try assumption.
  - destruct S2 as [N _]. apply N.
  - destruct S2 as [N _]. apply N.
  - destruct S2 as [N _]. apply N.
  - destruct S2 as [N _]. apply N.
  - destruct S2 as [N _]. apply N.
  - intros y Y. destruct S2 as (_ & R & _). destruct (R y Y) as [A|[A| ->]]; [auto|right; now left|].
    right. right. exists (underscored (f +++ x)). split; [now apply (makes_shows x h)|apply F].
  - destruct S2 as (_ & _ & R). exact R.
  - exists a. split; [apply F|assumption].
Qed.
Lemma second_made k w i x h a b0 : shows d x (Some h) -> x <> "" -> snake_to_camel (underscored f) = Some a ->
  makes f d (underscored f) -> st_ok (fun y => done y \/ y = a) b0 ->
  exists b2, make_field_part (f +++ x) k w i b0 = Ok b2 /\ st_ok then_done b2.
Proof.
  intros H NE A MF S0.
  destruct (M _ (makes_shows _ _ H)) as (a2 & F & D).
  assert (NA : a2 <> a).
  { intros ->. assert (X : underscored (f +++ x) = underscored f).
    { apply Inj; [now apply (makes_shows x h)|assumption|]. destruct F as (_ & F & _). congruence. }
    apply (f_equal String.length) in X. rewrite !under_len, app_len in X.
    destruct x; [congruence|]. cbn in X. lia. }
  destruct (field_ok (f +++ x) k w i a2 (fun y => done y \/ y = a) b0 F) as (b2 & E2 & S2).
  - intros [X|X]; contradiction.
  - assumption.
  - exists b2. split; [assumption|]. eapply st_ok_iff; [|exact S2].
    intros y [[Y| ->]| ->]; [left; assumption|right; eauto|].
    right. exists (underscored (f +++ x)). split; [now apply (makes_shows x h)|apply F].
Qed.

Lemma makes_nil h : shows d "" (Some h) -> makes f d (underscored f).
Proof. intros H. pose proof (makes_shows _ _ H) as X. now rewrite append_nil in X. Qed.
Lemma one_made0 k w i h g b0 : shows d "" (Some h) -> In g groups -> st_ok done b0 ->
  exists b1 b2, make_group g b0 = Ok b1 /\ make_field_part f k w i b1 = Ok b2 /\ st_ok then_done b2
    /\ exists a, snake_to_camel (underscored f) = Some a /\ st_ok (fun y => done y \/ y = a) b2.
Proof. intros H G S0. pose proof (one_made k w i "" h g b0 H G S0) as X. now rewrite append_nil in X. Qed.

Lemma parts_for_ok : exists b', make_parts_for f d b = Ok b' /\ st_ok then_done b'.
Proof.
  assert (DD : forall x, done x -> then_done x) by (intros x X; left; exact X).
  unfold make_parts_for. destruct (String.eqb (to_upper f) "HEALTH").
  { exists b. split; [reflexivity|]. eapply st_ok_iff; eauto. }
  destruct K as [[T1 T2]|(x & h & H)].
  - rewrite T1, T2. cbn. unfold make_action.
    destruct (group_ok "parameters" done b ltac:(cbn; auto) S) as (b1 & E1 & S1). rewrite E1. cbn [bind].
    destruct (M f) as (a & F & D); [right; split; [split; assumption|reflexivity]|].
    destruct (add_ok f a done b1 F D S1) as (b2 & E2 & S2). exists b2. split; [assumption|].
    eapply st_ok_iff; [|exact S2]. intros y [Y| ->]; [auto|]. right. exists f. split; [right; split; [split; assumption|reflexivity]|apply F].
  - pose proof S as S'. clear K.
    assert (TIME : f_type d = "time" \/ (f_type d = "param" \/ f_type d = "read") /\ f_sub d = "time" ->
      exists b', make_time f (negb (String.eqb (f_type d) "read")) b = Ok b' /\ st_ok then_done b').
    { intros T. assert (U : shows d ".UNITS" (Some (HField units true (Some 1)))) by (now constructor).
      assert (V : exists h, shows d "" (Some h)).
      { destruct T as [T|[[T|T] T2]]; eexists; [apply sh_time|apply sh_time|apply sh_read_time]; auto. }
      destruct V as [h0 V]. unfold make_time.
      set (g := if negb (String.eqb (f_type d) "read") then "parameters" else "readbacks").
      assert (G : In g groups) by (unfold g; destruct (negb _); cbn; auto).
      destruct (one_made0 (KNum "float64") (negb (String.eqb (f_type d) "read")) 2 h0 g b V G S')
        as (b1 & b2 & E1 & E2 & S2 & a & A & S3).
      rewrite E1. cbn [bind]. rewrite E2. cbn [bind].
      destruct (second_made (KChoice ["min"; "s"; "ms"; "us"]) true 1 ".UNITS" _ a b2 U ltac:(discriminate) A
                  (makes_nil _ V) S3) as (b3 & E3 & S4).
      exists b3. auto. }
    assert (MUX : forall h0, shows d "" (Some h0) ->
      exists b', make_mux f d b = Ok b' /\ st_ok then_done b' /\
        exists a, snake_to_camel (underscored f) = Some a /\ st_ok (fun y => done y \/ y = a) b').
    { intros h0 V. unfold make_mux.
      destruct (one_made0 (KChoice (mux_labels (f_labels d))) true 1 h0 "inputs" b V ltac:(cbn; auto) S')
        as (b1 & b2 & E1 & E2 & S2 & a & A & S3).
      rewrite E1. cbn [bind]. rewrite E2. cbn [bind]. eexists. split; [reflexivity|].
      split; [exact S2|]. exists a. split; [assumption|exact S3]. }
    assert (PARAM : forall k, kind_of (f_labels d) (f_sub d) k ->
      f_type d = "param" \/ f_type d = "write" \/ f_type d = "read" ->
      exists b', make_param f d (negb (String.eqb (f_type d) "read")) b = Ok b' /\ st_ok then_done b').
    { intros k KK T. assert (V : exists h, shows d "" (Some h)).
      { destruct T as [T|[T|T]]; eexists; [apply (sh_param d k)|apply (sh_param d k)|apply (sh_read d k)]; auto. }
      destruct V as [h0 V]. unfold make_param. apply make_meta_kind in KK. rewrite KK.
      set (g := if negb (String.eqb (f_type d) "read") then "parameters" else "readbacks").
      assert (G : In g groups) by (unfold g; destruct (negb _); cbn; auto).
      destruct (one_made0 k (negb (String.eqb (f_type d) "read")) 1 h0 g b V G S')
        as (b1 & b2 & E1 & E2 & S2 & _).
      rewrite E1. cbn [bind]. rewrite E2. eauto. }
    assert (OUT : forall typ k h0, make_meta typ [] = Some k -> shows d "" (Some h0) ->
      exists b', make_out f typ b = Ok b' /\ st_ok then_done b').
    { intros typ k h0 KK V. unfold make_out. rewrite KK.
      destruct (one_made0 k false 1 h0 "outputs" b V ltac:(cbn; auto) S') as (b1 & b2 & E1 & E2 & S2 & _).
      rewrite E1. cbn [bind]. rewrite E2. eauto. }
    assert (POS : f_type d = "pos_out" -> exists b',
      bind (make_out f "pos" b) (fun b0 => Ok (fold_left (fun b1 s => set_field_part (f +++ "." +++ s) None b1) pos_suffixes b0)) = Ok b'
      /\ st_ok then_done b').
    { intros T. destruct (OUT "pos" (KNum "int32") _ eq_refl (sh_pos_out d T)) as (b1 & E1 & S1).
      rewrite E1. cbn [bind]. eexists. split; [reflexivity|]. cbn [fold_left pos_suffixes].
      repeat (apply st_ok_set; [left; reflexivity|]). exact S1. }
    assert (NT : forall k, kind_of (f_labels d) (f_sub d) k -> String.eqb (f_sub d) "time" = false /\ String.eqb (f_sub d) "action" = false).
    { intros k KK. split; apply String.eqb_neq; intros E; rewrite E in KK; [now apply kind_not_time in KK|now apply kind_not_action in KK]. }
    destruct H as [T|T1 T2|T|k T KK|k T KK|T|T|x T X|T1 T2|T1 T2|l T L|T|T].
    + assert (T' : f_type d = "time" \/ (f_type d = "param" \/ f_type d = "read") /\ f_sub d = "time") by tauto.
      destruct (TIME T') as (b' & E & S2). exists b'. split; [|assumption].
      destruct T as [T|[T T2]]; rewrite T in *; rewrite ?T2; exact E.
    + destruct (TIME ltac:(auto)) as (b' & E & S2). exists b'. split; [|assumption]. rewrite T1, T2 in *. exact E.
    + destruct (TIME T) as (b' & E & S2). exists b'. split; [|assumption].
      destruct T as [T|[[T|T] T2]]; rewrite T in *; rewrite ?T2; exact E.
    + destruct (NT k KK) as [N1 N2]. destruct (PARAM k KK ltac:(tauto)) as (b' & E & S2). exists b'. split; [|assumption].
      destruct T as [T|T]; rewrite T in *; rewrite N1, N2; exact E.
    + destruct (NT k KK) as [N1 N2]. destruct (PARAM k KK ltac:(tauto)) as (b' & E & S2). exists b'. split; [|assumption].
      rewrite T in *; rewrite N1; exact E.
    + rewrite T. apply (OUT "bit" KBool _ eq_refl (sh_bit_out d T)).
    + rewrite T. apply POS. exact T.
    + rewrite T. apply POS. exact T.
    + rewrite T1, T2. cbn. eexists. split; [reflexivity|]. apply st_ok_set; [now left|]. eapply st_ok_iff; eauto.
    + rewrite T1. apply String.eqb_neq in T2 as T3. cbn. rewrite T3. unfold make_ext_capture.
      destruct (one_made (KChoice (f_labels d)) true 1 ".CAPTURE" _ "outputs" b (sh_ext d T1 T2) ltac:(cbn; auto) S')
        as (b1 & b2 & E1 & E2 & S2 & _).
      rewrite E1. cbn [bind]. rewrite E2. eauto.
    + pose proof (sh_mux d _ T eq_refl) as V. destruct (MUX _ V) as (b1 & E1 & S1 & a & A & S2).
      destruct T as [T|T]; rewrite T; cbn.
      * rewrite E1. cbn [bind]. unfold make_mux_delay.
        destruct (group_ok "inputs" _ b1 ltac:(cbn; auto) S2) as (b2 & E2 & S3). rewrite E2. cbn [bind].
        apply (second_made (KNum "uint8") true 1 ".DELAY" _ a b2 (sh_delay d T) ltac:(discriminate) A (makes_nil _ V) S3).
      * eauto.
    + rewrite T. cbn. pose proof (sh_mux d _ (or_introl T) eq_refl) as V.
      destruct (MUX _ V) as (b1 & E1 & S1 & a & A & S2). rewrite E1. cbn [bind]. unfold make_mux_delay.
      destruct (group_ok "inputs" _ b1 ltac:(cbn; auto) S2) as (b2 & E2 & S3). rewrite E2. cbn [bind].
      apply (second_made (KNum "uint8") true 1 ".DELAY" _ a b2 (sh_delay d T) ltac:(discriminate) A (makes_nil _ V) S3).
    + rewrite T. cbn. unfold make_table.
      destruct (group_ok "parameters" done b ltac:(cbn; auto) S') as (b1 & E1 & S1). rewrite E1. cbn [bind].
      pose proof (makes_nil _ (sh_table d T)) as MF. destruct (M _ MF) as (a & F & D).
      destruct (add_ok _ _ _ _ F D S1) as (b2 & E2 & S2). rewrite E2. cbn [bind].
      eexists. split; [reflexivity|]. apply st_ok_set; [auto|]. eapply st_ok_iff; [|exact S2].
      intros y [Y| ->]; [auto|]. right. exists (underscored f). split; [assumption|apply F].
Qed.
End Made.

Lemma make_all_ok fs : forall done b,
  NoDup (map fst fs) ->
  (forall f d, In (f, d) fs -> known d) ->
  (forall f d p, In (f, d) fs -> makes f d p -> exists a, fine p a /\ ~ done a) ->
  (forall f d f' d' p p', In (f, d) fs -> In (f', d') fs -> makes f d p -> makes f' d' p' ->
     snake_to_camel p = snake_to_camel p' -> f = f' /\ p = p') ->
  st_ok done b -> exists b', make_all fs b = Ok b'.
Proof.
  induction fs as [|[f d] fs IH]; intros done b N K M I S; cbn [make_all]; [eauto|].
  cbn in N. inversion N as [|? ? N1 N2]; subst.
  destruct (parts_for_ok f d done b) as (b1 & E1 & S1).
  - apply (K f d). now left.
  - intros p P. apply (M f d p); [now left|assumption].
  - intros p p' P P' E. apply (I f d f d p p'); auto; now left.
  - assumption.
  - rewrite E1. cbn [bind]. apply (IH (then_done f d done) b1); auto.
    + intros f' d' X. apply (K f' d'). now right.
    + intros f' d' p X P. destruct (M f' d' p) as (a & F & D); [now right|assumption|].
      exists a. split; [assumption|]. intros [Y|(p' & P' & Y)]; [contradiction|].
      destruct (I f d f' d' p' p) as [-> _]; auto; [now left|now right|destruct F as (_ & F & _); congruence|].
      apply N1. apply in_map_iff. exists (f', d'). auto.
    + intros f1 d1 f2 d2 p p' X Y. apply I; now right.
Qed.

Lemma taken_camel r : In r reserved -> exists t, In t taken /\ snake 0 t /\ snake_to_camel t = Some r.
Proof.
  unfold reserved, taken, groups. cbn [In app].
  intros [<-|[<-|[<-|[<-|[<-|[<-|[<-|[<-|[]]]]]]]]];
    [exists "HEALTH"|exists "ICON"|exists "LABEL"|exists "HELP"|exists "PARAMETERS"|exists "READBACKS"|exists "OUTPUTS"|exists "INPUTS"];
    (split; [auto 10|]; split; [|vm_compute; reflexivity]);
    repeat (apply snake_letter; [discriminate|unfold upper_letter; cbn; lia|]); apply snake_end; discriminate.
Qed.

Lemma made fs : 
  NoDup (map fst fs) ->
  (forall f d, In (f, d) fs -> known d) ->
  (forall f d p, In (f, d) fs -> makes f d p -> snake 0 p /\ ~ In p taken) ->
  (forall f d f' d' p, In (f, d) fs -> In (f', d') fs -> makes f d p -> makes f' d' p -> f = f') ->
  exists b, make_block fs = Ok b.
Proof.
  intros N K W I. unfold make_block. apply (make_all_ok fs (fun _ => False)); auto.
  - intros f d p X P. destruct (W f d p X P) as [Sn T]. destruct (snake_camel p Sn) as (a & A & _).
    exists a. split; [|auto]. repeat split.
    + now apply (snake_part_ok 0).
    + assumption.
    + eapply snake_is_camel; eauto.
    + intros R. destruct (taken_camel a R) as (t & T1 & T2 & T3). apply T.
      rewrite (camel_injective p t Sn T2); [assumption|congruence].
  - intros f d f' d' p p' X Y P P' E. assert (p = p').
    { apply camel_injective; [apply (W f d p X P)|apply (W f' d' p' Y P')|assumption]. }
    subst p'. split; [eapply I; eauto|reflexivity].
  - split; [apply names_common|]. split.
    + intros a A. left. cbn in A |- *. tauto.
    + intros g G A. cbn in G, A. destruct G as [<-|[<-|[<-|[<-|[]]]]]; destruct A as [A|[A|[A|[A|[]]]]]; discriminate.
Qed.
