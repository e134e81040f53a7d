(** C70: the CS and axis of a motor.  C71: moves in a CS. *)
From Coq Require Import String Ascii Bool QArith Lia List Decimal DecimalString.
From Verif Require Import Base Hdf_Model Savu_Model Savu_Proofs Odin2_Proofs Ports_Model.
From Verif Require Pmac_Model.
Import ListNotations.
Local Open Scope string_scope.
Local Open Scope list_scope.
Local Open Scope nat_scope.

(** An axis of a CS, or I, which stands for inverse kinematics. *)
Definition axis_name (a : string) : Prop := In a ["A"; "B"; "C"; "U"; "V"; "W"; "X"; "Y"; "Z"; "I"].
Definition no_comma (s : string) : Prop := ~ In ","%char (list_ascii_of_string s).
(** What is shown for the last readings of the port and the axis: with an alarm if one is bad. *)
Definition shown (ports : list string) (p : option nat) (a : option string) : string * bool :=
  match p, a with
  | Some i, Some x => if in_dec string_dec x ["A"; "B"; "C"; "U"; "V"; "W"; "X"; "Y"; "Z"; "I"]
                      then (match i with 0 => "" | _ => nth i ports "" +++ "," +++ x end, false)
                      else ("", true)
  | _, _ => ("", true)
  end.
(** The last readings. *)
Definition last_port (p : option nat) (l : list reading) : option nat :=
  fold_left (fun p r => match r with RPort q => q | _ => p end) l p.
Definition last_axis (a : option string) (l : list reading) : option string :=
  fold_left (fun a r => match r with RAxis b => b | _ => a end) l a.

Lemma letters_in a : smem a letters = true <-> axis_name a.
Proof. rewrite smem_In. reflexivity. Qed.
Lemma letter_ne a : axis_name a -> a <> "" /\ no_comma a.
Proof.
  unfold axis_name, no_comma. intro H.
  repeat (destruct H as [<-|H]; [split; [discriminate|cbn; intros [X|[]]; discriminate]|]). destruct H.
Qed.

(** The choices are no CS, and each axis of each port but the first. *)
Theorem C70_choices : forall ports v, In v (make_choices ports) <->
  v = "" \/ exists p a, In p (tl ports) /\ axis_name a /\ v = p +++ "," +++ a.
Proof.
  intros ports v. unfold make_choices. cbn [In]. rewrite in_flat_map. split.
  - intros [<-|(p & P & I)]; [now left|right]. apply in_map_iff in I. destruct I as (a & <- & A). exists p, a. split; [exact P|]. split; [|reflexivity]. exact A.
  - intros [->|(p & a & P & A & ->)]; [now left|right]. exists p. split; [exact P|]. apply in_map_iff. exists a. split; [reflexivity|]. exact A.
Qed.
Print Assumptions C70_choices.

Definition port_of (ports : list string) (p : option nat) : option string :=
  match p with None => None | Some 0 => Some "" | Some i => nth_error ports i end.
Definition axis_of (a : option string) : option string :=
  match a with Some x => if smem x letters then Some x else None | None => None end.
Ltac bad := eexists; split; [reflexivity|]; cbn [t_ports t_choices t_port t_axis t_cs t_pmac t_number]; repeat split; auto;
  match goal with H : t_choices _ = _ |- _ => rewrite H end; reflexivity.
Lemma show_ok s ports p a : (forall x, In x (tl ports) -> x <> "") -> t_ports s = ports -> t_choices s = make_choices ports ->
  match p with Some i => i < length ports | None => True end ->
  t_port s = port_of ports p -> t_axis s = axis_of a ->
  exists s', show s = (s', None) /\ t_ports s' = ports /\ t_choices s' = make_choices ports /\ t_port s' = t_port s /\ t_axis s' = t_axis s /\
             t_cs s' = shown ports p a /\ t_pmac s' = t_pmac s /\ t_number s' = t_number s.
Proof.
  intros NE EP EC L Ep Ea. unfold show. rewrite Ep, Ea.
  assert (D : forall x, smem x letters = true -> exists H, in_dec string_dec x ["A"; "B"; "C"; "U"; "V"; "W"; "X"; "Y"; "Z"; "I"] = left H).
  { intros x X. destruct (in_dec _ _ _) as [H|H]; [eauto|]. exfalso. apply H. now apply letters_in. }
  assert (D' : forall x, smem x letters = false -> exists H, in_dec string_dec x ["A"; "B"; "C"; "U"; "V"; "W"; "X"; "Y"; "Z"; "I"] = right H).
  { intros x X. destruct (in_dec _ _ _) as [H|H]; [|eauto]. exfalso. apply letters_in in H. congruence. }
  destruct p as [i|]; cbn [port_of shown].
  2:{ bad. }
  destruct a as [x|].
  2:{ cbn [axis_of]. destruct i; [bad|]. cbn [port_of] in *. destruct (nth_error ports (S i)); bad. }
  cbn [axis_of] in *. destruct (smem x letters) eqn:S.
  2:{ destruct (D' _ S) as [H ->]. destruct i; [bad|]. destruct (nth_error ports (Datatypes.S i)); bad. }
  destruct (D _ S) as [H ->]. apply letters_in, letter_ne in S. destruct S as [X _].
  destruct i as [|i].
  - cbn [port_of String.eqb negb andb]. unfold set_cs. rewrite EC. cbn [make_choices smem existsb String.eqb orb].
    eexists. split; [reflexivity|]. cbn. rewrite EP, Ep, Ea. cbn. repeat split.
  - cbn [port_of] in Ep |- *. destruct (nth_error ports (Datatypes.S i)) as [q|] eqn:N.
    2:{ apply nth_error_None in N. lia. }
    assert (Q : In q (tl ports)). { destruct ports as [|p0 r]; [discriminate|]. cbn in N |- *. now apply nth_error_In in N. }
    destruct (String.eqb_spec q "") as [E|_]; [exfalso; exact (NE _ Q E)|]. destruct (String.eqb_spec x "") as [E|_]; [congruence|]. cbn [negb andb].
    unfold set_cs. assert (M : smem (q +++ "," +++ x) (t_choices s) = true).
    { rewrite EC. apply smem_In, C70_choices. right. exists q, x. auto. }
    rewrite M. eexists. split; [reflexivity|]. cbn [t_ports t_choices t_port t_axis t_cs t_pmac t_number]. rewrite EP, Ep, Ea.
    rewrite (nth_error_nth _ _ _ N). repeat split; auto.
Qed.

(** The CS of a motor is that of the last readings, from when it is connected and through any updates. *)
Theorem C70_shown : forall ports i axis out s l, (forall x, In x (tl ports) -> x <> "") -> (i = 0 -> hd "" ports = "") ->
  reconnect init ports i axis out = (s, None) ->
  Forall (fun r => match r with RPort (Some j) => j < length ports | _ => True end) l ->
  t_cs (updates s l) = shown ports (last_port (Some i) l) (last_axis (Some axis) l) /\
  In (fst (t_cs (updates s l))) (t_choices (updates s l)).
Proof.
  intros ports i axis out s l NE Z R F.
  pose (Inv := fun s p a => t_ports s = ports /\ t_choices s = make_choices ports /\ match p with Some i => i < length ports | None => True end /\
    t_port s = port_of ports p /\ t_axis s = axis_of a /\ t_cs s = shown ports p a).
  assert (I0 : Inv s (Some i) (Some axis)).
  { unfold reconnect in R. destruct (nth_error ports i) as [p|] eqn:N; [|discriminate].
    assert (L : i < length ports) by (apply nth_error_Some; congruence).
    assert (P : Some p = port_of ports (Some i)).
    { destruct i; [|now rewrite <- N]. cbn. specialize (Z eq_refl). destruct ports; [discriminate|]. cbn in N, Z. congruence. }
    cbn [update] in R. match type of R with context [show ?x] => destruct (show_ok x ports (Some i) (Some axis) NE eq_refl eq_refl L P eq_refl) as (s2 & E & A1 & A2 & A3 & A4 & A5 & _) end.
    rewrite E in R. cbn [t_port t_axis set_axis set_port] in A3, A4. rewrite P in A3.
    assert (I2 : Inv s2 (Some i) (Some axis)) by (repeat split; assumption). clear E A1 A2 A3 A4 A5. cbn [update] in R.
    destruct (fields out) as [[q|] n]; [|discriminate]. destruct n as [n|]; [|discriminate]. destruct (int_of n) as [k|]; [|discriminate].
    destruct I2 as (B1 & B2 & B3 & B4 & B5 & B6). rewrite B1, B2, B4, B5 in R.
    match type of R with show ?x = _ => destruct (show_ok x ports (Some i) (Some axis) NE eq_refl eq_refl L eq_refl eq_refl) as (s3 & E & C1 & C2 & C3 & C4 & C5 & _) end.
    rewrite E in R. injection R as <-. repeat split; auto. }
  assert (G : forall l s p a, Inv s p a -> Forall (fun r => match r with RPort (Some j) => j < length ports | _ => True end) l ->
            Inv (updates s l) (last_port p l) (last_axis a l)).
  { clear - NE. induction l as [|r l IH]; intros s p a I F; [exact I|]. inversion F as [|? ? Fr F']; subst.
    change (updates s (r :: l)) with (updates (fst (update s r)) l). cbn [last_port last_axis fold_left].
    apply IH; [|exact F']. destruct I as (B1 & B2 & B3 & B4 & B5 & B6).
    destruct r as [q|q|q]; cbn [update].
    - assert (X : match q with Some j => j < length ports | None => True end) by (destruct q; [exact Fr|exact I]).
      assert (Y : exists s0, (match q with
        | None => show (set_port s None) | Some 0 => show (set_port s (Some ""))
        | Some (S n as i) => match port_at s i with Some p => show (set_port s (Some p)) | None => (s, Some OutOfRange) end end) = show s0
        /\ t_ports s0 = ports /\ t_choices s0 = make_choices ports /\ t_port s0 = port_of ports q /\ t_axis s0 = axis_of a).
      { destruct q as [[|j]|].
        - eexists. split; [reflexivity|]. auto.
        - unfold port_at. rewrite B1. destruct (nth_error ports (S j)) eqn:N; [|apply nth_error_None in N; lia].
          eexists. split; [reflexivity|]. cbn [set_port t_ports t_choices t_port t_axis port_of]. auto.
        - eexists. split; [reflexivity|]. auto. }
      destruct Y as (s0 & Y & Y1 & Y2 & Y3 & Y4).
      assert (Y' : fst (update s (RPort q)) = fst (show s0)) by (rewrite <- Y; destruct q as [[|]|]; reflexivity).
      change (Inv (fst (update s (RPort q))) q a). rewrite Y'.
      destruct (show_ok s0 ports q a NE Y1 Y2 X Y3 Y4) as (s3 & E & C1 & C2 & C3 & C4 & C5 & _). rewrite E. cbn [fst].
      repeat split; auto; congruence.
    - assert (Y : exists s0, fst (update s (RAxis q)) = fst (show s0) /\ t_ports s0 = ports /\ t_choices s0 = make_choices ports /\ t_port s0 = port_of ports p /\ t_axis s0 = axis_of q).
      { destruct q as [x|]; (eexists; split; [reflexivity|]; cbn; auto). }
      destruct Y as (s0 & Y & Y1 & Y2 & Y3 & Y4). change (Inv (fst (update s (RAxis q))) p q). rewrite Y.
      destruct (show_ok s0 ports p q NE Y1 Y2 B3 Y3 Y4) as (s3 & E & C1 & C2 & C3 & C4 & C5 & _). rewrite E. cbn [fst].
      repeat split; auto; congruence.
    - assert (Z0 : forall x n, Inv (fst (show (mkSt (t_ports s) (t_choices s) (t_port s) (t_axis s) (t_cs s) x n))) p a).
      { intros x n. match goal with |- context [show ?y] => destruct (show_ok y ports p a NE B1 B2 B3 B4 B5) as (s3 & E & C1 & C2 & C3 & C4 & C5 & _) end.
        rewrite E. cbn [fst]. cbn [t_port t_axis] in C3, C4. repeat split; auto; congruence. }
      destruct q as [x|]; [|apply Z0]. destruct (fields x) as [[pm|] n]; [|cbn; repeat split; auto].
      destruct n as [n|]; [|cbn; repeat split; auto]. destruct (int_of n); [apply Z0|cbn; repeat split; auto]. }
  destruct (G l s _ _ I0 F) as (_ & B2 & B3 & _ & _ & B6). split; [exact B6|]. rewrite B6, B2.
  unfold shown. destruct (last_port _ _) as [j|]; [|now left]. destruct (last_axis _ _) as [x|]; [|now left].
  destruct (in_dec _ _ _) as [H|H]; [|now left]. destruct j as [|j]; [now left|]. cbn [fst]. apply C70_choices. right.
  exists (nth (S j) ports ""), x. split; [|split; [exact H|reflexivity]]. destruct ports as [|p0 r]; [cbn in B3; lia|]. cbn in B3 |- *. apply nth_In. lia.
Qed.
Print Assumptions C70_shown.

Lemma split_pair p a : no_comma p -> no_comma a -> split ","%char (p +++ "," +++ a) = [p; a].
Proof. intros P A. change ("," +++ a) with (String "," a). rewrite split_app, !split_plain by assumption. reflexivity. Qed.
Lemma index_of_spec x l i : ~ In x l \/ exists k, nth_error l k = Some x /\ index_of x l i = Some (i + k).
Proof.
  revert i. induction l as [|y l IH]; intro i; [left; auto|]. cbn [index_of]. destruct (String.eqb_spec x y) as [->|N].
  - right. exists 0. split; [reflexivity|]. now rewrite Nat.add_0_r.
  - destruct (IH (S i)) as [X|(k & A & B)]; [left; intros [E|I]; [congruence|auto]|]. right. exists (S k). split; [exact A|]. rewrite B. f_equal. lia.
Qed.
(** A choice that is put: the PVs get the port and axis of it, and when they read back the same, it is what
    the block shows.  No CS is port 0 without an axis. *)
Theorem C70_put : forall s ports v, t_ports s = ports -> t_choices s = make_choices ports -> NoDup ports ->
  (forall p, In p (tl ports) -> p <> "" /\ no_comma p) -> In v (make_choices ports) ->
  (v = "" /\ put_values s v = Some (0, "")) \/
  (exists p i a, v = p +++ "," +++ a /\ axis_name a /\ 0 < i /\ nth_error ports i = Some p /\ put_values s v = Some (i, a) /\
    exists s', after_put s i a = (s', None) /\ t_cs s' = (v, false)).
Proof.
  intros s ports v EP EC ND NC V. apply C70_choices in V. destruct V as [->|(p & a & P & A & ->)]; [left; auto|]. right.
  destruct (NC p P) as [PE PC]. destruct (letter_ne _ A) as [AE AC].
  destruct ports as [|p0 ports]; [destruct P|]. cbn in P.
  assert (X : p0 <> p) by (inversion ND; subst; congruence).
  destruct (index_of_spec p ports 1) as [N|(k & K1 & K2)]; [contradiction|].
  exists p, (S k), a. split; [reflexivity|]. split; [exact A|]. split; [lia|]. split; [exact K1|]. split.
  - unfold put_values. destruct (String.eqb_spec (p +++ "," +++ a) "") as [E|_]; [exfalso; exact (comma_ne _ _ E)|].
    rewrite split_pair by assumption. rewrite EP. cbn [index_of]. destruct (String.eqb_spec p p0) as [E|_]; [congruence|]. rewrite K2. reflexivity.
  - unfold after_put. rewrite EP. cbn [nth_error]. rewrite K1. cbn [update].
    match goal with |- exists s', show ?x = _ /\ _ => destruct (show_ok x (p0 :: ports) (Some (S k)) (Some a)) as (s' & E & _ & _ & _ & _ & C & _) end; auto.
    + intros x I. now apply NC.
    + cbn. assert (k < length ports) by (apply nth_error_Some; congruence). lia.
    + exists s'. split; [exact E|]. rewrite C. unfold shown. destruct (in_dec _ _ _) as [H|H]; [|contradiction]. cbn [nth].
      rewrite (nth_error_nth _ _ _ K1). reflexivity.
Qed.
Print Assumptions C70_put.

(** What a motor shows is what one source port, of the CS with that port, offers; and of no other. *)
Theorem C70_link : forall p a q b, no_comma p -> no_comma q -> axis_name a ->
  In (a, p +++ "," +++ a) (source_values p) /\ (In (b, p +++ "," +++ a) (source_values q) <-> q = p /\ b = a).
Proof.
  intros p a q b P Q A. assert (S : forall q, In (a, q +++ "," +++ a) (source_values q)).
  { intro r. unfold source_values. apply in_map_iff. exists a. split; [reflexivity|exact A]. }
  split; [apply S|]. split; [|intros [-> ->]; apply S]. intro I. unfold source_values in I. apply in_map_iff in I.
  destruct I as (k & E & _). injection E as <- E. apply comma_split in E; auto.
Qed.
Print Assumptions C70_link.

Example C70_ex : exists s, reconnect init [""; "BRICK1CS1"; "BRICK1CS2"] 1 "A" "@asyn(PMAC, 7)" = (s, None) /\
  t_cs s = ("BRICK1CS1,A", false) /\ t_pmac s = "PMAC" /\ t_number s = 7 /\ length (t_choices s) = 21 /\
  t_cs (updates s [RPort (Some 2); RAxis None; RAxis (Some "I")]) = ("BRICK1CS2,I", false) /\
  t_cs (updates s [RPort (Some 0)]) = ("", false) /\ t_cs (updates s [RAxis None]) = ("", true) /\
  put_values s "BRICK1CS2,X" = Some (2, "X").
Proof. eexists. split; [reflexivity|]. repeat split. Qed.

(** The first port, which stands for no CS, when it has a name: a motor that has an axis letter left over
    cannot be connected, although the same readings, as updates, are shown as no CS. *)
Theorem C70_first_port_fails : forall p0 rest a out, p0 <> "" -> no_comma p0 -> ~ In p0 rest ->
  (forall p, In p rest -> no_comma p) -> axis_name a ->
  snd (reconnect init (p0 :: rest) 0 a out) = Some NotAChoice.
Proof.
  intros p0 rest a out NE NC NI NR A. unfold reconnect. cbn [nth_error update]. rewrite (proj2 (letters_in a) A).
  unfold show. cbn [t_port t_axis set_axis set_port]. destruct (String.eqb_spec p0 "") as [|_]; [contradiction|].
  destruct (letter_ne _ A) as [AE _]. destruct (String.eqb_spec a "") as [|_]; [contradiction|]. cbn [negb andb]. unfold set_cs. cbn [t_choices].
  destruct (smem _ _) eqn:S; [|reflexivity]. exfalso. apply smem_In, C70_choices in S. destruct S as [S|(p & b & P & B & E)]; [exact (comma_ne _ _ S)|].
  apply comma_split in E; [|exact NC|now apply NR]. destruct E as [-> _]. contradiction.
Qed.
Print Assumptions C70_first_port_fails.
Example C70_ex_first_port : snd (reconnect init ["ANYTHING"; "BRICK1CS1"; "BRICK1CS2"] 0 "A" "@asyn(PMAC,1)") = Some NotAChoice /\
  exists s, reconnect init ["ANYTHING"; "BRICK1CS1"; "BRICK1CS2"] 1 "A" "@asyn(PMAC,1)" = (s, None) /\
            t_cs (updates s [RPort (Some 0)]) = ("", false).
Proof. split; [reflexivity|]. eexists. split; reflexivity. Qed.

(** A motor that is taken out of its CS, with "", is shown with an alarm. *)
Theorem C70_none_refuted : exists s i a s', put_values s "" = Some (i, a) /\ after_put s i a = (s', None) /\ t_cs s' = ("", true).
Proof.
  exists (fst (reconnect init [""; "BRICK1CS1"; "BRICK1CS2"] 1 "A" "@asyn(PMAC,1)")), 0, "". eexists. split; [reflexivity|]. split; reflexivity.
Qed.
Print Assumptions C70_none_refuted.

Definition clean (s : string) : Prop := forall c, In c (list_ascii_of_string s) -> c <> "("%char /\ c <> ")"%char /\ c <> ","%char /\ c <> " "%char.
Lemma rstrip_keep s : ~ In ")"%char (list_ascii_of_string s) -> rstrip s = s.
Proof.
  induction s as [|c s IH]; intro H; [reflexivity|]. cbn [rstrip]. rewrite IH by (intro I; apply H; now right). destruct s; [|reflexivity].
  destruct (Ascii.eqb_spec c ")"%char) as [->|]; [exfalso; apply H; now left|reflexivity].
Qed.
Lemma rstrip_paren s : rstrip (s +++ ")") = rstrip s.
Proof. induction s as [|c s IH]; [reflexivity|]. cbn [append rstrip]. fold append. change (String c s +++ ")") with (String c (s +++ ")")). cbn [rstrip]. rewrite IH. reflexivity. Qed.
Lemma rstrip_blank_keep s : ~ In " "%char (list_ascii_of_string s) -> rstrip_blank s = s.
Proof.
  induction s as [|c s IH]; intro H; [reflexivity|]. cbn [rstrip_blank]. rewrite IH by (intro I; apply H; now right). destruct s; [|reflexivity].
  destruct (Ascii.eqb_spec c " "%char) as [->|]; [exfalso; apply H; now left|reflexivity].
Qed.
Lemma lstrip_keep s : ~ In " "%char (list_ascii_of_string s) -> lstrip s = s.
Proof.
  destruct s as [|c s]; intro H; [reflexivity|]. assert (N : c <> " "%char) by (intros ->; apply H; now left).
  destruct c as [[] [] [] [] [] [] [] []]; try reflexivity. exfalso. apply N. reflexivity.
Qed.
Lemma in_app_s c a b : In c (list_ascii_of_string (a +++ b)) <-> In c (list_ascii_of_string a) \/ In c (list_ascii_of_string b).
Proof. induction a as [|x a IH]; cbn; [tauto|]. rewrite IH. tauto. Qed.
Lemma fields_ok pre port n : ~ In "("%char (list_ascii_of_string pre) -> clean port -> clean n ->
  fields (pre +++ "(" +++ port +++ "," +++ n +++ ")") = (Some port, Some n) /\ fields (pre +++ "(" +++ port +++ ", " +++ n +++ ")") = (Some port, Some n).
Proof.
  intros PRE P N. assert (NP : forall c, (c = "("%char \/ c = ")"%char \/ c = ","%char \/ c = " "%char) -> ~ In c (list_ascii_of_string port)).
  { intros c C I. destruct (P c I) as (A & B & D & E). tauto. }
  assert (NN : forall c, (c = "("%char \/ c = ")"%char \/ c = ","%char \/ c = " "%char) -> ~ In c (list_ascii_of_string n)).
  { intros c C I. destruct (N c I) as (A & B & D & E). tauto. }
  assert (G : forall m, ~ In "("%char (list_ascii_of_string m) -> ~ In ","%char (list_ascii_of_string m) -> ~ In ")"%char (list_ascii_of_string m) -> strip m = n ->
    fields (pre +++ "(" +++ port +++ "," +++ m +++ ")") = (Some port, Some n)).
  { intros m M1 M2 M3 M4. unfold fields. change ("(" +++ port +++ "," +++ m +++ ")") with (String "(" (port +++ "," +++ m +++ ")")).
    rewrite split_app, (split_plain _ pre) by assumption. cbn [Datatypes.app].
    assert (W : ~ In "("%char (list_ascii_of_string (port +++ "," +++ m +++ ")"))).
    { rewrite !in_app_s. cbn. intros [I|[[I|[]]|[I|[I|[]]]]]; try discriminate; [now apply NP in I; tauto|contradiction]. }
    rewrite (split_plain _ _ W). replace (port +++ "," +++ m +++ ")") with ((port +++ "," +++ m) +++ ")") by (rewrite !app_assoc_s; reflexivity).
    cbn [Datatypes.app]. rewrite rstrip_paren, rstrip_keep.
    2:{ rewrite !in_app_s. cbn. intros [I|[[I|[]]|I]]; try discriminate; [apply NP in I; tauto|contradiction]. }
    change ("," +++ m) with (String "," m). rewrite split_app, !split_plain by (try assumption; apply NP; tauto). cbn [Datatypes.app].
    rewrite M4. unfold strip. rewrite lstrip_keep by (apply NP; tauto). rewrite rstrip_blank_keep by (apply NP; tauto). reflexivity. }
  split.
  - apply G; try (apply NN; tauto). unfold strip. rewrite lstrip_keep by (apply NN; tauto). apply rstrip_blank_keep, NN. tauto.
  - change (", " +++ n +++ ")") with ("," +++ (String " " n) +++ ")"). apply G; try (cbn; intros [X|X]; [discriminate|]; apply NN in X; tauto).
    unfold strip. change (lstrip (String " " n)) with (lstrip n). rewrite lstrip_keep by (apply NN; tauto). apply rstrip_blank_keep, NN. tauto.
Qed.
Lemma uint_chars u c : In c (list_ascii_of_string (NilEmpty.string_of_uint u)) -> In c ["0"; "1"; "2"; "3"; "4"; "5"; "6"; "7"; "8"; "9"]%char.
Proof. induction u; cbn; [tauto|..]; (intros [<-|I]; [cbn; tauto|now apply IHu]). Qed.
Lemma str_clean n : clean (str n).
Proof. intros c I. apply uint_chars in I. cbn in I. repeat (destruct I as [<-|I]; [repeat split; discriminate|]). destruct I. Qed.
Lemma int_of_str n : int_of (str n) = Some n.
Proof.
  unfold int_of. destruct (str n) eqn:E.
  - exfalso. assert (X : num (str n) = num "") by now rewrite E. rewrite num_str in X. cbn in X. subst. discriminate E.
  - rewrite <- E. unfold str. rewrite NilEmpty.usu. f_equal. apply DecimalNat.Unsigned.of_to.
Qed.
(** A raw motor shows the PMAC port and the number of its OUT link; a compound motor shows the CS port and,
    for the numbers 1 to 9, the axis of that number.  More is an error. *)
Theorem C70_out : forall pre port n, ~ In "("%char (list_ascii_of_string pre) -> clean port ->
  (forall s, let '(s', _) := update s (ROut (Some (pre +++ "(" +++ port +++ "," +++ str n +++ ")"))) in
             t_pmac s' = port /\ t_number s' = n) /\
  (forall a, nth_error ["A"; "B"; "C"; "U"; "V"; "W"; "X"; "Y"; "Z"] (n - 1) = Some a -> 0 < n ->
     compound (pre +++ "(" +++ port +++ "," +++ str n +++ ")") = Ok (port +++ "," +++ a)) /\
  (9 < n -> compound (pre +++ "(" +++ port +++ "," +++ str n +++ ")") = Err OutOfRange).
Proof.
  intros pre port n PRE P. destruct (fields_ok pre port (str n) PRE P (str_clean n)) as [F _].
  split; [|split].
  - intro s. destruct (update s _) as [s' e] eqn:E. cbn [update] in E. rewrite F, int_of_str in E. cbn zeta in E.
    unfold show in E. cbn [t_port t_axis t_choices] in E. destruct (t_port s) as [p|], (t_axis s) as [a|]; cbn in E; try (injection E as <- _; auto).
    destruct (_ && _); unfold set_cs in E; destruct (smem _ _); injection E as <- _; auto.
  - intros a A L. unfold compound. rewrite F, int_of_str. destruct n as [|k]; [lia|]. cbn [Nat.sub] in A. rewrite Nat.sub_0_r in A.
    change Pmac_Model.CS_AXIS_NAMES with ["A"; "B"; "C"; "U"; "V"; "W"; "X"; "Y"; "Z"]. rewrite A. reflexivity.
  - intro L. unfold compound. rewrite F, int_of_str. destruct n as [|k]; [lia|]. destruct (nth_error Pmac_Model.CS_AXIS_NAMES k) eqn:E; [|reflexivity].
    exfalso. assert (k < 9) by (apply (proj1 (nth_error_Some Pmac_Model.CS_AXIS_NAMES k)); congruence). lia.
Qed.
Print Assumptions C70_out.
Example C70_ex_out : compound "@asyn(BRICK1CS1,3)" = Ok "BRICK1CS1,C" /\ compound "@asyn(BRICK1CS1, 9 )" = Ok "BRICK1CS1,Z".
Proof. split; reflexivity. Qed.

(** Number 0, which is no axis, is shown as Z: the negative index counts from the end. *)
Theorem C70_zero_refuted : exists out, compound out = Ok "BRICK1CS1,Z" /\ out = "@asyn(BRICK1CS1,0)".
Proof. eexists. split; [|reflexivity]. reflexivity. Qed.
Print Assumptions C70_zero_refuted.

(** ** C71 *)
Lemma endswith_spec s e : endswith s e = true <-> exists p, s = p +++ e.
Proof.
  induction s as [|c s IH]; cbn [endswith]; rewrite orb_true_iff, String.eqb_eq.
  - split; [intros [<-|X]; [now exists ""|discriminate]|]. intros (p & E). destruct p; [left; exact E|discriminate].
  - rewrite IH. split.
    + intros [<-|(p & ->)]; [now exists ""|now exists (String c p)].
    + intros ([|d p] & E); [left; exact E|]. right. cbn in E. injection E as _ ->. eauto.
Qed.
Lemma digits_app a b : digits (a +++ b) = digits a && digits b.
Proof. induction a as [|c a IH]; [reflexivity|]. cbn. rewrite IH. now rewrite andb_assoc. Qed.
Lemma str_digits n : digits (str n) = true.
Proof. unfold str. generalize (Nat.to_uint n). induction u; cbn; auto. Qed.
Lemma str_ne n : str n <> "".
Proof. intro E. assert (X := int_of_str n). rewrite E in X. discriminate. Qed.
(** The digits at the end of a port are those of its number. *)
Lemma is_digit_spec : forall c, is_digit c = true <-> In c (list_ascii_of_string "0123456789").
Proof.
  intros c. split.
  - destruct c as [[] [] [] [] [] [] [] []]; vm_compute; intros H; try discriminate H; repeat (first [left; reflexivity|right]).
  - cbn [list_ascii_of_string In]. intros H. repeat (destruct H as [<-|H]; [reflexivity|]). destruct H.
Qed.
Definition ends_in_no_digit (base : string) : Prop := base = "" \/ exists b c, base = b +++ String c "" /\ ~ In c (list_ascii_of_string "0123456789").
Lemma base_digits base : ends_in_no_digit base -> base <> "" -> digits base = false.
Proof. intros [->|(b & c & -> & D)] N; [congruence|]. rewrite <- is_digit_spec in D. apply not_true_iff_false in D. rewrite digits_app. cbn. rewrite D. now rewrite andb_false_r. Qed.
Lemma end_digits_app base d : ends_in_no_digit base -> digits d = true -> end_digits (base +++ d) = d.
Proof.
  intros E D. assert (G : forall x, (forall p q, x = p +++ q -> q <> "" -> digits q = false) -> end_digits (x +++ d) = d).
  { induction x as [|c x IH]; intro H.
    - cbn. destruct d; [reflexivity|]. cbn [end_digits]. rewrite D. reflexivity.
    - change (String c x +++ d) with (String c (x +++ d)). cbn [end_digits]. change (String c (x +++ d)) with (String c x +++ d). rewrite digits_app.
      rewrite (H "" (String c x) eq_refl) by discriminate. cbn [andb]. apply IH. intros p q -> Q. now apply (H (String c p) q). }
  apply G. intros p q -> Q. destruct E as [E|(b & c & E & C)].
  - destruct p; [cbn in E; congruence|discriminate].
  - assert (X : exists q', q = q' +++ String c "").
    { clear - E Q. revert b E. induction p as [|x p IH]; intros b E; [eauto|]. destruct b as [|y b].
      - cbn in E. injection E as _ E. destruct p, q; try discriminate. congruence.
      - cbn in E. injection E as _ E. eauto. }
    destruct X as (q' & ->). rewrite <- is_digit_spec in C. apply not_true_iff_false in C. rewrite digits_app. cbn. rewrite C. now rewrite andb_false_r.
Qed.
Lemma app_split x y p z : x +++ y = p +++ z -> (exists q, y = q +++ z) \/ (exists q, q <> "" /\ z = q +++ y /\ x = p +++ q).
Proof.
  revert p. induction x as [|c x IH]; intros p E.
  - left. now exists p.
  - destruct p as [|d p].
    + right. cbn in E. exists (String c x). split; [discriminate|]. split; [now rewrite <- E|reflexivity].
    + cbn in E. injection E as -> E. destruct (IH p E) as [A|(q & Q & A & ->)]; [now left|]. right. exists q. auto.
Qed.
(** For the port of CS n, the method called is that of n; the CS part accepts the port if the number of the
    part is at the end of n, so exactly if it is n when n has one digit. *)
Theorem C71_number : forall base n cs, ends_in_no_digit base ->
  called_method (base +++ str n) = Some ("moveCS" +++ str n) /\
  (cs_accepted cs (base +++ str n) = true <-> exists q, str n = q +++ str cs) /\
  (n < 10 -> (cs_accepted cs (base +++ str n) = true <-> called_method (base +++ str n) = Some (cs_method cs))).
Proof.
  intros base n cs E.
  assert (M : called_method (base +++ str n) = Some ("moveCS" +++ str n)).
  { unfold called_method. rewrite end_digits_app by (auto; apply str_digits). destruct (str n) eqn:S; [exfalso; exact (str_ne n S)|reflexivity]. }
  assert (A : cs_accepted cs (base +++ str n) = true <-> exists q, str n = q +++ str cs).
  { unfold cs_accepted. rewrite endswith_spec. split.
    - intros (p & X). destruct (app_split _ _ _ _ X) as [Y|(q & Q & Y & Z)]; [exact Y|]. exfalso.
      assert (D := str_digits cs). rewrite Y, digits_app in D. apply andb_true_iff in D. destruct D as [D _].
      destruct E as [E|(b & c & E & C)].
      + rewrite Z in E. destruct p; [cbn in E; congruence|discriminate].
      + rewrite Z in E. assert (W : exists q', q = q' +++ String c "").
        { clear - E Q. revert b E. induction p as [|x p IH]; intros b E; [eauto|]. destruct b as [|y b].
          - cbn in E. injection E as _ E. destruct p, q; try discriminate. congruence.
          - cbn in E. injection E as _ E. eauto. }
        destruct W as (q' & ->). rewrite <- is_digit_spec in C. apply not_true_iff_false in C. rewrite digits_app in D. cbn in D. rewrite C, andb_false_r in D. discriminate.
    - intros (q & ->). exists (base +++ q). now rewrite app_assoc_s. }
  split; [exact M|]. split; [exact A|]. intro L. rewrite A, M. unfold cs_method. split.
  - intros (q & X). assert (Q : q = "").
    { destruct q as [|c q]; [reflexivity|]. exfalso. assert (S := str_ne cs).
      assert (Len : String.length (str n) = 1) by (do 10 (destruct n as [|n]; [reflexivity|]); lia).
      rewrite X in Len. cbn in Len. injection Len as Len. destruct q; cbn in Len; [|discriminate]. destruct (str cs); [congruence|discriminate]. }
    subst. cbn in X. now rewrite X.
  - intro X. injection X as X. exists "". now rewrite X.
Qed.
Print Assumptions C71_number.
Example C71_ex : cs_accepted 2 "BRICK1CS2" = true /\ cs_accepted 1 "BRICK1CS2" = false /\ called_method "BRICK1CS2" = Some "moveCS2" /\ called_method "BRICK1CS" = None.
Proof. repeat split. Qed.

(** With two digits a part can have the block of another CS: it is moved in that CS as moveCS11, which this
    part does not have. *)
Theorem C71_number_refuted : exists cs port, cs_accepted cs port = true /\ called_method port <> Some (cs_method cs).
Proof. exists 1, "BRICK1CS11". split; [reflexivity|discriminate]. Qed.
Print Assumptions C71_number_refuted.

(** The demands: those given, for axes of a CS. *)
Definition demands_of (d : dict Q) (l : list ev) : Prop :=
  NoDup l /\ (forall e, In e l -> exists x v, e = Demand x v) /\
  forall x v, In (Demand x v) l <-> In x ["A"; "B"; "C"; "U"; "V"; "W"; "X"; "Y"; "Z"] /\ dget x d = Some v.
(** A move: the moves are deferred, the time and then all the demands are put, and when all of them were
    received, they are released together. *)
Theorem C71_move : forall d time received arrived,
  exists l, demands_of d l /\
    let started := forallb (fun x => negb (dmem x d) || received x) ["A"; "B"; "C"; "U"; "V"; "W"; "X"; "Y"; "Z"] in
    move d time received arrived = (Defer true :: MoveTime (time * 1000)%Q :: l ++ (if started then [Defer false] else []), started && arrived).
Proof.
  intros d time received arrived. unfold move, demands_of. set (names := Pmac_Model.CS_AXIS_NAMES).
  change ["A"; "B"; "C"; "U"; "V"; "W"; "X"; "Y"; "Z"] with names.
  exists (flat_map (fun x => match dget x d with Some v => [Demand x v] | None => [] end) (filter (fun x => dmem x d) names)). split.
  - assert (ND : NoDup names) by (repeat constructor; cbn; intuition discriminate). revert ND. generalize names. clear. intros l ND.
    assert (I : forall e l, In e (flat_map (fun x => match dget x d with Some v => [Demand x v] | None => [] end) (filter (fun x => dmem x d) l)) ->
               exists x v, e = Demand x v /\ In x l /\ dget x d = Some v).
    { clear. intros e l I. apply in_flat_map in I. destruct I as (x & X & I). apply filter_In in X. destruct (dget x d) as [v|] eqn:E; [|destruct I].
      destruct I as [<-|[]]. exists x, v. tauto. }
    split; [|split].
    + induction l as [|x l IH]; [constructor|]. inversion ND; subst. cbn [filter]. destruct (dmem x d) eqn:D; [|now apply IH].
      cbn [flat_map]. destruct (dget x d) as [v|] eqn:E; [|now apply IH]. cbn [Datatypes.app]. constructor; [|now apply IH].
      intro J. apply I in J. destruct J as (y & w & J & Y & _). injection J as <- <-. contradiction.
    + intros e J. apply I in J. destruct J as (x & v & -> & _). eauto.
    + intros x v. split.
      * intro J. apply I in J. destruct J as (y & w & J & Y & Z). injection J as <- <-. auto.
      * intros [X E]. apply in_flat_map. exists x. split; [apply filter_In; split; [exact X|unfold dmem; now rewrite E]|]. rewrite E. now left.
  - cbn zeta. assert (F : forallb received (filter (fun x => dmem x d) names) = forallb (fun x => negb (dmem x d) || received x) names).
    { clearbody names. induction names as [|x l IH]; [reflexivity|]. cbn [filter forallb]. destruct (dmem x d); cbn; now rewrite IH. }
    rewrite F. destruct (forallb (fun x => negb (dmem x d) || received x) names); cbn [andb Datatypes.app]; [reflexivity|]. now rewrite app_nil_r.
Qed.
Print Assumptions C71_move.
Example C71_ex_move : move [("X", 3%Q); ("A", 1%Q)] (1 # 2) (fun _ => true) true
  = ([Defer true; MoveTime ((1 # 2) * 1000); Demand "A" 1; Demand "X" 3; Defer false], true).
Proof. reflexivity. Qed.

(** If one demand is not shown by its PV in time, the moves stay deferred: later moves of the CS by other
    means are held back until the next move. *)
Theorem C71_deferred_refuted : exists d time received evs, move d time received true = (evs, false) /\
  In (Defer true) evs /\ ~ In (Defer false) evs /\ In (Demand "A" 1) evs.
Proof.
  exists [("A", 1%Q)], 0%Q, (fun _ => false). eexists. split; [reflexivity|]. cbn. intuition discriminate.
Qed.
Print Assumptions C71_deferred_refuted.
