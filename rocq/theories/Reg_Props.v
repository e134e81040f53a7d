(* C25: names stay unique. *)
From Coq Require Import String Ascii Bool Arith Lia List.
From Verif Require Import Base Reg_Model.
Import ListNotations.
Local Open Scope list_scope.

(* ---- controllers ---- *)
Lemma register_keeps p cs mri c : dget mri (p_ctl p) = Some c -> dget mri (p_ctl (fst (register p cs))) = Some c.
Proof.
  revert p. induction cs as [|[m x] r IH]; intros p H; cbn [register]; [exact H|].
  destruct (dmem m (p_ctl p)) eqn:E; [exact H|]. apply IH. cbn [p_ctl]. rewrite dget_dset_other; [exact H|].
  intros ->. unfold dmem in E. now rewrite H in E.
Qed.
Lemma register_nodup p cs : NoDup (dkeys (p_ctl p)) -> NoDup (dkeys (p_ctl (fst (register p cs)))).
Proof.
  revert p. induction cs as [|[m x] r IH]; intros p H; cbn [register]; [exact H|].
  destruct (dmem m (p_ctl p)); [exact H|]. apply IH. cbn [p_ctl]. now apply dset_nodup.
Qed.
Lemma register_running p cs : p_running (fst (register p cs)) = p_running p.
Proof.
  revert p. induction cs as [|[m x] r IH]; intros p; cbn [register]; [reflexivity|].
  destruct (dmem m (p_ctl p)); [reflexivity|]. now rewrite IH.
Qed.
Lemma pstep_ctl p o : o <> Stop -> p_ctl (fst (pstep p o)) = match o with AddControllers cs => p_ctl (fst (register p cs)) | _ => p_ctl p end.
Proof.
  intros H. destruct o as [| |cs]; cbn [pstep]; [now destruct (p_running p)|congruence|].
  destruct (register p cs) as [p' [|]]; reflexivity.
Qed.
(* One mri, one controller: whoever has it keeps it, until the process stops *)
Theorem C25_controllers os p mri c : ~ In Stop os -> get_controller p mri = Some c ->
  get_controller (prun p os) mri = Some c.
Proof.
  unfold get_controller. revert p. induction os as [|o r IH]; intros p N H; cbn [prun]; [exact H|].
  apply IH; [intros X; apply N; now right|]. rewrite pstep_ctl by (intros ->; apply N; now left).
  destruct o as [| |cs]; try exact H. now apply register_keeps.
Qed.
Print Assumptions C25_controllers.
Theorem C25_mris_distinct os : NoDup (dkeys (p_ctl (prun (mkProc [] false []) os))).
Proof.
  assert (G : forall p, NoDup (dkeys (p_ctl p)) -> NoDup (dkeys (p_ctl (prun p os)))); [|apply G; constructor].
  induction os as [|o r IH]; intros p H; cbn [prun]; [exact H|]. apply IH. destruct o as [| |cs]; cbn [pstep].
  - now destruct (p_running p).
  - destruct (p_running p); [constructor|exact H].
  - pose proof (register_nodup p cs H). destruct (register p cs) as [p' [|]]; assumption.
Qed.
Print Assumptions C25_mris_distinct.
(* A list of controllers is taken exactly when its mris are new and distinct; then each is
   found under its mri, and started if the process is running.  Otherwise it raises *)
Lemma register_spec p cs : snd (register p cs) = false <->
  NoDup (map fst cs) /\ (forall m, In m (map fst cs) -> get_controller p m = None).
Proof.
  unfold get_controller. revert p. induction cs as [|[m x] r IH]; intros p; cbn [register map fst].
  - cbn [snd]. split; [|reflexivity]. intros _. split; [constructor|intros ? []].
  - unfold dmem. destruct (dget m (p_ctl p)) as [c|] eqn:E.
    + cbn [snd]. split; [discriminate|]. intros [_ H]. specialize (H m (or_introl eq_refl)). congruence.
    + rewrite IH. cbn [p_ctl]. split.
      * intros [H1 H2]. split.
        -- constructor; [|exact H1]. intros Hi. specialize (H2 m Hi). now rewrite dget_dset_same in H2.
        -- intros k [<-|Hk]; [exact E|]. specialize (H2 k Hk). rewrite dget_dset in H2. now destruct (String.eqb k m).
      * intros [H1 H2]. inversion H1 as [|? ? Hn Hd]; subst. split; [exact Hd|].
        intros k Hk. rewrite dget_dset_other by (intros ->; now apply Hn). apply H2. now right.
Qed.
Lemma register_adds p cs m c : snd (register p cs) = false -> In (m, c) cs -> dget m (p_ctl (fst (register p cs))) = Some c.
Proof.
  revert p. induction cs as [|[k x] r IH]; intros p H Hi; [destruct Hi|]. cbn [register] in *.
  destruct (dmem k (p_ctl p)); [discriminate|]. destruct Hi as [Hi|Hi]; [|now apply IH].
  injection Hi as -> ->. apply register_keeps. cbn [p_ctl]. apply dget_dset_same.
Qed.
Theorem C25_add_controllers p cs : snd (pstep p (AddControllers cs)) = false <->
  NoDup (map fst cs) /\ (forall m, In m (map fst cs) -> get_controller p m = None).
Proof. rewrite <- register_spec. cbn [pstep]. destruct (register p cs) as [p' [|]]; cbn; tauto. Qed.
Print Assumptions C25_add_controllers.
Theorem C25_added_found p cs m c : snd (pstep p (AddControllers cs)) = false -> In (m, c) cs ->
  get_controller (fst (pstep p (AddControllers cs))) m = Some c /\
  (p_running p = true -> In c (p_started (fst (pstep p (AddControllers cs))))).
Proof.
  intros H Hi. assert (R : snd (register p cs) = false).
  { cbn [pstep] in H. destruct (register p cs) as [p' [|]]; [discriminate|reflexivity]. }
  pose proof (register_adds p cs m c R Hi) as A. pose proof (register_running p cs) as B. unfold get_controller. cbn [pstep].
  destruct (register p cs) as [p' e]. cbn [fst snd] in *. subst e. cbn [fst p_ctl p_started]. split; [exact A|].
  intros X. rewrite X in B. rewrite B. apply in_or_app. right. apply in_map_iff. exists (m, c). auto.
Qed.
Print Assumptions C25_added_found.

(* ---- parts and fields ---- *)
Definition names (r : registry) : list string := flat_map (fun ol => map fst (snd ol)) r.
Lemma names_append o x r : exists a b, names r = a ++ b /\ names (append_to o x r) = a ++ fst x :: b.
Proof.
  induction r as [|[o' l] t IH]; cbn [append_to].
  - exists [], []. split; reflexivity.
  - destruct (owner_eqb o o').
    + exists (map fst l), (names t). unfold names. cbn [flat_map snd]. split; [reflexivity|]. rewrite map_app, <- app_assoc. reflexivity.
    + destruct IH as (a & b & H1 & H2). exists (map fst l ++ a), b. unfold names in *. cbn [flat_map snd]. rewrite H1, H2.
      now rewrite <- !app_assoc.
Qed.
Lemma taken_names r n : existsb (fun ol : option nat * list (string * nat) => existsb (fun x => String.eqb (fst x) n) (snd ol)) r = true <-> In n (names r).
Proof.
  unfold names. rewrite existsb_exists, in_flat_map. split; intros ([o l] & H1 & H2); exists (o, l); split; auto; cbn [snd] in *.
  - apply existsb_exists in H2 as ([a b] & Ha & Hb). apply String.eqb_eq in Hb. cbn in Hb. subst. apply in_map_iff. exists (n, b). auto.
  - apply in_map_iff in H2 as ([a b] & Ha & Hb). cbn in Ha. subst. apply existsb_exists. exists (n, b). split; [exact Hb|]. cbn. apply String.eqb_refl.
Qed.
Lemma add_field_spec r o n f : (snd (add_field r o n f) = false <-> camel n = true /\ ~ In n (names r)) /\
  fst (add_field r o n f) = if snd (add_field r o n f) then r else append_to o (n, f) r.
Proof.
  unfold add_field. destruct (camel n).
  - destruct (existsb _ r) eqn:E; cbn [fst snd]; (split; [|reflexivity]).
    + apply taken_names in E. split; [discriminate|tauto].
    + split; [|reflexivity]. intros _. split; [reflexivity|]. intros H. apply taken_names in H. congruence.
  - cbn [fst snd]. split; [|reflexivity]. split; [discriminate|intros [? _]; discriminate].
Qed.
Lemma find_append n (l : list (string * nat)) x : find (fun y => String.eqb (fst y) n) (l ++ [x]) =
  match find (fun y => String.eqb (fst y) n) l with Some y => Some y | None => if String.eqb (fst x) n then Some x else None end.
Proof. induction l as [|y r IH]; cbn; [reflexivity|]. destruct (String.eqb (fst y) n); auto. Qed.
Lemma get_field_None r n : ~ In n (names r) <-> get_field r n = None.
Proof.
  unfold names. induction r as [|[o l] t IH]; cbn [get_field flat_map snd]; [cbn; tauto|]. rewrite in_app_iff.
  destruct (find _ l) as [[a b]|] eqn:E.
  - apply find_some in E as [E1 E2]. apply String.eqb_eq in E2. cbn in E2. subst. split; [|discriminate].
    intros H. exfalso. apply H. left. apply in_map_iff. exists (n, b). auto.
  - rewrite <- IH. split; [tauto|]. intros H [X|X]; [|tauto]. apply in_map_iff in X as ([a b] & Ha & Hb). cbn in Ha. subst.
    apply (find_none _ _ E) in Hb. cbn in Hb. now rewrite String.eqb_refl in Hb.
Qed.
Lemma get_field_append r o n f m : ~ In n (names r) ->
  get_field (append_to o (n, f) r) m = if String.eqb m n then Some f else get_field r m.
Proof.
  induction r as [|[o' l] t IH]; intros H.
  - cbn [append_to get_field find fst snd]. rewrite (String.eqb_sym m n). now destruct (String.eqb n m).
  - unfold names in H. cbn [flat_map snd] in H. rewrite in_app_iff in H. cbn [append_to]. destruct (owner_eqb o o').
    + cbn [get_field]. rewrite find_append. cbn [fst]. rewrite (String.eqb_sym m n).
      destruct (String.eqb_spec n m) as [<-|N].
      * destruct (find _ l) as [[a b]|] eqn:E; [|reflexivity]. exfalso. apply H. left.
        apply find_some in E as [E1 E2]. apply String.eqb_eq in E2. cbn in E2. subst. apply in_map_iff. exists (n, b). auto.
      * destruct (find _ l); reflexivity.
    + cbn [get_field]. rewrite IH by (unfold names; tauto). destruct (String.eqb_spec m n) as [e|N]; [rewrite e|reflexivity].
      destruct (find _ l) as [[a b]|] eqn:E; [|reflexivity]. exfalso. apply H. left.
      apply find_some in E as [E1 E2]. apply String.eqb_eq in E2. cbn in E2. subst. apply in_map_iff. exists (n, b). auto.
Qed.
Definition good (r : registry) : Prop := NoDup (names r) /\ forall n, In n (names r) -> camel n = true.
Lemma add_field_good r o n f : good r -> good (fst (add_field r o n f)).
Proof.
  intros [A B]. destruct (add_field_spec r o n f) as [S E]. rewrite E. destruct (snd (add_field r o n f)); [split; assumption|].
  destruct (proj1 S eq_refl) as [S1 S2]. destruct (names_append o (n, f) r) as (a & b & H1 & H2). cbn [fst] in H2. split.
  - rewrite H2. rewrite H1 in A, S2. apply NoDup_Add with (a := n) (l := a ++ b); [apply Add_app|split; assumption].
  - intros k. rewrite H2. rewrite H1 in B. rewrite in_app_iff. cbn [In]. intros [Hk|[<-|Hk]]; auto; apply B; apply in_or_app; auto.
Qed.
Lemma add_field_keeps r o n f m x : get_field r m = Some x -> get_field (fst (add_field r o n f)) m = Some x.
Proof.
  intros H. destruct (add_field_spec r o n f) as [S E]. rewrite E. destruct (snd (add_field r o n f)); [exact H|].
  destruct (proj1 S eq_refl) as [S1 S2]. rewrite get_field_append by exact S2. destruct (String.eqb_spec m n) as [e|]; [|exact H].
  apply get_field_None in S2. congruence.
Qed.
Lemma add_fields_good r o l : good r -> good (fst (add_fields r o l)).
Proof.
  revert r. induction l as [|[n f] t IH]; intros r H; cbn [add_fields]; [exact H|]. pose proof (add_field_good r o n f H).
  destruct (add_field r o n f) as [r' [|]]; [assumption|now apply IH].
Qed.
Lemma add_fields_keeps r o l m x : get_field r m = Some x -> get_field (fst (add_fields r o l)) m = Some x.
Proof.
  revert r. induction l as [|[n f] t IH]; intros r H; cbn [add_fields]; [exact H|]. pose proof (add_field_keeps r o n f m x H).
  destruct (add_field r o n f) as [r' [|]]; [assumption|now apply IH].
Qed.
(* Names of fields are distinct and camelCase, names of parts distinct *)
Theorem C25_names_distinct os : good (c_fields (crun (mkCtl [] []) os)) /\ NoDup (dkeys (c_parts (crun (mkCtl [] []) os))).
Proof.
  assert (G : forall c, good (c_fields c) /\ NoDup (dkeys (c_parts c)) -> good (c_fields (crun c os)) /\ NoDup (dkeys (c_parts (crun c os)))).
  { induction os as [|o r IH]; intros c H; cbn [crun]; [exact H|]. apply IH. destruct H as [H1 H2]. destruct o as [n p fs|o n f]; cbn [cstep].
    - unfold add_part. destruct (dmem n (c_parts c)); [split; assumption|]. pose proof (add_fields_good (c_fields c) (Some p) fs H1).
      destruct (add_fields (c_fields c) (Some p) fs) as [r' [|]]; cbn in *; split; auto. now apply dset_nodup.
    - pose proof (add_field_good (c_fields c) o n f H1). destruct (add_field (c_fields c) o n f). cbn in *. auto. }
  apply G. cbn. repeat split; try constructor. intros ? [].
Qed.
Print Assumptions C25_names_distinct.
(* What has a name keeps it *)
Theorem C25_first_stays os c : (forall n f, get_field (c_fields c) n = Some f -> get_field (c_fields (crun c os)) n = Some f) /\
  (forall n p, dget n (c_parts c) = Some p -> dget n (c_parts (crun c os)) = Some p).
Proof.
  revert c. induction os as [|o r IH]; intros c; cbn [crun]; [auto|]. destruct (IH (fst (cstep c o))) as [I1 I2]. split.
  - intros n f H. apply I1. destruct o as [m p fs|o m g]; cbn [cstep].
    + unfold add_part. destruct (dmem m (c_parts c)); [exact H|]. pose proof (add_fields_keeps (c_fields c) (Some p) fs n f H).
      destruct (add_fields (c_fields c) (Some p) fs) as [r' [|]]; assumption.
    + pose proof (add_field_keeps (c_fields c) o m g n f H). destruct (add_field (c_fields c) o m g). assumption.
  - intros n p H. apply I2. destruct o as [m q fs|o m g]; cbn [cstep].
    + unfold add_part. destruct (dmem m (c_parts c)) eqn:E; [exact H|]. destruct (add_fields (c_fields c) (Some q) fs) as [r' [|]]; cbn [fst c_parts]; [exact H|].
      rewrite dget_dset_other; [exact H|]. intros ->. unfold dmem in E. now rewrite H in E.
    + destruct (add_field (c_fields c) o m g). exact H.
Qed.
Print Assumptions C25_first_stays.
(* A field is taken exactly when its name is camelCase and new *)
Theorem C25_add_field c o n f : (snd (cstep c (AddField o n f)) = false <-> camel n = true /\ get_field (c_fields c) n = None) /\
  (snd (cstep c (AddField o n f)) = false -> get_field (c_fields (fst (cstep c (AddField o n f)))) n = Some f) /\
  (snd (cstep c (AddField o n f)) = true -> fst (cstep c (AddField o n f)) = c).
Proof.
  cbn [cstep]. destruct (add_field_spec (c_fields c) o n f) as [S E]. rewrite get_field_None in S.
  destruct (add_field (c_fields c) o n f) as [r x]. cbn [fst snd c_fields] in *. split; [exact S|]. split; intros ->.
  - rewrite E. destruct (proj1 S eq_refl) as [_ N]. rewrite get_field_append by now apply get_field_None. now rewrite String.eqb_refl.
  - rewrite E. now destruct c.
Qed.
Print Assumptions C25_add_field.
(* A part is taken exactly when its name is new and its fields are, are distinct and camelCase *)
Lemma add_fields_ok r o l : snd (add_fields r o l) = false <->
  NoDup (map fst l) /\ forall n, In n (map fst l) -> camel n = true /\ get_field r n = None.
Proof.
  revert r. induction l as [|[n f] t IH]; intros r; cbn [add_fields map fst].
  - cbn. split; [|reflexivity]. intros _. split; [constructor|intros ? []].
  - destruct (add_field_spec r o n f) as [S E]. rewrite get_field_None in S. destruct (add_field r o n f) as [r' x]. cbn [fst snd] in *. destruct x.
    + cbn [snd]. split; [discriminate|]. intros [_ H]. apply S. apply H. now left.
    + rewrite IH. destruct (proj1 S eq_refl) as [C N]. subst r'. split.
      * intros [H1 H2]. split.
        -- constructor; [|exact H1]. intros Hi. destruct (H2 n Hi) as [_ X]. rewrite get_field_append in X by now apply get_field_None.
           now rewrite String.eqb_refl in X.
        -- intros k [<-|Hk]; [auto|]. destruct (H2 k Hk) as [X Y]. split; [exact X|]. rewrite get_field_append in Y by now apply get_field_None.
           now destruct (String.eqb k n).
      * intros [H1 H2]. inversion H1 as [|? ? Hn Hd]; subst. split; [exact Hd|]. intros k Hk. destruct (H2 k (or_intror Hk)) as [X Y]. split; [exact X|].
        rewrite get_field_append by now apply get_field_None. destruct (String.eqb_spec k n) as [->|]; [now exfalso; apply Hn|exact Y].
Qed.
Theorem C25_add_part c n p fs : (snd (cstep c (AddPart n p fs)) = false <->
    dget n (c_parts c) = None /\ NoDup (map fst fs) /\ forall k, In k (map fst fs) -> camel k = true /\ get_field (c_fields c) k = None) /\
  (snd (cstep c (AddPart n p fs)) = true -> c_parts (fst (cstep c (AddPart n p fs))) = c_parts c).
Proof.
  cbn [cstep]. unfold add_part, dmem. destruct (dget n (c_parts c)) as [q|] eqn:E.
  - cbn. split; [|reflexivity]. split; [discriminate|]. intros [? _]. discriminate.
  - pose proof (add_fields_ok (c_fields c) (Some p) fs) as G. destruct (add_fields (c_fields c) (Some p) fs) as [r [|]]; cbn [fst snd c_parts] in *.
    + split; [|reflexivity]. split; [discriminate|]. intros [_ X]. now apply G in X.
    + split; [|discriminate]. split; [|reflexivity]. intros _. split; [reflexivity|]. now apply G.
Qed.
Print Assumptions C25_add_part.

(* camelCase: a lower case letter, then letters and digits; a newline may end it *)
Definition abc := list_ascii_of_string "abcdefghijklmnopqrstuvwxyz".
Definition ABC := list_ascii_of_string "ABCDEFGHIJKLMNOPQRSTUVWXYZ".
Definition digits := list_ascii_of_string "0123456789".
Definition amem (c : ascii) (l : list ascii) : bool := existsb (Ascii.eqb c) l.
Lemma amem_In c l : amem c l = true <-> In c l.
Proof.
  unfold amem. rewrite existsb_exists. split.
  - intros (x & H & E). apply Ascii.eqb_eq in E. now subst.
  - intros H. exists c. split; [exact H|]. apply Ascii.eqb_refl.
Qed.
Lemma classes c : lower c = amem c abc /\ upper c = amem c ABC /\ digit c = amem c digits.
Proof. destruct c as [[] [] [] [] [] [] [] []]; vm_compute; repeat split. Qed.
Definition newline : ascii := "010"%char.
Lemma is_newline c : Nat.eqb (nat_of_ascii c) 10 = Ascii.eqb c newline.
Proof. destruct c as [[] [] [] [] [] [] [] []]; vm_compute; reflexivity. Qed.
Lemma camel_rest_spec s : camel_rest s = true <->
  exists r, (list_ascii_of_string s = r \/ list_ascii_of_string s = r ++ [newline]) /\ forall x, In x r -> In x (abc ++ ABC ++ digits).
Proof.
  induction s as [|c s IH]; cbn [camel_rest list_ascii_of_string].
  - split; [|reflexivity]. intros _. exists []. split; [now left|]. intros ? [].
  - destruct (classes c) as (Hl & Hu & Hd). rewrite Hl, Hu, Hd.
    assert (K : amem c abc || amem c ABC || amem c digits = true <-> In c (abc ++ ABC ++ digits)).
    { rewrite !orb_true_iff, !amem_In, !in_app_iff. tauto. }
    destruct (amem c abc || amem c ABC || amem c digits).
    + rewrite IH. split; intros (r & H & G).
      * exists (c :: r). split; [destruct H as [->| ->]; [now left|now right]|]. intros x [<-|Hx]; [now apply K|now apply G].
      * destruct r as [|d r]; [destruct H as [H|H]; [discriminate|]; injection H as -> H|].
        -- exfalso. assert (X : In newline (abc ++ ABC ++ digits)) by now apply K.
           revert X. vm_compute. intuition discriminate.
        -- exists r. split; [|intros x Hx; apply G; now right]. destruct H as [H|H]; injection H as -> ->; auto.
    + assert (N : ~ In c (abc ++ ABC ++ digits)) by (intros X; now apply K in X). destruct s as [|d s].
      * rewrite is_newline. split.
        -- intros H. apply Ascii.eqb_eq in H. subst. exists []. split; [now right|intros ? []].
        -- intros (r & [<-|H] & G); [exfalso; apply N; apply G; now left|]. destruct r as [|d r].
           ++ injection H as ->. reflexivity.
           ++ exfalso. injection H as -> H. apply N. apply G. now left.
      * split; [discriminate|]. intros (r & H & G). destruct r as [|e r].
        -- destruct H as [H|H]; discriminate.
        -- exfalso. apply N. destruct H as [H|H]; injection H as -> _; apply G; now left.
Qed.
Theorem C25_camel n : camel n = true <->
  exists c r, (list_ascii_of_string n = c :: r \/ list_ascii_of_string n = c :: r ++ [newline]) /\
    In c abc /\ forall x, In x r -> In x (abc ++ ABC ++ digits).
Proof.
  destruct n as [|c s]; cbn [camel list_ascii_of_string].
  - split; [discriminate|]. intros (c & r & [H|H] & _); discriminate.
  - destruct (classes c) as (Hl & _). rewrite Hl, andb_true_iff, amem_In, camel_rest_spec. split.
    + intros (H & r & E & G). exists c, r. split; [destruct E as [->| ->]; auto|auto].
    + intros (d & r & [H|H] & Hd & G); injection H as -> ->; (split; [exact Hd|]); exists r; auto.
Qed.
Print Assumptions C25_camel.
Example C25_ex_camel : map camel ["x"; "yTwo"; "ABad"; "snake_case"; ""; "9a"; "a9B"]%string = [true; true; false; false; false; false; true].
Proof. reflexivity. Qed.

(* ---- the fields of a manager block ---- *)
Lemma set_all_get l : forall b n, ~ In n (map fst l) -> dget n (set_all b l) = dget n b.
Proof.
  unfold set_all. induction l as [|[m f] r IH]; intros b n H; cbn [fold_left map fst snd] in *; [reflexivity|].
  rewrite IH by (intros X; apply H; now right). apply dget_dset_other. intros ->. apply H. now left.
Qed.
Lemma set_all_in l : forall b n f, NoDup (map fst l) -> In (n, f) l -> dget n (set_all b l) = Some f.
Proof.
  unfold set_all. induction l as [|[m g] r IH]; intros b n f D H; [destruct H|]. inversion D as [|? ? Hn Hd]; subst. cbn [fold_left fst snd].
  destruct H as [H|H]; [|now apply IH]. injection H as -> ->. fold (set_all (dset n f b) r). rewrite set_all_get by exact Hn. apply dget_dset_same.
Qed.
Lemma set_all_nodup l : forall b, NoDup (dkeys b) -> NoDup (dkeys (set_all b l)).
Proof. unfold set_all. induction l as [|[m g] r IH]; intros b H; cbn [fold_left]; [exact H|]. apply IH. now apply dset_nodup. Qed.
Lemma remove_all_ok l : forall b, NoDup (dkeys b) -> NoDup (map fst l) -> (forall n, In n (map fst l) -> In n (dkeys b)) ->
  exists b', remove_all b l = (b', false) /\ NoDup (dkeys b') /\ forall n, dget n b' = if smem n (map fst l) then None else dget n b.
Proof.
  induction l as [|[m g] r IH]; intros b D N H; cbn [remove_all map fst] in *.
  - exists b. cbn. auto.
  - assert (M : dmem m b = true) by (apply dmem_In; apply H; now left). rewrite M. inversion N as [|? ? Nn Nd]; subst.
    destruct (IH (ddel m b)) as (b' & E & D' & G).
    + now apply ddel_nodup.
    + exact Nd.
    + intros n Hn. assert (X : dget n (ddel m b) <> None).
      { rewrite dget_ddel by exact D. destruct (String.eqb_spec n m) as [->|]; [now exfalso; apply Nn|]. intros X. apply dget_None_notin in X. apply X. apply H. now right. }
      destruct (in_dec string_dec n (dkeys (ddel m b))) as [i|i]; [exact i|]. apply dget_None_notin in i. congruence.
    + exists b'. split; [exact E|]. split; [exact D'|]. intros n. rewrite G, dget_ddel by exact D. unfold smem. cbn [existsb].
      destruct (String.eqb n m); cbn [orb]; [now destruct (existsb (String.eqb n) (map fst r))|reflexivity].
Qed.
(* what a manager publishes: its own fields [own], and with each update what its parts and exports
   give *)
Definition publishes (b : blk) (own : dict nat) : Prop :=
  NoDup (dkeys (b_fields b)) /\ NoDup (map fst (b_current b)) /\
  (forall n, In n (map fst (b_current b)) -> dget n own = None) /\
  (forall n, dget n (b_fields b) = match dget n own with Some f => Some f | None => dget n (b_current b) end).
(* As long as the exports and fields published at one time have names distinct from each other
   and from the manager's own fields, an update takes away exactly the old and adds exactly the new *)
Theorem C25_exports_distinct b own part_fields exports : publishes b own ->
  NoDup (map fst (part_fields ++ exports)) -> (forall n, In n (map fst (part_fields ++ exports)) -> dget n own = None) ->
  forallb (fun x => camel (fst x)) exports = true ->
  snd (set_exports b part_fields exports) = false /\ publishes (fst (set_exports b part_fields exports)) own /\
  b_current (fst (set_exports b part_fields exports)) = part_fields ++ exports.
Proof.
  intros (D & C & O & G) N P E. unfold set_exports. rewrite E. unfold update_block_endpoints.
  destruct (remove_all_ok (b_current b) (b_fields b) D C) as (f & Er & Df & Gf).
  { intros n Hn. destruct (in_dec string_dec n (dkeys (b_fields b))) as [i|i]; [exact i|]. apply dget_None_notin in i. rewrite G, (O n Hn) in i.
    apply dget_None_notin in i. now exfalso; apply i. }
  rewrite Er. cbn [fst snd b_current b_fields]. split; [reflexivity|]. split; [|reflexivity]. unfold publishes. cbn [b_fields b_current].
  split; [now apply set_all_nodup|]. split; [exact N|]. split; [exact P|]. intros n.
  destruct (dget n (part_fields ++ exports)) as [x|] eqn:Ex.
  - rewrite (set_all_in (part_fields ++ exports) f n x N) by now apply dget_Some_In.
    rewrite (P n); [reflexivity|]. eapply dget_Some_key; eauto.
  - rewrite set_all_get by now apply dget_None_notin. rewrite Gf, G. destruct (smem n (map fst (b_current b))) eqn:S.
    + apply smem_In in S. now rewrite (O n S).
    + apply smem_false in S. apply dget_None_notin in S. rewrite S. now destruct (dget n own).
Qed.
Print Assumptions C25_exports_distinct.

Definition ex_ops : list cop :=
  [AddField None "layout" 1; AddPart "a" 1 [("x", 2); ("y", 3)]; AddPart "a" 2 [("z", 4)]; AddPart "b" 3 [("z", 5); ("x", 6)];
   AddField (Some 1) "Bad" 7]%string.
Example C25_ex : map (fun k => snd (cstep (crun (mkCtl [] []) (firstn k ex_ops)) (nth k ex_ops (AddField None "" 0)))) [0; 1; 2; 3; 4]
    = [false; false; true; true; true] /\
  map (get_field (c_fields (crun (mkCtl [] []) ex_ops))) ["layout"; "x"; "y"; "z"; "Bad"]%string = [Some 1; Some 2; Some 3; Some 5; None].
Proof. split; reflexivity. Qed.
Example C25_ex_controllers : let p := prun (mkProc [] false []) [AddControllers [("A", 1); ("B", 2)]; Start; AddControllers [("A", 3)]; AddControllers [("C", 4)]]%string in
  map (get_controller p) ["A"; "B"; "C"]%string = [Some 1; Some 2; Some 4] /\ p_started p = [1; 2; 4].
Proof. split; reflexivity. Qed.
Definition ex_own : dict nat := [("layout", 1); ("exports", 2); ("save", 3)]%string.
Example C25_ex_exports : publishes (mkBlk ex_own []) ex_own /\
  b_fields (fst (set_exports (mkBlk ex_own []) [("p", 9)] [("x", 4); ("yTwo", 5)]))%string =
  [("layout", 1); ("exports", 2); ("save", 3); ("p", 9); ("x", 4); ("yTwo", 5)]%string.
Proof.
  split; [|reflexivity]. repeat split; try (cbn; repeat constructor; cbn; intuition discriminate); try (intros ? []).
  intros n. cbn [b_fields b_current]. destruct (dget n ex_own); reflexivity.
Qed.

(* ---- findings ---- *)
(* add_controllers stops at the first mri that is taken: those before it are registered, found by
   everybody, and never started *)
Theorem C25_half_registered_refuted : exists p cs, p_running p = true /\ snd (pstep p (AddControllers cs)) = true /\
  get_controller (fst (pstep p (AddControllers cs))) "B" = Some 2 /\ ~ In 2 (p_started (fst (pstep p (AddControllers cs)))).
Proof.
  exists (mkProc [("A"%string, 1)] true [1]), [("B", 2); ("A", 3)]%string. repeat split. cbn. intros [H|[]]. discriminate.
Qed.
Print Assumptions C25_half_registered_refuted.
(* A part that is refused for one of its fields leaves the fields before it in the block *)
Theorem C25_half_part_refuted : exists c n p fs, snd (cstep c (AddPart n p fs)) = true /\
  dget n (c_parts (fst (cstep c (AddPart n p fs)))) = None /\ get_field (c_fields c) "z" = None /\
  get_field (c_fields (fst (cstep c (AddPart n p fs)))) "z" = Some 5.
Proof. exists (mkCtl [] [(None, [("x"%string, 1)])]), "b"%string, 3, [("z", 5); ("x", 6)]%string. repeat split. Qed.
Print Assumptions C25_half_part_refuted.
(* An export named like a field of the manager replaces it; taking the export away takes it away
   for good *)
Theorem C25_export_replaces_refuted : exists b own, publishes b own /\ dget "save" own = Some 3 /\
  let b1 := set_exports b [] [("save"%string, 8)] in
  snd b1 = false /\ dget "save" (b_fields (fst b1)) = Some 8 /\
  let b2 := set_exports (fst b1) [] [] in snd b2 = false /\ dget "save" (b_fields (fst b2)) = None.
Proof. exists (mkBlk ex_own []), ex_own. split; [apply C25_ex_exports|]. repeat split. Qed.
Print Assumptions C25_export_replaces_refuted.
(* Two exports of one name are accepted; from then on no export can be set any more: every later
   attempt raises, and takes away the fields that were published *)
Lemma remove_gone b l m f : ~ In m (dkeys b) -> snd (remove_all b ((m, f) :: l)) = true.
Proof. intros H. cbn [remove_all]. apply dmem_false in H. now rewrite H. Qed.
Theorem C25_same_export_refuted : exists b own ex, publishes b own /\ snd (set_exports b [] ex) = false /\
  let b1 := fst (set_exports b [] ex) in
  forall later, snd (set_exports b1 [] later) = true /\
    (forallb (fun x => camel (fst x)) later = true ->
     let b2 := fst (set_exports b1 [] later) in
     dget "x" (b_fields b2) = None /\ forall again, snd (set_exports b2 [] again) = true).
Proof.
  exists (mkBlk ex_own []), ex_own, [("x", 8); ("x", 9)]%string. split; [apply C25_ex_exports|]. split; [reflexivity|].
  cbn zeta. intros later. unfold set_exports at 1. destruct (forallb (fun x => camel (fst x)) later) eqn:E.
  - split; [reflexivity|]. intros _. unfold set_exports at 1. rewrite E. split; [reflexivity|]. intros again.
    unfold set_exports. rewrite E. destruct (forallb (fun x => camel (fst x)) again); reflexivity.
  - split; [reflexivity|discriminate].
Qed.
Print Assumptions C25_same_export_refuted.
(* A name may end in a newline *)
Theorem C25_newline_refuted : exists n, camel n = true /\ In "010"%char (list_ascii_of_string n).
Proof. exists (String "x" (String "010" "")). split; [reflexivity|right; now left]. Qed.
Print Assumptions C25_newline_refuted.
