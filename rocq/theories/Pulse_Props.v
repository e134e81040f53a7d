(* C80: the pulses of a PandA gate the frames of a detector. *)
From Coq Require Import String Ascii Bool ZArith QArith Lqa Lia List.
From Verif Require Import Base Expo_Model Savu_Model Expo_Props Pulse_Model.
Import ListNotations.
Local Open Scope string_scope.
Local Open Scope list_scope.

(* ---- what C80 says ---- *)
(* the source of an export: its first row *)
Definition source_of (exports : list (string * string)) (export src : string) : Prop :=
  exists pre post, exports = pre ++ (src, export) :: post /\ ~ In export (map snd pre).
(* the block a source belongs to: what is before the first dot *)
Definition of_block (src blk : string) : Prop :=
  ~ In "."%char (list_ascii_of_string blk) /\ (src = blk \/ exists r, src = (blk ++ String "." r)%string).
(* the detector's row of the table, the first with its mri *)
Definition row_of (t : list trow) (mri : string) (r : trow) : Prop :=
  exists pre post, t = pre ++ r :: post /\ t_mri r = mri /\ (forall x, In x pre -> t_mri x <> mri).
(* a block of the panda: its last row in the layout *)
Definition placed (layout : list (string * string)) (blk mri : string) : Prop :=
  exists pre post, layout = pre ++ (blk, mri) :: post /\ ~ In blk (map fst post).

(* A PULSE block: after a trigger at time t it makes a number of pulses. *)
Record pulses := mkPulses { p_step : Q; p_width : Q; p_delay : Q; p_number : Z }.
Definition start (b : pulses) (t : Q) (k : Z) : Q := (t + p_delay b + inject_Z k * p_step b)%Q.
Definition stop (b : pulses) (t : Q) (k : Z) : Q := (start b t k + p_width b)%Q.
(* what the attributes of the block say *)
Definition says (store : dict pval) (blk : string) (b : pulses) : Prop :=
  dget (blk ++ ".step") store = Some (PFloat (p_step b)) /\ dget (blk ++ ".width") store = Some (PFloat (p_width b)) /\
  dget (blk ++ ".delay") store = Some (PFloat (p_delay b)) /\ dget (blk ++ ".pulses") store = Some (PInt (p_number b)).
(* the exports stand for the attributes they are named after *)
Definition straight (exports : list (string * string)) (name blk : string) : Prop :=
  source_of exports (name ++ "Step") (blk ++ ".step") /\ source_of exports (name ++ "Width") (blk ++ ".width") /\
  source_of exports (name ++ "Delay") (blk ++ ".delay") /\ source_of exports (name ++ "Pulses") (blk ++ ".pulses").

(* ---- proofs ---- *)
Lemma find_frames_spec mri t n : find_frames mri t = Ok n <->
  exists r, row_of t mri r /\ (if t_enable r then (0 < t_frames r)%Z /\ n = t_frames r else n = 0%Z).
Proof.
  induction t as [|r t IH]; cbn [find_frames].
  - split; [discriminate|]. intros (r & (pre & post & E & _) & _). destruct pre; discriminate.
  - destruct (String.eqb_spec (t_mri r) mri) as [E|N].
    + split.
      * intros H. exists r. split; [exists [], t; split; [reflexivity|]; split; [exact E|intros x []]|].
        destruct (t_enable r); [|congruence]. destruct (Z.ltb_spec 0 (t_frames r)); [|discriminate]. split; [assumption|congruence].
      * intros (r0 & (pre & post & E0 & E1 & E2) & H). destruct pre as [|x pre].
        -- injection E0 as <- <-. destruct (t_enable r); [|congruence]. destruct H as [H ->].
           destruct (Z.ltb_spec 0 (t_frames r)); [reflexivity|lia].
        -- injection E0 as <- _. destruct (E2 r); [left; reflexivity|exact E].
    + rewrite IH. split; intros (r0 & (pre & post & E0 & E1 & E2) & H); exists r0; (split; [|exact H]).
      * exists (r :: pre), post. rewrite E0. split; [reflexivity|]. split; [exact E1|]. intros x [<-|I]; [exact N|exact (E2 x I)].
      * destruct pre as [|x pre]; injection E0 as -> E0; [contradiction|]. exists pre, post.
        split; [exact E0|]. split; [exact E1|]. intros y I. apply E2. right. exact I.
Qed.

Lemma split_hd s : exists w l, split "."%char s = w :: l /\ ~ In "."%char (list_ascii_of_string w) /\ (s = w \/ exists r, s = (w ++ String "." r)%string).
Proof.
  induction s as [|c s (w & l & E & N & H)].
  - exists "", []. cbn. auto.
  - cbn [split]. destruct (Ascii.eqb_spec c ".") as [->|M].
    + exists "", (split "."%char s). split; [reflexivity|]. split; [intros []|]. right. exists s. reflexivity.
    + rewrite E. exists (String c w), l. split; [reflexivity|]. split.
      * cbn. intros [X|X]; [congruence|exact (N X)].
      * destruct H as [->|(r & ->)]; [left; reflexivity|right; exists r; reflexivity].
Qed.
Lemma dot_inj a b x y : ~ In "."%char (list_ascii_of_string a) -> ~ In "."%char (list_ascii_of_string b) ->
  (a ++ String "." x)%string = (b ++ String "." y)%string -> a = b.
Proof.
  revert b. induction a as [|c a IH]; intros [|d b] A B E; cbn in *; [reflexivity| | |].
  - injection E as E _. exfalso. apply B. left. congruence.
  - injection E as E _. exfalso. apply A. left. congruence.
  - injection E as -> E. f_equal. apply IH; tauto.
Qed.
Lemma dot_in a x : In "."%char (list_ascii_of_string (a ++ String "." x)).
Proof. induction a as [|c a IH]; cbn; [left; reflexivity|right; exact IH]. Qed.
Lemma part_name_spec src blk : part_name src = blk <-> of_block src blk.
Proof.
  unfold part_name, of_block. destruct (split_hd src) as (w & l & -> & N & H). cbn [hd]. split.
  - intros <-. auto.
  - intros (M & [-> | (r & ->)]); destruct H as [H|(r' & H)].
    + congruence.
    + destruct M. rewrite H. apply dot_in.
    + destruct N. rewrite <- H. apply dot_in.
    + symmetry. apply (dot_inj _ _ _ _ M N H).
Qed.

Lemma source_cons exports e src s0 e0 : source_of ((s0, e0) :: exports) e src <->
  (e = e0 /\ src = s0) \/ (e <> e0 /\ source_of exports e src).
Proof.
  split.
  - intros ([|x pre] & post & E & N).
    + injection E as -> -> _. left. auto.
    + injection E as <- E. right. cbn in N. split; [intros ->; apply N; left; reflexivity|]. exists pre, post. split; [exact E|tauto].
  - intros [[-> ->]|[M (pre & post & -> & N)]].
    + exists [], exports. split; [reflexivity|intros []].
    + exists ((s0, e0) :: pre), post. split; [reflexivity|]. cbn. intros [X|X]; [congruence|contradiction].
Qed.
Lemma source_nil e src : ~ source_of [] e src.
Proof. intros ([|? ?] & ? & E & _); discriminate. Qed.
Lemma source_fun exports e s1 s2 : source_of exports e s1 -> source_of exports e s2 -> s1 = s2.
Proof.
  induction exports as [|[s0 e0] l IH]; intros H1 H2; [destruct (source_nil _ _ H1)|].
  apply source_cons in H1, H2. destruct H1 as [[? ?]|[? ?]], H2 as [[? ?]|[? ?]]; try congruence; auto.
Qed.

(* what the loop over the exports finds *)
Lemma without_In x e l : In x (filter (fun y => negb (String.eqb y e)) l) <-> In x l /\ x <> e.
Proof. rewrite filter_In, negb_true_iff, String.eqb_neq. tauto. Qed.
Definition named (exports : list (string * string)) : Prop := forall src e, In (src, e) exports -> part_name src <> "".
Lemma named_cons s e l : named ((s, e) :: l) -> part_name s <> "" /\ named l.
Proof. intros H. split; [apply (H s e); left; reflexivity|]. intros s0 e0 I. apply (H s0 e0). right. exact I. Qed.
Lemma truthy_some s : s <> "" -> truthy (Some s) = Some s.
Proof. intros N. cbn. apply String.eqb_neq in N. rewrite N. reflexivity. Qed.

(* with a block name already found *)
Lemma check_known rows b exp : b <> "" -> named rows -> forall exp' p',
  check_exports exp (Some b) rows = Ok (exp', p') <->
  (p' = Some b /\ (forall e src, In e exp -> source_of rows e src -> part_name src = b)
   /\ check_exports exp (Some b) rows = Ok (exp', p')).
Proof.
  intros Nb. revert exp. induction rows as [|[s e] rows IH]; intros exp N exp' p'.
  - cbn. split; [|tauto]. intros E. injection E as <- <-. split; [reflexivity|]. split; [|reflexivity].
    intros e src _ H. destruct (source_nil _ _ H).
  - split; [|tauto]. intros E. pose proof E as E0. apply named_cons in N as [Ns N]. cbn [check_exports] in E.
    destruct (smem e exp) eqn:M.
    + rewrite (truthy_some b Nb) in E. destruct (String.eqb_spec (part_name s) b) as [Eb|]; [|discriminate].
      apply (IH _ N) in E as (-> & H & _). split; [reflexivity|]. split; [|exact E0].
      intros x src I S. apply source_cons in S as [[-> ->]|[Ne S]]; [exact Eb|]. apply (H x src); [|exact S].
      apply without_In. auto.
    + apply (IH _ N) in E as (-> & H & _). split; [reflexivity|]. split; [|exact E0].
      intros x src I S. apply source_cons in S as [[-> ->]|[Ne S]]; [|exact (H x src I S)].
      apply smem_false in M. contradiction.
Qed.
Lemma check_missing rows exp p exp' p' : check_exports exp p rows = Ok (exp', p') ->
  forall e, In e exp' <-> In e exp /\ ~ In e (map snd rows).
Proof.
  revert exp p. induction rows as [|[s e] rows IH]; intros exp p E x; cbn [check_exports map snd] in *.
  - injection E as <- <-. cbn. tauto.
  - destruct (smem e exp) eqn:M.
    + assert (exists q, check_exports (filter (fun y => negb (String.eqb y e)) exp) q rows = Ok (exp', p')) as (q & E').
      { destruct (truthy p); [destruct (String.eqb _ _); [eexists; exact E|discriminate]|eexists; exact E]. }
      rewrite (IH _ _ E' x), without_In. cbn. intuition congruence.
    + rewrite (IH _ _ E x). apply smem_false in M. cbn. intuition congruence.
Qed.
Lemma check_complete rows exp p b : b <> "" -> named rows -> (p = None \/ p = Some b) ->
  (forall e src, In e exp -> source_of rows e src -> part_name src = b) ->
  exists exp' p', check_exports exp p rows = Ok (exp', p') /\ (p' = None \/ p' = Some b).
Proof.
  intros Nb. revert exp p. induction rows as [|[s e] rows IH]; intros exp p N P H; cbn [check_exports].
  - exists exp, p. auto.
  - apply named_cons in N as [Ns N]. destruct (smem e exp) eqn:M.
    + apply smem_In in M. assert (Eb : part_name s = b) by (apply (H e s M), source_cons; auto).
      assert (H' : forall x src, In x (filter (fun y => negb (String.eqb y e)) exp) -> source_of rows x src -> part_name src = b).
      { intros x src I S. apply without_In in I as [I Ne]. apply (H x src I), source_cons. auto. }
      destruct P as [-> | ->].
      * cbn [truthy]. rewrite Eb. apply IH; auto.
      * rewrite (truthy_some b Nb), Eb, String.eqb_refl. apply IH; auto.
    + apply smem_false in M. apply IH; auto. intros x src I S. apply (H x src I), source_cons. right. split; [congruence|exact S].
Qed.
Lemma check_sound rows exp exp' p' : named rows -> check_exports exp None rows = Ok (exp', p') ->
  (p' = None /\ forall e, In e exp -> ~ In e (map snd rows))
  \/ exists b, p' = Some b /\ b <> "" /\ forall e src, In e exp -> source_of rows e src -> part_name src = b.
Proof.
  revert exp. induction rows as [|[s e] rows IH]; intros exp N E; cbn [check_exports] in E.
  - injection E as <- <-. left. split; [reflexivity|]. intros x _ [].
  - apply named_cons in N as [Ns N]. destruct (smem e exp) eqn:M.
    + cbn [truthy] in E. apply (check_known rows (part_name s) _ Ns N) in E as (-> & H & _). right.
      exists (part_name s). split; [reflexivity|]. split; [exact Ns|]. intros x src I S.
      apply source_cons in S as [[-> ->]|[Ne S]]; [reflexivity|]. apply (H x src); [|exact S]. apply without_In. auto.
    + apply smem_false in M. destruct (IH _ N E) as [[-> H]|(b & -> & Nb & H)].
      * left. split; [reflexivity|]. intros x I. cbn. intros [<-|X]; [contradiction|exact (H x I X)].
      * right. exists b. split; [reflexivity|]. split; [exact Nb|]. intros x src I S.
        apply source_cons in S as [[-> ->]|[Ne S]]; [contradiction|exact (H x src I S)].
Qed.
Lemma source_exists rows e : In e (map snd rows) -> exists src, source_of rows e src.
Proof.
  induction rows as [|[s e0] rows IH]; intros I; [destruct I|]. destruct (String.eqb_spec e e0) as [->|Ne].
  - exists s. apply source_cons. auto.
  - destruct I as [I|I]; [cbn in I; congruence|]. destruct (IH I) as (src & S). exists src. apply source_cons. auto.
Qed.
Lemma source_In rows e src : source_of rows e src -> In e (map snd rows).
Proof. intros (pre & post & -> & _). rewrite map_app. apply in_or_app. right. left. reflexivity. Qed.

Lemma last_filter_spec blk l : forall mri, mri <> "" ->
  (last (map snd (filter (fun r => String.eqb (fst r) blk) l)) "" = mri <-> placed l blk mri).
Proof.
  induction l as [|[n m] l IH] using rev_ind; intros mri Nm.
  - cbn. split; [congruence|]. intros (pre & post & E & _). destruct pre; discriminate.
  - rewrite filter_app, map_app. cbn [filter fst]. destruct (String.eqb_spec n blk) as [->|Ne].
    + cbn [map snd]. rewrite last_last. split.
      * intros <-. exists l, []. split; [reflexivity|intros []].
      * intros (pre & post & E & N). destruct post as [|x post] using rev_ind.
        -- apply app_inj_tail in E as [_ E]. congruence.
        -- clear IHpost. rewrite app_comm_cons, app_assoc in E. apply app_inj_tail in E as [_ <-].
           destruct N. rewrite map_app. apply in_or_app. right. left. reflexivity.
    + cbn [map]. rewrite app_nil_r, (IH mri Nm). split; intros (pre & post & E & N).
      * exists pre, (post ++ [(n, m)]). rewrite E. rewrite <- app_assoc. split; [reflexivity|]. rewrite map_app. intros I.
        apply in_app_or in I as [I|[I|[]]]; [exact (N I)|cbn in I; congruence].
      * destruct post as [|x post] using rev_ind.
        -- apply app_inj_tail in E as [_ E]. congruence.
        -- clear IHpost. rewrite app_comm_cons, app_assoc in E. apply app_inj_tail in E as [-> <-]. exists pre, post.
           split; [reflexivity|]. intros I. apply N. rewrite map_app. apply in_or_app. left. exact I.
Qed.
Lemma find_mri_spec blk l mri : find_mri (Some blk) l = Ok mri <-> mri <> "" /\ placed l blk mri.
Proof.
  unfold find_mri. set (m := last _ _). destruct (String.eqb_spec m "") as [E|N].
  - split; [discriminate|]. intros [Nm P]. apply (last_filter_spec blk l mri Nm) in P. fold m in P. congruence.
  - split.
    + intros E. injection E as <-. split; [exact N|]. apply last_filter_spec; [exact N|reflexivity].
    + intros [Nm P]. apply (last_filter_spec blk l mri Nm) in P. fold m in P. congruence.
Qed.
Lemma check_units_spec u l : check_units u l = Ok tt <-> forall a, In a l -> u a = Some "s".
Proof.
  induction l as [|a l IH]; cbn; [split; [intros _ ? []|reflexivity]|]. destruct (u a) as [x|] eqn:E.
  - destruct (String.eqb_spec x "s") as [->|N].
    + rewrite IH. split; [intros H b [<-|I]; auto|intros H b I; auto].
    + split; [discriminate|]. intros H. rewrite (H a (or_introl eq_refl)) in E. congruence.
  - split; [discriminate|]. intros H. rewrite (H a (or_introl eq_refl)) in E. discriminate.
Qed.

(* ---- the theorems ---- *)
(* on_configure accepts exactly: a fixed duration, a row for the detector (with frames if it is
   enabled), and the four exports, all of one block that is in the layout and has seconds as
   units. *)
Theorem C80_accepted name w d t out : named (w_exports w) ->
  (on_configure name w d (Some t) = Ok out <->
   0 < d /\ (exists r, row_of t (w_detector w) r /\
              (if t_enable r then (0 < t_frames r)%Z /\ out = (d, t_frames r) else out = (d, 0%Z)))
   /\ exists blk mri, mri <> ""
      /\ (forall s, In s ["Pulses"; "Width"; "Step"; "Delay"] ->
            exists src, source_of (w_exports w) (name ++ s) src /\ of_block src blk)
      /\ placed (w_layout w) blk mri
      /\ (forall a, In a ["widthUnits"; "stepUnits"; "delayUnits"] -> w_units w mri a = Some "s")).
Proof.
  intros Nm. unfold on_configure. set (exp := map _ suffixes).
  assert (Hexp : forall e, In e exp <-> exists s, In s suffixes /\ e = (name ++ s)%string).
  { intros e. unfold exp. rewrite in_map_iff. split; intros (s & A & B); exists s; auto. }
  split.
  - destruct (qlt 0 d) eqn:Q; [|discriminate]. apply qlt_true in Q.
    destruct (find_frames (w_detector w) t) as [n|] eqn:F; [|discriminate]. apply find_frames_spec in F as (r & R & F).
    destruct (check_exports exp None (w_exports w)) as [[[|x exp'] p]|] eqn:C; [|discriminate|discriminate].
    destruct (find_mri p (w_layout w)) as [mri|] eqn:M; [|discriminate].
    destruct (check_units (w_units w mri) unit_attrs) as [[]|] eqn:U; [|discriminate]. intros E. injection E as <-.
    split; [exact Q|]. split.
    + exists r. split; [exact R|]. destruct (t_enable r); [destruct F as [F ->]; auto|rewrite F; reflexivity].
    + pose proof (check_missing _ _ _ _ _ C) as Miss.
      assert (All : forall s, In s suffixes -> In (name ++ s)%string (map snd (w_exports w))).
      { intros s I. destruct (in_dec string_dec (name ++ s)%string (map snd (w_exports w))) as [Y|N]; [exact Y|].
        destruct (proj2 (Miss (name ++ s)%string)). split; [apply Hexp; eauto|exact N]. }
      destruct (check_sound _ _ _ _ Nm C) as [[-> H]|(b & -> & Nb & H)].
      { exfalso. apply (H (name ++ "Pulses")%string); [apply Hexp; exists "Pulses"; split; [left; reflexivity|reflexivity]|].
        apply All. left. reflexivity. }
      apply find_mri_spec in M as [Nmri P]. exists b, mri. split; [exact Nmri|]. split; [|split; [exact P|apply check_units_spec; exact U]].
      intros s I. destruct (source_exists _ _ (All s I)) as (src & S). exists src. split; [exact S|].
      apply part_name_spec. apply (H (name ++ s)%string src); [apply Hexp; eauto|exact S].
  - intros (Q & (r & R & F) & blk & mri & Nmri & H & P & U). apply qlt_true in Q. rewrite Q.
    assert (F' : exists n, find_frames (w_detector w) t = Ok n /\ out = (d, n)).
    { destruct (t_enable r) eqn:En.
      - destruct F as [F ->]. exists (t_frames r). split; [|reflexivity]. apply find_frames_spec. exists r. rewrite En. auto.
      - exists 0%Z. split; [|exact F]. apply find_frames_spec. exists r. rewrite En. auto. }
    destruct F' as (n & -> & ->).
    assert (Nb : blk <> "").
    { destruct (H "Pulses" (or_introl eq_refl)) as (src & S & O). apply part_name_spec in O. rewrite <- O.
      destruct S as (pre & post & E & _). apply (Nm src (name ++ "Pulses")%string). rewrite E. apply in_or_app. right. left. reflexivity. }
    destruct (check_complete (w_exports w) exp None blk Nb Nm (or_introl eq_refl)) as (exp' & p' & C & Hp).
    { intros e src I S. apply Hexp in I as (s & I & ->). destruct (H s I) as (src' & S' & O).
      rewrite (source_fun _ _ _ _ S S'). apply part_name_spec. exact O. }
    rewrite C. pose proof (check_missing _ _ _ _ _ C) as Miss.
    destruct exp' as [|x exp'].
    2:{ exfalso. destruct (proj1 (Miss x) (or_introl eq_refl)) as [I N]. apply Hexp in I as (s & I & ->).
        destruct (H s I) as (src & S & _). exact (N (source_In _ _ _ S)). }
    destruct (check_sound _ _ _ _ Nm C) as [[-> X]|(b & -> & Nb' & X)].
    { exfalso. destruct (H "Pulses" (or_introl eq_refl)) as (src & S & _).
      apply (X (name ++ "Pulses")%string); [apply Hexp; exists "Pulses"; split; [left; reflexivity|reflexivity]|exact (source_In _ _ _ S)]. }
    assert (b = blk) as -> by (destruct Hp as [Hp|Hp]; congruence).
    rewrite (proj2 (find_mri_spec blk (w_layout w) mri) (conj Nmri P)).
    rewrite (proj2 (check_units_spec (w_units w mri) unit_attrs) U). reflexivity.
Qed.
Print Assumptions C80_accepted.

Lemma put_one exports store e v src : source_of exports e src -> put_export exports store (e, v) = dset src v store.
Proof.
  unfold put_export. cbn [fst snd]. induction exports as [|[s0 e0] l IH]; intros S; [destruct (source_nil _ _ S)|].
  apply source_cons in S as [[-> ->]|[Ne S]]; cbn [find snd].
  - rewrite String.eqb_refl. reflexivity.
  - destruct (String.eqb_spec e0 e); [congruence|]. exact (IH S).
Qed.
Lemma tail_inj a x y : (a ++ x)%string = (a ++ y)%string -> x = y.
Proof. induction a as [|c a IH]; cbn; [auto|]. intros E. injection E as E. auto. Qed.
Lemma div_pos d n : 0 < d -> (0 < n)%Z -> 0 < d / inject_Z n /\ inject_Z n * (d / inject_Z n) == d.
Proof.
  intros D N. assert (P : 0 < inject_Z n) by (unfold Qlt; cbn; lia). split.
  - apply Qlt_shift_div_l; [exact P|]. lra.
  - field. intros E. lra.
Qed.

(* When the detector takes part and its exports are straight, the PULSE block is told: one pulse
   for each frame, as wide as the exposure; the frames fill the point; each pulse is inside its
   frame, and in the middle of it (or at its start). *)
Theorem C80_pulses name zero w d t blk n puts store :
  on_configure name w d (Some t) = Ok (d, n) -> (0 < n)%Z -> straight (w_exports w) name blk ->
  on_post_configure name zero w (d, n) = Ok puts ->
  exists b, says (put_all (w_exports w) store puts) blk b
    /\ w_state w = "Armed" /\ p_number b = n /\ inject_Z n * p_step b == d
    /\ (match w_exposure w with Some e => p_width b = e | None => p_width b == p_step b - (1 # 1000000) end)
    /\ forall T k, (0 <= k)%Z ->
         T + inject_Z k * p_step b <= start b T k /\ stop b T k < T + inject_Z (k + 1) * p_step b
         /\ (if zero then start b T k == T + inject_Z k * p_step b
             else start b T k - (T + inject_Z k * p_step b) == (T + inject_Z (k + 1) * p_step b) - stop b T k).
Proof.
  intros C N (S1 & S2 & S3 & S4) E.
  assert (D : 0 < d) by (unfold on_configure in C; destruct (qlt 0 d) eqn:Q; [apply qlt_true, Q|discriminate]).
  unfold on_post_configure in E. destruct (Z.ltb_spec 0 n); [|lia].
  destruct (String.eqb_spec (w_state w) "Armed") as [A|]; [|discriminate].
  set (step := d / inject_Z n) in *. set (width := match w_exposure w with Some e => e | None => _ end) in *.
  destruct (qlt width step) eqn:Q; [|discriminate]. apply qlt_true in Q. injection E as <-.
  set (delay := if zero then 0 else (step - width) / 2) in *.
  exists (mkPulses step width delay n). destruct (div_pos d n D N) as [Sp Sd]. fold step in Sp, Sd.
  split.
  { unfold put_all. cbn [fold_left]. rewrite (put_one _ _ _ _ _ S3), (put_one _ _ _ _ _ S4), (put_one _ _ _ _ _ S1), (put_one _ _ _ _ _ S2).
    assert (X : forall x y, x <> y -> (blk ++ x)%string <> (blk ++ y)%string) by (intros x y Ne Eq; apply Ne, (tail_inj blk), Eq).
    unfold says; cbn [p_step p_width p_delay p_number]. rewrite !dget_dset_same.
    repeat split; repeat first [rewrite dget_dset_same; reflexivity | rewrite dget_dset_other by (apply X; discriminate)]. }
  split; [exact A|]. split; [reflexivity|]. split; [exact Sd|]. split.
  { cbn [p_width p_step]. unfold width. destruct (w_exposure w); reflexivity. }
  intros T k K. unfold stop, start. cbn [p_step p_width p_delay]. rewrite inject_Z_plus. clearbody step width.
  change (inject_Z 1) with 1. generalize (inject_Z k). intros q. unfold delay. destruct zero.
  - split; [lra|]. split; lra.
  - assert (H2 : (step - width) / 2 == (1 # 2) * (step - width)) by field. split; [|split]; rewrite ?H2; lra.
Qed.
Print Assumptions C80_pulses.

(* So pulses never overlap, not within a point and not from point to point. *)
Theorem C80_disjoint name zero w d t blk n puts store :
  on_configure name w d (Some t) = Ok (d, n) -> (0 < n)%Z -> straight (w_exports w) name blk ->
  on_post_configure name zero w (d, n) = Ok puts ->
  exists b, says (put_all (w_exports w) store puts) blk b /\ p_number b = n
    /\ (forall T k l, (0 <= k < l)%Z -> stop b T k < start b T l)
    /\ (forall T1 T2 k l, T1 + d <= T2 -> (0 <= k < n)%Z -> (0 <= l < n)%Z -> stop b T1 k < start b T2 l).
Proof.
  intros C N S E. assert (D : 0 < d) by (unfold on_configure in C; destruct (qlt 0 d) eqn:Q; [apply qlt_true, Q|discriminate]).
  destruct (C80_pulses _ _ _ _ _ _ _ _ store C N S E) as (b & Sa & _ & Nb & Sum & _ & H).
  exists b. split; [exact Sa|]. split; [exact Nb|].
  assert (P : 0 < p_step b).
  { assert (Pn : 0 < inject_Z n) by (unfold Qlt; cbn; lia). destruct (Qlt_le_dec 0 (p_step b)) as [Y|Y]; [exact Y|].
    assert (inject_Z n * p_step b <= inject_Z n * 0) by (apply Qmult_le_l; assumption). lra. }
  assert (Mono : forall k l, (k <= l)%Z -> inject_Z k * p_step b <= inject_Z l * p_step b).
  { intros k l L. apply Qmult_le_compat_r; [rewrite <- Zle_Qle; exact L|lra]. }
  split.
  - intros T k l [K L]. destruct (H T k K) as (_ & H1 & _). destruct (H T l) as (H2 & _); [lia|].
    pose proof (Mono (k + 1)%Z l ltac:(lia)). lra.
  - intros T1 T2 k l TT [K1 K2] [L1 L2]. destruct (H T1 k K1) as (_ & H1 & _). destruct (H T2 l L1) as (H2 & _).
    pose proof (Mono (k + 1)%Z n ltac:(lia)). pose proof (Mono 0%Z l L1) as M0. change (inject_Z 0) with 0 in M0. lra.
Qed.
Print Assumptions C80_disjoint.

(* A detector that is not enabled gets nothing. *)
Theorem C80_disabled name zero w d t r : row_of t (w_detector w) r -> t_enable r = false ->
  forall out, on_configure name w d (Some t) = Ok out -> on_post_configure name zero w out = Ok [].
Proof.
  intros R E out C. unfold on_configure in C. destruct (qlt 0 d); [|discriminate].
  assert (F : find_frames (w_detector w) t = Ok 0%Z) by (apply find_frames_spec; exists r; rewrite E; auto).
  rewrite F in C. destruct (check_exports _ _ _) as [[[|] p]|]; [|discriminate|discriminate].
  destruct (find_mri _ _); [|discriminate]. destruct (check_units _ _); [|discriminate]. injection C as <-. reflexivity.
Qed.
Print Assumptions C80_disabled.

(* The scan with an open duration gets a duration that on_configure takes. *)
Theorem C80_validated d r : on_validate d = Ok r -> 0 < (match r with Some x => x | None => d end) /\ (r = None <-> ~ d == 0).
Proof.
  unfold on_validate. destruct (Qeq_bool d 0) eqn:Z.
  - intros E. injection E as <-. split; [reflexivity|]. apply qeq_true in Z. split; [discriminate|tauto].
  - apply qeq_false in Z. destruct (qlt 0 d) eqn:Q; [|discriminate]. intros E. injection E as <-. apply qlt_true in Q. tauto.
Qed.
Print Assumptions C80_validated.
(* It is that of two clock cycles of 8 ns: one for the pulse to be up and one to be down. *)
Theorem C80_asked d x : on_validate d = Ok (Some x) -> d == 0 /\ x == 16 # 1000000000.
Proof. unfold on_validate. destruct (Qeq_bool d 0) eqn:Z; [|destruct (qlt 0 d); discriminate]. apply qeq_true in Z. intros E. injection E as <-. split; [exact Z|reflexivity]. Qed.
Print Assumptions C80_asked.
Example C80_asked_ex : exists x, on_validate 0 = Ok (Some x). Proof. eexists. reflexivity. Qed.

(* ---- a case ---- *)
Definition ex_rows := [mkTrow true "OTHER" 1; mkTrow true "DET" 3; mkTrow false "DET" 0].
Definition ex_exports := [("PULSE2.pulses", "detPulses"); ("SEQ1.active", "active"); ("PULSE2.delay", "detDelay");
                          ("PULSE2.width", "detWidth"); ("PULSE2.step", "detStep")].
Definition ex_world e x := mkWorld "DET" x [("PULSE1", "P1"); ("PULSE2", "P2")] (fun m a => if String.eqb m "P2" then Some "s" else None) "Armed" e.
Lemma ex_named : named ex_exports.
Proof. intros s e [E|[E|[E|[E|[E|[]]]]]]; injection E as <- <-; discriminate. Qed.
Lemma ex_straight : straight ex_exports "det" "PULSE2".
Proof.
  repeat split; unfold ex_exports; cbn [String.append];
    repeat (apply source_cons; first [left; split; reflexivity | right; split; [discriminate|]]).
Qed.
Example C80_ex : on_configure "det" (ex_world (Some (1 # 20)) ex_exports) (3 # 10) (Some ex_rows) = Ok (3 # 10, 3%Z)
  /\ on_post_configure "det" false (ex_world (Some (1 # 20)) ex_exports) (3 # 10, 3%Z)
     = Ok [("detDelay", PFloat (30 # 1200)%Q); ("detPulses", PInt 3); ("detStep", PFloat (3 # 30)%Q); ("detWidth", PFloat (1 # 20)%Q)]
  /\ named ex_exports /\ straight ex_exports "det" "PULSE2"
  /\ on_post_configure "det" false (ex_world (Some (1 # 10)) ex_exports) (3 # 10, 3%Z) = Err TooWide.
Proof.
  split; [vm_compute; reflexivity|]. split; [vm_compute; reflexivity|]. split; [exact ex_named|]. split; [exact ex_straight|].
  vm_compute; reflexivity.
Qed.

(* ---- where it is false ---- *)
(* The duration that the part itself asks for makes the width of the pulses negative, for a
   detector without an exposure. *)
Theorem C80_width_refuted : exists name w t d puts q,
  on_validate 0 = Ok (Some d) /\ on_configure name w d (Some t) = Ok (d, 3%Z) /\ on_post_configure name false w (d, 3%Z) = Ok puts
  /\ In ((name ++ "Width")%string, PFloat q) puts /\ q < 0.
Proof.
  exists "det", (ex_world None ex_exports), ex_rows. do 3 eexists. split; [reflexivity|]. split; [vm_compute; reflexivity|].
  split; [vm_compute; reflexivity|]. split; [right; right; right; left; reflexivity|reflexivity].
Qed.
Print Assumptions C80_width_refuted.
(* The exports are only asked to be of one block, not to stand for the right attribute: the width
   may go to the delay. *)
Definition ex_crossed := [("PULSE2.pulses", "detPulses"); ("PULSE2.width", "detDelay");
                          ("PULSE2.delay", "detWidth"); ("PULSE2.step", "detStep")].
Theorem C80_crossed_refuted : exists name w t d n puts,
  on_configure name w d (Some t) = Ok (d, n) /\ on_post_configure name true w (d, n) = Ok puts /\ w_exposure w = Some (1 # 20)
  /\ let s := put_all (w_exports w) [] puts in
     dget "PULSE2.delay" s = Some (PFloat (1 # 20)) /\ dget "PULSE2.width" s = Some (PFloat 0).
Proof.
  exists "det", (ex_world (Some (1 # 20)) ex_crossed), ex_rows, (3 # 10), 3%Z. eexists. split; [vm_compute; reflexivity|].
  split; [vm_compute; reflexivity|]. split; [reflexivity|]. split; vm_compute; reflexivity.
Qed.
Print Assumptions C80_crossed_refuted.
