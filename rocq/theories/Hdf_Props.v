(** C51: the datasets that are announced are in the file; C52: the file has the dimensions of the
    scan; C53: what the parts of a PandA report. *)
From Coq Require Import String Ascii Bool QArith Lia List.
From Verif Require Import Base Hdf_Model Hdf_Spec Hdf_Proofs.
Import ListNotations.
Local Open Scope nat_scope.
Local Open Scope string_scope.
Local Open Scope list_scope.

(** Each dataset that is announced is in the layout at its path, and is what it should be. *)
Theorem C51_written : forall fmt name p g filename w ds, axes_ok g ->
  create_dataset_infos name p g filename false = Ok ds ->
  forall d, In d ds -> p_file d = filename /\
  exists t, meant fmt name p g d t /\ In (p_path d, t) (contents "" (make_layout_xml fmt g p w false)) /\
  (p_uid d = "" /\ p_type d = POSITION_SET \/
   In (p_uid d, TNd "NDArrayUniqueId") (contents "" (make_layout_xml fmt g p w false))).
Proof.
  intros fmt name p g filename w ds Ax H d D. rewrite layout_contents. apply (create_In _ _ _ _ _ _ H) in D.
  destruct D as [n t a R|a A|r E|r n a E R]; (split; [reflexivity|]).
  - exists (TNd a). split; [eapply meant_attr; eauto|]. split; [eapply attr_there; exact R|]. right. apply uid_there.
  - destruct Ax as [_ Ax]. pose proof (proj1 (Ax a) A) as B. apply in_flat_map in B. destruct B as (dm & B1 & B2).
    exists (TConst (String.concat "," (map fmt (d_pos dm a)))). split.
    { apply (meant_set fmt name p g _ a); auto. exists dm. auto. }
    split; [now apply set_there | left; auto].
  - exists TDet. split. { apply (meant_primary fmt name p g _ r); auto. apply in_ndarray. rewrite E. now left. }
    split; [apply det_there|]. right. apply uid_there.
  - exists (TNd a). split; [eapply meant_calc; eauto|]. split; [now apply calc_there|]. right. apply uid_there.
Qed.

(** With the demand positions in a file of their own, they are announced in that file, at the path
    where they are; the others stay. *)
Theorem C51_additional : forall fmt name p g filename w ds, axes_ok g ->
  create_dataset_infos name p g filename true = Ok ds ->
  forall d, In d ds ->
  (p_type d = POSITION_SET /\ exists a dm, p_name d = a +++ ".value_set" /\ p_path d = "/entry/" +++ a +++ "_set" /\ p_file d = fst (write_additional_hdf filename g) /\
     In dm (g_dims g) /\ In a (d_axes dm) /\ In (p_path d, d_pos dm a) (snd (write_additional_hdf filename g))) \/
  (p_file d = filename /\ exists t, meant fmt name p g d t /\ In (p_path d, t) (contents "" (make_layout_xml fmt g p w true))).
Proof.
  intros fmt name p g filename w ds Ax H d D. rewrite layout_contents. apply (create_In _ _ _ _ _ _ H) in D.
  destruct D as [n t a R|a A|r E|r n a E R].
  - right. split; [reflexivity|]. exists (TNd a). split; [eapply meant_attr; eauto|]. eapply attr_there; exact R.
  - left. split; [reflexivity|]. destruct Ax as [_ Ax]. pose proof (proj1 (Ax a) A) as B. apply in_flat_map in B. destruct B as (dm & B1 & B2).
    exists a, dm. split; [reflexivity|]. split; [reflexivity|]. split; [reflexivity|]. split; [exact B1|]. split; [exact B2|].
    cbn [snd write_additional_hdf p_path]. apply in_flat_map. exists dm. split; [exact B1|]. apply in_map_iff. now exists a.
  - right. split; [reflexivity|]. exists TDet. split. { apply (meant_primary fmt name p g _ r); auto. apply in_ndarray. rewrite E. now left. }
    apply det_there.
  - right. split; [reflexivity|]. exists (TNd a). split; [eapply meant_calc; eauto|]. now apply calc_there.
Qed.

(** Every dataset of the other file is announced in it. *)
Theorem C51_additional_announced : forall name p g filename ds q l, axes_ok g ->
  create_dataset_infos name p g filename true = Ok ds -> In (q, l) (snd (write_additional_hdf filename g)) ->
  exists d, In d ds /\ p_path d = q /\ p_type d = POSITION_SET /\ p_file d = fst (write_additional_hdf filename g).
Proof.
  intros name p g filename ds q l [_ Ax] H K. cbn [snd write_additional_hdf] in K. apply in_flat_map in K.
  destruct K as (dm & D & K). apply in_map_iff in K. destruct K as (a & K & A). injection K as <- _.
  eexists. split; [apply (create_In _ _ _ _ _ _ H); apply (an_set name p g filename true a)|auto].
  apply Ax. apply in_flat_map. eauto.
Qed.

(** What is in the file, other than the two attributes that every file has, is announced. *)
Theorem C51_announced : forall fmt name p g filename w ds r, axes_ok g ->
  create_dataset_infos name p g filename false = Ok ds -> reported p (INDArray r) ->
  forall q t, In (q, t) (contents "" (make_layout_xml fmt g p w false)) ->
  (exists d, In d ds /\ p_path d = q) \/ (exists l, t = TLink l /\ exists d, In d ds /\ p_path d = l) \/
  q = "/entry/NDAttributes/NDArrayUniqueId" \/ q = "/entry/NDAttributes/NDArrayTimeStamp".
Proof.
  intros fmt name p g filename w ds r [_ Ax] H R q t K. rewrite layout_contents in K.
  apply in_ndarray in R.
  assert (E : exists r', filter_values is_ndarray p = [r']).
  { unfold create_dataset_infos in H. destruct (filter_values is_ndarray p) as [|r1 [|]]; [destruct R | eauto | discriminate]. }
  destruct E as [r' E].
  assert (S : forall dm a, In dm (g_dims g) -> In a (d_axes dm) -> exists d, In d ds /\ p_path d = "/entry/detector/" +++ a +++ "_set").
  { intros dm a D A. eexists. split; [apply (create_In _ _ _ _ _ _ H); apply (an_set name p g filename false a)|reflexivity].
    apply Ax. apply in_flat_map. eauto. }
  unfold layout_things in K. rewrite !in_app_iff in K. destruct K as [K|[K|[K|K]]].
  - unfold group_things in K. apply in_app_iff in K. destruct K as [K|[K|[]]].
    + apply axis_things_In in K. destruct K as (dm & a & D & A & K). injection K as -> _. left. exact (S dm a D A).
    + injection K as <- _. left. eexists. split; [apply (create_In _ _ _ _ _ _ H); exact (an_primary name p g filename false r' E) | reflexivity].
  - apply in_flat_map in K. destruct K as ([n a] & I & K). cbn [fst snd] in K. unfold group_things in K. apply in_app_iff in K. destruct K as [K|[K|[]]].
    + apply axis_things_In in K. destruct K as (dm & x & D & A & K). injection K as _ ->. right. left. eexists. split; [reflexivity|]. exact (S dm x D A).
    + injection K as <- _. left. apply in_calc in I. eexists. split; [apply (create_In _ _ _ _ _ _ H); exact (an_calc name p g filename false r' n a E I) | reflexivity].
  - apply in_flat_map in K. destruct K as ([[n y] a] & I & K). cbn [fst snd] in K. unfold group_things in K. apply in_app_iff in K. destruct K as [K|[K|[]]].
    + apply axis_things_In in K. destruct K as (dm & x & D & A & K). injection K as _ ->. right. left. eexists. split; [reflexivity|]. exact (S dm x D A).
    + injection K as <- _. left. apply in_attr in I. eexists. split; [apply (create_In _ _ _ _ _ _ H); exact (an_attr name p g filename false n y a I) | reflexivity].
  - destruct K as [K|[K|[]]]; injection K as <- _; auto.
Qed.

(** No path is there twice if the reported names are distinct. *)
Definition names (p : part_info) : list string :=
  map fst (filter_values is_calc p) ++ map (fun nta => fst (fst nta)) (filter_values is_attr p).
Theorem C51_once : forall fmt g p w remove, axes_ok g -> NoDup (names p) ->
  (forall n, In n (names p) -> no_slash n /\ n <> "detector" /\ n <> "NDAttributes" /\
     forall a, In a (g_axes g) -> n <> a +++ "_set") ->
  NoDup (map fst (contents "" (make_layout_xml fmt g p w remove))).
Proof.
  intros fmt g p w remove [Ax1 Ax2] N H. rewrite layout_contents. apply once; [exact Ax1| |].
  - constructor.
    + rewrite app_assoc, in_app_iff. intros [K|[K|[]]]; [|discriminate]. apply H in K. tauto.
    + rewrite app_assoc. apply NoDup_join; [exact N| repeat constructor; intros [] |].
      intros n K [<-|[]]. apply H in K. tauto.
  - intros n K. destruct (H n K) as (A & _ & _ & B). split; [exact A|]. intros a I. apply B. now apply Ax2.
Qed.

(** The groups with data follow NeXus: the signal is a dataset in the group, and for each dimension
    of the scan the axes give its single axis, and every axis of the scan is in the group with the
    dimension that it belongs to. *)
Theorem C51_nexus : forall fmt g p w n, n = "detector" \/ In n (names p) ->
  let c := contents "" (make_layout_xml fmt g p w false) in
  let at_ := group_attrs "" (make_layout_xml fmt g p w false) in
  let here := "/entry/" +++ n in
  In (here, "signal", n) at_ /\ In (here, "NX_class", "NXdata") at_ /\ (exists t, In (here +++ "/" +++ n, t) c /\ (t = TDet \/ exists a, t = TNd a)) /\
  (exists axes, In (here, "axes", String.concat "," axes) at_ /\
     (forall r, filter_values is_ndarray p = [r] -> length axes = r + length (g_dims g)) /\
     forall i d, nth_error (g_dims g) i = Some d ->
       (forall a, d_axes d = [a] -> nth_error axes i = Some (a +++ "_set")) /\
       (forall a, In a (d_axes d) -> In (here, a +++ "_set_indices", str i) at_ /\
          holds c (here +++ "/" +++ a +++ "_set") (String.concat "," (map fmt (d_pos d a))))).
Proof.
  intros fmt g p w n Hn c at_ here. set (rank := match filter_values is_ndarray p with [] => 2 | r :: _ => r end).
  assert (G : exists link more, In (make_nxdata fmt n rank g false link more)
     (match make_layout_xml fmt g p w false with El _ _ [El _ _ ks] => ks | _ => [] end)).
  { unfold make_layout_xml. destruct Hn as [->|Hn].
    - do 2 eexists. right. left. reflexivity.
    - unfold names in Hn. apply in_app_iff in Hn. destruct Hn as [Hn|Hn]; apply in_map_iff in Hn.
      + destruct Hn as ([n' a] & <- & Hn). do 2 eexists. right. right. apply in_app_iff. left. apply in_map_iff.
        exists (n', a). split; [reflexivity | exact Hn].
      + destruct Hn as ([[n' t] a] & <- & Hn). do 2 eexists. right. right. apply in_app_iff. right. apply in_app_iff. left.
        apply in_map_iff. exists (n', t, a). split; [reflexivity | exact Hn]. }
  destruct G as (link & more & G). pose proof (entry_attrs fmt g p w false link n rank more G) as A. fold at_ here in A.
  assert (Ap : forall s, here +++ "/" +++ s = "/entry/" +++ n +++ "/" +++ s).
  { intros s. unfold here. now rewrite append_assoc. }
  split; [apply A; now left|]. split; [apply A; right; right; now left|]. split.
  - rewrite Ap. unfold c. rewrite layout_contents. destruct Hn as [->|Hn].
    + exists TDet. split; [apply det_there | auto].
    + unfold names in Hn. apply in_app_iff in Hn. destruct Hn as [Hn|Hn]; apply in_map_iff in Hn.
      * destruct Hn as ([n' a] & <- & Hn). exists (TNd a). split; [|eauto]. apply calc_there. now apply in_calc.
      * destruct Hn as ([[n' t] a] & <- & Hn). exists (TNd a). split; [|eauto]. apply (attr_there fmt g p false n' t a). now apply in_attr.
  - exists (pad_dims g rank). split; [apply A; right; now left|]. split.
    { intros r E. unfold pad_dims. rewrite app_length, map_length, repeat_length. unfold rank. rewrite E. lia. }
    intros i d D. split.
    + intros a E. unfold pad_dims. rewrite nth_error_app1.
      * erewrite map_nth_error; [|exact D]. now rewrite E.
      * rewrite map_length. apply nth_error_Some. congruence.
    + intros a Ia. split; [apply A; eapply kids_index; eauto|]. rewrite Ap. unfold c. rewrite layout_contents.
      assert (Id : In d (g_dims g)) by (eapply nth_error_In; exact D).
      destruct Hn as [->|Hn]; [now apply (holds_det fmt g p d a)|].
      apply (holds_link fmt g p n d a _); auto. unfold names in Hn. apply in_app_iff in Hn. destruct Hn as [Hn|Hn]; apply in_map_iff in Hn.
      * destruct Hn as ([n' x] & <- & Hn). left. eauto.
      * destruct Hn as ([[n' t] x] & <- & Hn). right. eauto.
Qed.

(** The demand positions have the units of their axis. *)
Theorem C51_units : forall fmt g p w d a, In d (g_dims g) -> In a (d_axes d) -> g_units g a <> "" ->
  In ("/entry/detector/" +++ a +++ "_set", "units", g_units g a) (dataset_attrs "" (make_layout_xml fmt g p w false)).
Proof.
  intros fmt g p w d a D A U. unfold make_layout_xml.
  match goal with |- In ?x (dataset_attrs "" (El _ _ [El _ _ ?ks])) => change (In x (flat_map (dataset_attrs "/entry") ks ++ [])) end.
  rewrite app_nil_r. apply in_flat_map. eexists. split; [right; left; reflexivity|]. unfold make_nxdata.
  match goal with |- In ?x (dataset_attrs _ (El _ _ ?ks)) => change (In x (flat_map (dataset_attrs "/entry/detector") ks)) end.
  apply in_flat_map. exists (make_set_points fmt d a (g_units g a)). split.
  - apply in_app_iff. left. unfold nxdata_kids. right. right. right. apply In_nth_error in D. destruct D as [i D].
    apply in_flat_map. exists (i, d). split; [exact (enum_In _ _ 0 i d D)|]. cbn [fst snd]. apply in_flat_map. exists a.
    split; [exact A|]. right. now left.
  - unfold make_set_points. destruct (g_units g a); [contradiction|]. now left.
Qed.

(** ** C52: dimensions *)

(** The child is given the size and the name of each dimension, the fastest first, and ones for
    those that are not there. *)
Definition in_order : list string := ["N"; "X"; "Y"; "3"; "4"; "5"; "6"; "7"; "8"; "9"].
Definition dims_read (pre : string) (d : dict aval) : list (option aval) := map (fun s => dget (pre +++ s) d) in_order.
Theorem C52_dimensions : forall g, length (g_dims g) <= 10 ->
  exists d, set_dimensions g = Ok d /\ NoDup (dkeys d) /\ length d = 21 /\
  dget "numExtraDims" d = Some (AInt (Z.of_nat (length (g_dims g)) - 1)) /\
  dims_read "extraDimSize" d =
    map (fun n => Some (AInt (Z.of_nat n))) (rev (map d_size (g_dims g)) ++ repeat 1 (10 - length (g_dims g))) /\
  dims_read "posNameDim" d =
    map (fun s => Some (AStr s)) (rev (map (fun k => "d" +++ str k) (seq 0 (length (g_dims g))))
                                  ++ repeat "" (10 - length (g_dims g))).
Proof.
  intros g H. unfold set_dimensions. rewrite (proj2 (Nat.leb_le _ _) H). eexists. split; [reflexivity|].
  destruct (g_dims g) as [|d1 [|d2 [|d3 [|d4 [|d5 [|d6 [|d7 [|d8 [|d9 [|d10 [|d11 r]]]]]]]]]]]; cbn [length] in H; try lia;
    (split; [vm_compute; repeat constructor; cbn; intuition discriminate|]); repeat split.
Qed.
Theorem C52_refused : forall g, 10 < length (g_dims g) -> set_dimensions g = Err TooManyDims.
Proof.
  intros g H. unfold set_dimensions. destruct (Nat.leb (length (g_dims g)) 10) eqn:E; [|reflexivity].
  apply Nat.leb_le in E. lia.
Qed.
(** So the frames in the file are as many as the points of the grid. *)
Definition product (l : list nat) : nat := fold_right Nat.mul 1 l.
Theorem C52_points : forall g d, set_dimensions g = Ok d ->
  exists sizes, dims_read "extraDimSize" d = map (fun n => Some (AInt (Z.of_nat n))) sizes /\
  product sizes = product (map d_size (g_dims g)).
Proof.
  intros g d H.
  assert (L : length (g_dims g) <= 10).
  { unfold set_dimensions in H. destruct (Nat.leb (length (g_dims g)) 10) eqn:E; [now apply Nat.leb_le | discriminate]. }
  destruct (C52_dimensions g L) as (d' & H' & _ & _ & _ & E & _). assert (d' = d) by congruence. subst d'.
  eexists. split; [exact E|].
  assert (A : forall l m, product (l ++ m) = product l * product m).
  { intros l m; induction l as [|x l IH]; [change (product m = 1 * product m); lia|]. change (x * product (l ++ m) = x * product l * product m). rewrite IH. lia. }
  rewrite A. assert (B : forall l, product (rev l) = product l).
  { intros l; induction l as [|x l IH]; [reflexivity|]. cbn [rev]. rewrite A, IH. change (product l * (x * 1) = x * product l). lia. }
  assert (C : forall k, product (repeat 1 k) = 1) by (intros k; induction k as [|k IH]; [reflexivity | change (1 * product (repeat 1 k) = 1); rewrite IH; reflexivity]).
  rewrite B, C. lia.
Qed.

(** ** C53: datasets of a PandA *)

(** What a captured position gives, written out. *)
Definition main_info (n : string) (t : adtype) (attr : string) : info :=
  match t with
  | ADetector => IAttr (n +++ ".data") PRIMARY attr
  | AMonitor => IAttr (n +++ ".data") MONITOR attr
  | APosition => IAttr (n +++ ".value") POSITION_VALUE attr
  end.
Definition expected (r : prow) : list info :=
  let main s := [main_info (r_ds r) (r_type r) (r_name r +++ "." +++ s)] in
  let extremes := [IAttr (r_ds r +++ ".min") POSITION_MIN (r_name r +++ ".Min");
                   IAttr (r_ds r +++ ".max") POSITION_MAX (r_name r +++ ".Max")] in
  match r_capture r with
  | NO => [] | VALUE => main "Value" | DIFF => main "Diff" | SUM => main "Sum" | MEAN => main "Mean"
  | MIN => main "Min" | MAX => main "Max" | MIN_MAX => extremes | MIN_MAX_MEAN => extremes ++ main "Mean"
  end.
Lemma gather_In : forall A (f : A -> result herr (list info)) l out, gather f l = Ok out ->
  (forall x, In x l -> exists o, f x = Ok o) /\
  forall i, In i out <-> exists x o, In x l /\ f x = Ok o /\ In i o.
Proof.
  intros A f l; induction l as [|x r IH]; intros out H; cbn [gather] in H.
  - injection H as <-. split; [intros x []|]. intros i. split; [intros [] | intros (x & o & [] & _)].
  - destruct (f x) as [o|e] eqn:F; [|discriminate]. destruct (gather f r) as [b|e] eqn:G; [|discriminate].
    assert (out = o ++ b) by congruence. subst out. destruct (IH b eq_refl) as [I1 I2]. split.
    + intros y [<-|Y]; eauto.
    + intros i. rewrite in_app_iff, I2. split.
      * intros [K|(y & o' & Y & K1 & K2)]; [exists x, o | exists y, o']; cbn; auto.
      * intros (y & o' & [<-|Y] & K1 & K2); [left; congruence | right; exists y, o'; auto].
Qed.
Lemma pos_infos_expected : forall r, r_ds r <> "" -> pos_infos r =
  (match r_capture r with NO | MIN_MAX => Ok (expected r) | _ => if part_name (r_ds r) then Ok (expected r) else Err BadName end).
Proof.
  intros r N. unfold pos_infos, expected. apply String.eqb_neq in N. rewrite N. unfold from_attribute_type.
  destruct (r_capture r); cbn [capture_suffixes length Nat.ltb Nat.leb filter min_max smem existsb fst snd map fold_left remove1 String.eqb Ascii.eqb eqb orb app];
    try reflexivity; destruct (part_name (r_ds r)); try reflexivity; destruct (r_type r); reflexivity.
Qed.

(** The datasets of a PandA are those of its rows with a dataset name that are captured. *)
Theorem C53_panda : forall bits pos out, panda_report bits pos = Ok out -> forall i, In i out <->
  (exists b, In b bits /\ b_ds b <> "" /\ b_capture b = true /\ i = main_info (b_ds b) (b_type b) (b_name b)) \/
  (exists r, In r pos /\ r_ds r <> "" /\ In i (expected r)).
Proof.
  intros bits pos out H i. unfold panda_report in H.
  destruct (gather bit_infos bits) as [a|] eqn:Ga; [|discriminate]. destruct (gather pos_infos pos) as [b|] eqn:Gb; [|discriminate].
  assert (out = a ++ b) by congruence. subst out. rewrite in_app_iff.
  rewrite (proj2 (gather_In _ _ _ _ Ga) i), (proj2 (gather_In _ _ _ _ Gb) i). split; (intros [K|K]; [left|right]).
  - destruct K as (x & o & X & F & I). exists x. split; [exact X|]. unfold bit_infos in F.
    destruct (String.eqb (b_ds x) "") eqn:E; cbn [negb andb] in F; [injection F as <-; destruct I|].
    apply String.eqb_neq in E. split; [exact E|]. destruct (b_capture x); [|injection F as <-; destruct I].
    split; [reflexivity|]. unfold one, from_attribute_type in F. destruct (part_name (b_ds x)); [|discriminate].
    injection F as <-. destruct I as [<-|[]]. destruct (b_type x); reflexivity.
  - destruct K as (x & o & X & F & I). exists x. split; [exact X|].
    destruct (string_dec (r_ds x) "") as [E|E].
    + exfalso. unfold pos_infos in F. rewrite E in F. destruct (r_capture x); injection F as <-; destruct I.
    + split; [exact E|]. rewrite (pos_infos_expected x E) in F.
      destruct (r_capture x); try (destruct (part_name (r_ds x)); [|discriminate]); injection F as <-; exact I.
  - destruct K as (x & X & N & C & ->). destruct (proj1 (gather_In _ _ _ _ Ga) x X) as [o F]. exists x, o. split; [exact X|]. split; [exact F|].
    unfold bit_infos in F. apply String.eqb_neq in N. rewrite N, C in F. cbn [negb andb one] in F. unfold from_attribute_type in F.
    destruct (part_name (b_ds x)); [|discriminate]. injection F as <-. left. destruct (b_type x); reflexivity.
  - destruct K as (x & X & N & I). destruct (proj1 (gather_In _ _ _ _ Gb) x X) as [o F]. exists x, o. split; [exact X|]. split; [exact F|].
    rewrite (pos_infos_expected x N) in F.
    destruct (r_capture x); try (destruct (part_name (r_ds x)); [|discriminate]); injection F as <-; exact I.
Qed.

(** It is refused only for a dataset name that is not alphanumeric. *)
Theorem C53_refused : forall bits pos e, panda_report bits pos = Err e ->
  e = BadName /\ ((exists b, In b bits /\ part_name (b_ds b) = false) \/ (exists r, In r pos /\ part_name (r_ds r) = false)).
Proof.
  assert (Ge : forall A (f : A -> result herr (list info)) l e, gather f l = Err e -> exists x, In x l /\ f x = Err e).
  { intros A f l; induction l as [|x r IH]; intros e H; [discriminate|]. cbn [gather] in H. destruct (f x) as [o|e'] eqn:F.
    - destruct (gather f r) as [b|e'] eqn:G; [discriminate|]. destruct (IH e) as (y & Y & K); [congruence|]. exists y. split; [now right | exact K].
    - exists x. split; [now left | congruence]. }
  intros bits pos e H. unfold panda_report in H. destruct (gather bit_infos bits) as [a|e1] eqn:Ga.
  - destruct (gather pos_infos pos) as [b|e2] eqn:Gb; [discriminate|]. injection H as ->.
    apply Ge in Gb. destruct Gb as (x & X & F). destruct (string_dec (r_ds x) "") as [E|E].
    + exfalso. unfold pos_infos in F. rewrite E in F. destruct (r_capture x); discriminate.
    + rewrite (pos_infos_expected x E) in F. destruct (r_capture x); try discriminate;
        (destruct (part_name (r_ds x)) eqn:P; [discriminate|]; split; [congruence | right; eauto]).
  - injection H as ->. apply Ge in Ga. destruct Ga as (x & X & F). unfold bit_infos in F.
    destruct (negb (String.eqb (b_ds x) "") && b_capture x); [|discriminate]. unfold one, from_attribute_type in F.
    destruct (part_name (b_ds x)) eqn:P; [discriminate|]. split; [congruence | left; eauto].
Qed.

(** What a driver gives. *)
Theorem C53_driver : forall useful extra out, driver_report useful extra = Ok out -> forall i, In i out <->
  (useful = true /\ i = INDArray 2) \/ (exists n t, In (n, t) extra /\ i = main_info n t n).
Proof.
  intros useful extra out H i. unfold driver_report in H. destruct (gather _ extra) as [l|] eqn:G; [|discriminate].
  assert (out = (if useful then [INDArray 2] else []) ++ l) by congruence. subst out.
  destruct (gather_In _ _ _ _ G) as [G1 G2]. rewrite in_app_iff, G2. split; (intros [K|K]; [left|right]).
  - destruct useful; [destruct K as [<-|[]]; auto | destruct K].
  - destruct K as ([n t] & o & X & F & I). exists n, t. split; [exact X|]. unfold one, from_attribute_type in F.
    cbn [fst snd] in F. destruct (part_name n); [|discriminate]. injection F as <-. destruct I as [<-|[]]. destruct t; reflexivity.
  - destruct K as [-> ->]. now left.
  - destruct K as (n & t & X & ->). destruct (G1 _ X) as [o F]. exists (n, t), o. split; [exact X|]. split; [exact F|].
    unfold one, from_attribute_type in F. cbn [fst snd] in F. destruct (part_name n); [|discriminate]. injection F as <-. left. destruct t; reflexivity.
Qed.

(** The names of the datasets of a PandA can be in the layout together. *)
Definition info_name (i : info) : string := match i with IAttr n _ _ => n | _ => "" end.
Fixpoint before_dot (s : string) : string :=
  match s with EmptyString => "" | String c r => if Ascii.eqb c "."%char then "" else String c (before_dot r) end.
Lemma name_char_spec : forall c, name_char c || Nat.eqb (nat_of_ascii c) 10 = true -> c <> "/"%char /\ Ascii.eqb c "."%char = false.
Proof.
  intros c H. split; [intros ->; discriminate|]. destruct (Ascii.eqb_spec c "."%char) as [->|]; [discriminate | reflexivity].
Qed.
Lemma part_name_chars : forall s, part_name s = true -> no_slash s /\ forall r, before_dot (s +++ "." +++ r) = s.
Proof.
  intros s; induction s as [|c s IH]; [cbn; auto|]. intros H.
  assert (K : name_char c || Nat.eqb (nat_of_ascii c) 10 = true /\ part_name s = true).
  { cbn [part_name] in H. destruct s as [|c' s']; [auto|]. apply andb_true_iff in H. destruct H as [-> H]. auto. }
  destruct K as [K P]. apply name_char_spec in K. destruct K as [K1 K2], (IH P) as [I1 I2].
  split; [split; assumption|]. intros r.
  change ((if Ascii.eqb c "."%char then "" else String c (before_dot (s +++ "." +++ r))) = String c s). now rewrite K2, I2.
Qed.
Lemma no_slash_app : forall a b, no_slash a -> no_slash b -> no_slash (a +++ b).
Proof. intros a b; induction a as [|c a IH]; cbn; [auto|]. intros [A1 A2] B. auto. Qed.
Fixpoint last_char (s : string) (d : ascii) : ascii := match s with EmptyString => d | String c r => last_char r c end.
Lemma last_char_app : forall a s d, last_char (a +++ String s "") d = s.
Proof. intros a s; induction a as [|c a IH]; intros d; cbn; [reflexivity | apply IH]. Qed.
Definition dotted (s n : string) : Prop := part_name s = true /\ (n = s +++ ".data" \/ n = s +++ ".value" \/ n = s +++ ".min" \/ n = s +++ ".max").
Lemma dotted_fine : forall s n, dotted s n -> no_slash n /\ before_dot n = s /\ n <> "detector" /\ n <> "NDAttributes" /\ forall a, n <> a +++ "_set".
Proof.
  intros s n [P H]. destruct (part_name_chars s P) as [S B].
  assert (E : exists h t, n = s +++ "." +++ h +++ String t "" /\ no_slash (h +++ String t "") /\ t <> "t"%char).
  { destruct H as [->|[->|[->| ->]]]; [exists "dat", "a"%char | exists "valu", "e"%char | exists "mi", "n"%char | exists "ma", "x"%char];
      (split; [reflexivity|]; split; [cbn; repeat split; discriminate | discriminate]). }
  destruct E as (h & t & -> & N & T).
  assert (Bn : before_dot (s +++ "." +++ h +++ String t "") = s) by apply B.
  split; [apply no_slash_app; [exact S|]; cbn; split; [discriminate | exact N]|]. split; [exact Bn|].
  split; [|split].
  - intros K. rewrite K in Bn. cbn in Bn. apply (f_equal String.length) in K. rewrite <- Bn in K. cbn in K. discriminate.
  - intros K. rewrite K in Bn. cbn in Bn. apply (f_equal String.length) in K. rewrite <- Bn in K. cbn in K. discriminate.
  - intros a K. apply (f_equal (fun x => last_char x "0"%char)) in K.
    replace (a +++ "_set") with ((a +++ "_se") +++ String "t" "") in K by (now rewrite append_assoc).
    replace (s +++ "." +++ h +++ String t "") with ((s +++ "." +++ h) +++ String t "") in K by (now rewrite !append_assoc).
    rewrite !last_char_app in K. contradiction.
Qed.
Lemma gather_flat : forall A (f : A -> result herr (list info)) l out, gather f l = Ok out ->
  out = flat_map (fun x => match f x with Ok o => o | Err _ => [] end) l.
Proof.
  intros A f l; induction l as [|x r IH]; intros out H; cbn [gather] in H; [now injection H as <-|].
  destruct (f x) as [o|e] eqn:F; [|discriminate]. destruct (gather f r) as [b|e] eqn:G; [|discriminate].
  assert (out = o ++ b) by congruence. subst out. cbn [flat_map]. now rewrite F, (IH b eq_refl).
Qed.
Lemma keyed_NoDup : forall A (key : A -> string) (f : A -> list string) l,
  NoDup (map key l) -> (forall x, In x l -> NoDup (f x) /\ forall n, In n (f x) -> before_dot n = key x) ->
  NoDup (flat_map f l) /\ forall n, In n (flat_map f l) -> In (before_dot n) (map key l).
Proof.
  intros A key f l N H. split.
  - induction l as [|x l IH]; [constructor|]. cbn [flat_map map] in *. inversion N as [|? ? N1 N2]; subst.
    apply NoDup_join; [apply H; now left | apply IH; [exact N2 | intros y Y; apply H; now right] |].
    intros n I J. apply in_flat_map in J. destruct J as (y & Y & J). apply N1.
    rewrite <- (proj2 (H x (or_introl eq_refl)) n I), (proj2 (H y (or_intror Y)) n J). now apply in_map.
  - intros n I. apply in_flat_map in I. destruct I as (y & Y & I). rewrite (proj2 (H y Y) n I). now apply in_map.
Qed.
Definition named_bits (bits : list brow) : list brow := filter (fun b => negb (String.eqb (b_ds b) "")) bits.
Definition named_pos (pos : list prow) : list prow := filter (fun r => negb (String.eqb (r_ds r) "")) pos.
Lemma skip_unnamed : forall A (key : A -> string) (f : A -> list info) l, (forall x, key x = "" -> f x = []) ->
  flat_map f l = flat_map f (filter (fun x => negb (String.eqb (key x) "")) l).
Proof.
  intros A key f l H; induction l as [|x l IH]; [reflexivity|]. cbn [flat_map filter]. destruct (String.eqb_spec (key x) "") as [E|E]; cbn [negb flat_map].
  - now rewrite (H x E), IH.
  - now rewrite IH.
Qed.
Lemma map_flat_map : forall A B C (g : B -> C) (f : A -> list B) l, map g (flat_map f l) = flat_map (fun x => map g (f x)) l.
Proof. intros A B C g f l; induction l as [|x l IH]; [reflexivity|]. cbn [flat_map]. now rewrite map_app, IH. Qed.
Lemma attrs_names : forall l, (forall i, In i l -> exists n t a, i = IAttr n t a) -> names [("P", Some l)] = map info_name l.
Proof.
  intros l H. unfold names, filter_values. cbn [flat_map snd]. rewrite !app_nil_r.
  assert (flat_map is_calc l = []) as ->.
  { induction l as [|i l IH]; [reflexivity|]. cbn [flat_map]. rewrite IH by (intros j J; apply H; now right).
    destruct (H i (or_introl eq_refl)) as (n & t & a & ->). reflexivity. }
  cbn [map app]. induction l as [|i l IH]; [reflexivity|]. cbn [flat_map map]. rewrite map_app, IH by (intros j J; apply H; now right).
  destruct (H i (or_introl eq_refl)) as (n & t & a & ->). reflexivity.
Qed.

Theorem C53_once : forall fmt g bits pos out w remove, axes_ok g -> panda_report bits pos = Ok out ->
  NoDup (map b_ds (named_bits bits) ++ map r_ds (named_pos pos)) ->
  (forall r, In r pos -> part_name (r_ds r) = true) ->
  NoDup (map fst (contents "" (make_layout_xml fmt g [("P", Some out)] w remove))).
Proof.
  intros fmt g bits pos out w remove Ax H N P. pose proof (C53_panda bits pos out H) as S.
  assert (At : forall i, In i out -> exists n t a, i = IAttr n t a).
  { intros i I. apply S in I. destruct I as [(b & _ & _ & _ & ->)|(r & _ & _ & I)].
    - destruct (b_type b); cbn; eauto.
    - unfold expected in I. destruct (r_capture r); cbn in I; intuition (subst; eauto); destruct (r_type r); cbn; eauto. }
  unfold panda_report in H. destruct (gather bit_infos bits) as [oa|] eqn:Ga; [|discriminate].
  destruct (gather pos_infos pos) as [ob|] eqn:Gb; [|discriminate].
  assert (out = oa ++ ob) by congruence. subst out.
  assert (Eb : forall b, In b (named_bits bits) -> forall n, In n (map info_name (match bit_infos b with Ok o => o | Err _ => [] end)) -> dotted (b_ds b) n).
  { intros b _ n I. unfold bit_infos in I. destruct (negb (String.eqb (b_ds b) "") && b_capture b); [|destruct I].
    unfold one, from_attribute_type in I. destruct (part_name (b_ds b)) eqn:Pb; [|destruct I]. destruct I as [<-|[]].
    split; [exact Pb|]. destruct (b_type b); cbn; auto. }
  assert (Er : forall r, In r (named_pos pos) -> forall n, In n (map info_name (match pos_infos r with Ok o => o | Err _ => [] end)) -> dotted (r_ds r) n).
  { intros r R n I. apply filter_In in R. destruct R as [R R']. apply negb_true_iff, String.eqb_neq in R'. split; [now apply P|].
    rewrite (pos_infos_expected r R'), (P r R) in I. unfold expected in I.
    destruct (r_capture r); cbn in I; intuition (subst; auto); destruct (r_type r); cbn; auto. }
  pose proof (gather_flat _ _ _ _ Ga) as Fa. pose proof (gather_flat _ _ _ _ Gb) as Fb.
  rewrite (skip_unnamed _ b_ds) in Fa by (intros x E; unfold bit_infos; now rewrite E).
  rewrite (skip_unnamed _ r_ds) in Fb by (intros x E; unfold pos_infos; rewrite E; destruct (r_capture x); reflexivity).
  fold (named_bits bits) in Fa. fold (named_pos pos) in Fb.
  assert (Na : forall l m : list string, NoDup (l ++ m) -> NoDup l /\ NoDup m /\ forall x, In x l -> ~ In x m).
  { intros l m; induction l as [|x l IH]; cbn; intros K; [repeat split; auto; constructor|].
    inversion K as [|? ? K1 K2]; subst. destruct (IH K2) as (I1 & I2 & I3). rewrite in_app_iff in K1. split; [constructor; tauto|].
    split; [exact I2|]. intros y [<-|Y]; [tauto | auto]. }
  destruct (Na _ _ N) as (Nb & Nr & Nx).
  destruct (keyed_NoDup _ b_ds (fun b => map info_name (match bit_infos b with Ok o => o | Err _ => [] end)) (named_bits bits) Nb) as [Kb1 Kb2].
  { intros b B. split; [|intros n I; apply (Eb b B) in I; now apply dotted_fine in I].
    unfold bit_infos. destruct (negb (String.eqb (b_ds b) "") && b_capture b); [|constructor]. unfold one, from_attribute_type.
    destruct (part_name (b_ds b)); [|constructor]. repeat constructor; cbn; intuition. }
  destruct (keyed_NoDup _ r_ds (fun r => map info_name (match pos_infos r with Ok o => o | Err _ => [] end)) (named_pos pos) Nr) as [Kr1 Kr2].
  { intros r R. split; [|intros n I; apply (Er r R) in I; now apply dotted_fine in I].
    apply filter_In in R. destruct R as [R R']. apply negb_true_iff, String.eqb_neq in R'.
    rewrite (pos_infos_expected r R'), (P r R).
    assert (D : forall x y, x <> y -> r_ds r +++ x <> r_ds r +++ y) by (intros x y XY K; apply append_inj in K; contradiction).
    unfold expected. destruct (r_capture r); cbn [map app info_name]; repeat constructor; cbn [In]; try tauto;
      destruct (r_type r); cbn [main_info info_name]; intuition; try (match goal with K : r_ds r +++ _ = r_ds r +++ _ |- _ => revert K; apply D; discriminate end). }
  rewrite <- map_flat_map, <- Fa in Kb1, Kb2. rewrite <- map_flat_map, <- Fb in Kr1, Kr2.
  assert (Nm : names [("P", Some (oa ++ ob))] = map info_name oa ++ map info_name ob) by (rewrite (attrs_names _ At); apply map_app).
  apply C51_once; [exact Ax| |].
  - rewrite Nm. apply NoDup_join; [exact Kb1 | exact Kr1 |]. intros n I J. exact (Nx _ (Kb2 n I) (Kr2 n J)).
  - intros n I. rewrite Nm in I. apply in_app_iff in I.
    assert (D : exists s, dotted s n).
    { destruct I as [I|I]; [rewrite Fa in I | rewrite Fb in I]; rewrite map_flat_map in I; apply in_flat_map in I; destruct I as (x & X & I); [exists (b_ds x) | exists (r_ds x)]; auto. }
    destruct D as [s D]. apply dotted_fine in D. destruct D as (D1 & _ & D2 & D3 & D4). auto.
Qed.

(** ** A grid scan of y and x with a sum and a PandA position *)

Definition dy : dim := mkDim ["y"] 3 (fun _ => [0; 1; 2]%Q).
Definition dx : dim := mkDim ["x"] 2 (fun _ => [5; 6]%Q).
Definition g_ex : gen := mkGen [dy; dx] ["y"; "x"] (fun _ => "mm").
Definition fmt_ex (q : Q) : string := str (Z.to_nat (Qnum q)).
Definition row_ex : prow := mkR "INENC1.VAL" MIN_MAX_MEAN "px" APosition.
Definition p_ex : part_info :=
  [("DRV", Some [INDArray 2]); ("STAT", Some [ICalc "sum" "STATS_TOTAL"]); ("NONE", None);
   ("BUS", match panda_report [] [row_ex] with Ok l => Some l | Err _ => None end)].
Lemma axes_ex : axes_ok g_ex.
Proof. split; [repeat constructor; cbn; intuition discriminate|]. intros a. cbn. tauto. Qed.
Definition ds_ex : list produced := match create_dataset_infos "det" p_ex g_ex "det.h5" false with Ok l => l | Err _ => [] end.
Example C51_ex_infos : create_dataset_infos "det" p_ex g_ex "det.h5" false = Ok ds_ex /\
  map (fun d => (p_name d, p_path d)) ds_ex =
  [("det.data", "/entry/detector/detector"); ("det.sum", "/entry/sum/sum"); ("px.min", "/entry/px.min/px.min");
   ("px.max", "/entry/px.max/px.max"); ("px.value", "/entry/px.value/px.value");
   ("y.value_set", "/entry/detector/y_set"); ("x.value_set", "/entry/detector/x_set")].
Proof. vm_compute. auto. Qed.
Example C51_ex_layout :
  In ("/entry/px.min/x_set", TLink "/entry/detector/x_set") (contents "" (make_layout_xml fmt_ex g_ex p_ex true false)) /\
  In ("/entry/detector/x_set", TConst "5,6") (contents "" (make_layout_xml fmt_ex g_ex p_ex true false)) /\
  In ("/entry/detector", "axes", "y_set,x_set,.,.") (group_attrs "" (make_layout_xml fmt_ex g_ex p_ex true false)) /\
  In ("/entry/sum", "x_set_indices", "1") (group_attrs "" (make_layout_xml fmt_ex g_ex p_ex true false)) /\
  In ("/entry/detector/x_set", "units", "mm") (dataset_attrs "" (make_layout_xml fmt_ex g_ex p_ex true false)).
Proof. vm_compute. intuition. Qed.
Example C51_ex_once : NoDup (map fst (contents "" (make_layout_xml fmt_ex g_ex p_ex true false))).
Proof.
  apply C51_once; [exact axes_ex| |].
  - vm_compute. repeat constructor; cbn; intuition discriminate.
  - intros n K. vm_compute in K. repeat (destruct K as [<-|K]; [vm_compute; repeat split; try discriminate; intuition (subst; discriminate)|]). destruct K.
Qed.
Example C51_ex_additional : fst (write_additional_hdf "det.h5" g_ex) = "detadditional.h5" /\
  snd (write_additional_hdf "det.h5" g_ex) = [("/entry/y_set", [0; 1; 2]%Q); ("/entry/x_set", [5; 6]%Q)].
Proof. vm_compute. auto. Qed.
Example C52_ex : match set_dimensions g_ex with
  | Ok d => dget "extraDimSizeN" d = Some (AInt 2) /\ dget "posNameDimN" d = Some (AStr "d1") /\
            dget "extraDimSizeX" d = Some (AInt 3) /\ dget "posNameDimX" d = Some (AStr "d0") /\
            dget "extraDimSizeY" d = Some (AInt 1) /\ dget "numExtraDims" d = Some (AInt 1)
  | Err _ => False end.
Proof. vm_compute. auto 10. Qed.
Example C53_ex : panda_report [mkB "TTLIN1.VAL" true "shutter" AMonitor] [row_ex] =
  Ok [IAttr "shutter.data" MONITOR "TTLIN1.VAL"; IAttr "px.min" POSITION_MIN "INENC1.VAL.Min";
      IAttr "px.max" POSITION_MAX "INENC1.VAL.Max"; IAttr "px.value" POSITION_VALUE "INENC1.VAL.Mean"].
Proof. reflexivity. Qed.

Definition bits_ex : list brow := [mkB "TTLIN1.VAL" true "shutter" AMonitor; mkB "TTLIN2.VAL" false "" AMonitor; mkB "TTLIN3.VAL" false "" AMonitor].
Example C53_ex_once : (exists out, panda_report bits_ex [row_ex] = Ok out) /\
  NoDup (map b_ds (named_bits bits_ex) ++ map r_ds (named_pos [row_ex])) /\
  (forall r, In r [row_ex] -> part_name (r_ds r) = true).
Proof.
  split; [eexists; reflexivity|]. split; [repeat constructor; cbn; intuition discriminate|]. intros r [<-|[]]. reflexivity.
Qed.
Example C53_ex_driver : driver_report true [("I0", ADetector)] = Ok [INDArray 2; IAttr "I0.data" PRIMARY "I0"].
Proof. reflexivity. Qed.
Example C53_ex_refused : panda_report [mkB "TTLIN1.VAL" true "a.b" AMonitor] [] = Err BadName.
Proof. reflexivity. Qed.

(** ** What goes wrong *)

(** Two rows of the PandA with the same dataset name are both taken, and the layout has two groups
    with the same path. *)
Theorem C51_twice_refuted : exists bits out g, axes_ok g /\ panda_report bits [] = Ok out /\
  ~ NoDup (map fst (contents "" (make_layout_xml fmt_ex g [("P", Some out)] true false))).
Proof.
  exists [mkB "TTLIN1.VAL" true "I0" AMonitor; mkB "TTLIN2.VAL" true "I0" AMonitor]. eexists. exists g_ex.
  split; [exact axes_ex|]. split; [reflexivity|]. vm_compute. intros N.
  repeat (match goal with H : NoDup (_ :: _) |- _ => inversion H; subst; clear H end).
  match goal with H : ~ In "/entry/I0.data/y_set" _ |- _ => apply H end. cbn. intuition.
Qed.
(** An attribute with the name of the detector is announced under the same name as its data. *)
Theorem C51_same_name_refuted : exists p ds d d', create_dataset_infos "I0" p g_ex "I0.h5" false = Ok ds /\
  In d ds /\ In d' ds /\ p_name d = p_name d' /\ p_path d <> p_path d'.
Proof.
  exists [("P", Some [INDArray 2; IAttr "I0.data" MONITOR "x"])]. do 3 eexists. split; [reflexivity|].
  split; [left; reflexivity|]. split; [right; left; reflexivity|]. split; [reflexivity | discriminate].
Qed.
(** The axes of a group of an attribute are as many as those of the detector, not as many as the
    rank with which its dataset is announced. *)
Theorem C51_rank_refuted : exists p ds d axes, create_dataset_infos "det" p g_ex "det.h5" false = Ok ds /\
  In d ds /\ p_path d = "/entry/sum/sum" /\
  In ("/entry/sum", "axes", String.concat "," axes) (group_attrs "" (make_layout_xml fmt_ex g_ex p true false)) /\
  axes = ["y_set"; "x_set"; "."; "."] /\ p_rank d = 2.
Proof.
  exists [("P", Some [INDArray 2; ICalc "sum" "T"])]. do 2 eexists. exists ["y_set"; "x_set"; "."; "."]. split; [reflexivity|].
  split; [right; left; reflexivity|]. split; [reflexivity|]. split; [vm_compute; intuition|]. auto.
Qed.
(** The name of a position of which only the extremes are captured is not checked. *)
Theorem C53_unchecked_refuted : exists r out, part_name (r_ds r) = false /\ panda_report [] [r] = Ok out /\ out <> [].
Proof. exists (mkR "INENC1.VAL" MIN_MAX "a/b" APosition). eexists. split; [reflexivity|]. split; [reflexivity | discriminate]. Qed.

Print Assumptions C51_written.
Print Assumptions C51_additional.
Print Assumptions C51_additional_announced.
Print Assumptions C51_announced.
Print Assumptions C51_once.
Print Assumptions C51_nexus.
Print Assumptions C51_units.
Print Assumptions C51_rank_refuted.
Print Assumptions C51_twice_refuted.
Print Assumptions C51_same_name_refuted.
Print Assumptions C52_dimensions.
Print Assumptions C52_refused.
Print Assumptions C52_points.
Print Assumptions C53_panda.
Print Assumptions C53_refused.
Print Assumptions C53_driver.
Print Assumptions C53_once.
Print Assumptions C53_unchecked_refuted.
