(** C51, C52, proofs. *)
From Coq Require Import String Ascii Bool QArith Decimal DecimalString Lia List.
From Verif Require Import Base Hdf_Model Hdf_Spec.
Import ListNotations.
Local Open Scope nat_scope.
Local Open Scope string_scope.
Local Open Scope list_scope.

Lemma append_assoc : forall a b c : string, (a +++ b) +++ c = a +++ b +++ c.
Proof. intros a b c; induction a as [|x a IH]; [reflexivity|]. cbn. now rewrite IH. Qed.

Lemma filter_values_In : forall A (sel : info -> list A) p x,
  In x (filter_values sel p) <-> exists i, reported p i /\ In x (sel i).
Proof.
  intros A sel p x. unfold filter_values. rewrite in_flat_map. split.
  - intros ([k [l|]] & P & H); [|destruct H]. cbn in H. apply in_flat_map in H. destruct H as (i & I & X).
    exists i. split; [|exact X]. exists k, l. auto.
  - intros (i & (k & l & P & I) & X). exists (k, Some l). split; [exact P|]. cbn. apply in_flat_map. eauto.
Qed.
Lemma in_calc : forall p n a, In (n, a) (filter_values is_calc p) <-> reported p (ICalc n a).
Proof.
  intros p n a. rewrite filter_values_In. split.
  - intros ([r|n' a'|n' t a'|] & R & H); cbn in H; try tauto. destruct H as [H|[]]. injection H as -> ->. exact R.
  - intros R. eexists. split; [exact R|]. now left.
Qed.
Lemma in_attr : forall p n t a, In (n, t, a) (filter_values is_attr p) <-> reported p (IAttr n t a).
Proof.
  intros p n t a. rewrite filter_values_In. split.
  - intros ([r|n' a'|n' t' a'|] & R & H); cbn in H; try tauto. destruct H as [H|[]]. injection H as -> -> ->. exact R.
  - intros R. eexists. split; [exact R|]. now left.
Qed.
Lemma in_ndarray : forall p r, In r (filter_values is_ndarray p) <-> reported p (INDArray r).
Proof.
  intros p r. rewrite filter_values_In. split.
  - intros ([r'|n' a'|n' t' a'|] & R & H); cbn in H; try tauto. destruct H as [H|[]]. subst r'. exact R.
  - intros R. eexists. split; [exact R|]. now left.
Qed.

(** ** The contents of a layout *)

Definition axis_thing (fmt : Q -> string) (link : bool) (here : string) (d : dim) (a : string) : string * thing :=
  (here +++ "/" +++ a +++ "_set",
   if link then TLink ("/entry/detector/" +++ a +++ "_set") else TConst (String.concat "," (map fmt (d_pos d a)))).
Definition axis_things (fmt : Q -> string) (g : gen) (link : bool) (here : string) : list (string * thing) :=
  flat_map (fun d => map (axis_thing fmt link here d) (d_axes d)) (g_dims g).

Lemma enum_flat : forall A B (f : A -> list B) l i, flat_map (fun x => f (snd x)) (enum i l) = flat_map f l.
Proof. intros A B f l; induction l as [|x r IH]; intros i; [reflexivity|]. cbn. now rewrite IH. Qed.

Lemma flat_map_map : forall A B C (f : B -> list C) (h : A -> B) l, flat_map f (map h l) = flat_map (fun x => f (h x)) l.
Proof. intros A B C f h l; induction l as [|x r IH]; [reflexivity|]. cbn. now rewrite IH. Qed.
Lemma flat_map_flat : forall A B C (f : B -> list C) (h : A -> list B) l,
  flat_map f (flat_map h l) = flat_map (fun x => flat_map f (h x)) l.
Proof. intros A B C f h l; induction l as [|x r IH]; [reflexivity|]. cbn. now rewrite flat_map_app, IH. Qed.

Lemma map_single : forall A B (h : A -> B) l, map h l = flat_map (fun x => [h x]) l.
Proof. intros A B h l; induction l as [|x r IH]; [reflexivity|]. cbn. now rewrite IH. Qed.

Lemma kids_contents : forall fmt name rank g link here,
  flat_map (contents here) (nxdata_kids fmt name rank g false link) = axis_things fmt g link here.
Proof.
  intros fmt name rank g link here. unfold nxdata_kids. cbn [flat_map app contents String.eqb Ascii.eqb eqb attribute].
  rewrite flat_map_flat. unfold axis_things.
  rewrite <- (enum_flat _ _ (fun d => map (axis_thing fmt link here d) (d_axes d)) (g_dims g) 0).
  apply flat_map_ext. intros [i d]. cbn [fst snd]. rewrite flat_map_flat.
  rewrite map_single. apply flat_map_ext. intros a. destruct link; reflexivity.
Qed.
Lemma kids_contents_removed : forall fmt name rank g link here,
  flat_map (contents here) (nxdata_kids fmt name rank g true link) = [].
Proof. reflexivity. Qed.

(** One group of the entry. *)
Definition group_things (fmt : Q -> string) (g : gen) (remove link : bool) (name : string) (t : thing) : list (string * thing) :=
  (if remove then [] else axis_things fmt g link ("/entry/" +++ name)) ++ [("/entry/" +++ name +++ "/" +++ name, t)].

Definition layout_things (fmt : Q -> string) (g : gen) (p : part_info) (remove : bool) : list (string * thing) :=
  group_things fmt g remove false "detector" TDet
  ++ flat_map (fun na => group_things fmt g remove true (fst na) (TNd (snd na))) (filter_values is_calc p)
  ++ flat_map (fun nta => group_things fmt g remove true (fst (fst nta)) (TNd (snd nta))) (filter_values is_attr p)
  ++ [("/entry/NDAttributes/NDArrayUniqueId", TNd "NDArrayUniqueId");
      ("/entry/NDAttributes/NDArrayTimeStamp", TNd "NDArrayTimeStamp")].

Lemma nx_contents : forall fmt name rank g remove link e t,
  contents ("/entry/" +++ name) e = [("/entry/" +++ name +++ "/" +++ name, t)] ->
  contents "/entry" (make_nxdata fmt name rank g remove link [e]) = group_things fmt g remove link name t.
Proof.
  intros fmt name rank g remove link e t H. unfold make_nxdata, group_things.
  change (contents "/entry" (El "group" [("name", name)] (nxdata_kids fmt name rank g remove link ++ [e])))
    with (flat_map (contents ("/entry/" +++ name)) (nxdata_kids fmt name rank g remove link ++ [e])).
  rewrite flat_map_app. cbn [flat_map]. rewrite H, app_nil_r. f_equal.
  destruct remove; [reflexivity | apply kids_contents].
Qed.

Lemma layout_contents : forall fmt g p w remove,
  contents "" (make_layout_xml fmt g p w remove) = layout_things fmt g p remove.
Proof.
  intros fmt g p w remove. unfold make_layout_xml. set (rank := match filter_values is_ndarray p with [] => 2 | r :: _ => r end).
  match goal with |- contents "" (El _ _ [El _ _ ?ks]) = _ => change (flat_map (contents "/entry") ks ++ [] = layout_things fmt g p remove) end.
  rewrite app_nil_r. cbn [flat_map]. change (contents "/entry" (attribute "NX_class" "NXentry")) with (@nil (string * thing)).
  cbn [app]. unfold layout_things. f_equal; [now apply nx_contents|]. rewrite !flat_map_app, !flat_map_map. f_equal; [|f_equal].
  - apply flat_map_ext. intros [n a]. now apply nx_contents.
  - apply flat_map_ext. intros [[n t] a]. now apply nx_contents.
Qed.

Lemma axis_things_In : forall fmt g link here q t, In (q, t) (axis_things fmt g link here) <->
  exists d a, In d (g_dims g) /\ In a (d_axes d) /\ (q, t) = axis_thing fmt link here d a.
Proof.
  intros fmt g link here q t. unfold axis_things. rewrite in_flat_map. split.
  - intros (d & D & H). apply in_map_iff in H. destruct H as (a & H & A). exists d, a. auto.
  - intros (d & a & D & A & ->). exists d. split; [exact D|]. now apply in_map.
Qed.

(** ** What is announced is there *)

Inductive announced (name : string) (p : part_info) (g : gen) (filename : string) (remove : bool) : produced -> Prop :=
| an_attr : forall n t a, reported p (IAttr n t a) -> announced name p g filename remove
    (mkP n filename t (length (g_dims g)) ("/entry/" +++ n +++ "/" +++ n) "/entry/NDAttributes/NDArrayUniqueId")
| an_set : forall a, In a (g_axes g) -> announced name p g filename remove
    (if remove then mkP (a +++ ".value_set") (additional filename) POSITION_SET 1 (set_path a) ""
     else mkP (a +++ ".value_set") filename POSITION_SET 1 ("/entry/detector/" +++ a +++ "_set") "")
| an_primary : forall r, filter_values is_ndarray p = [r] -> announced name p g filename remove
    (mkP (name +++ ".data") filename PRIMARY (r + length (g_dims g)) "/entry/detector/detector" "/entry/NDAttributes/NDArrayUniqueId")
| an_calc : forall r n a, filter_values is_ndarray p = [r] -> reported p (ICalc n a) -> announced name p g filename remove
    (mkP (name +++ "." +++ n) filename SECONDARY (length (g_dims g)) ("/entry/" +++ n +++ "/" +++ n) "/entry/NDAttributes/NDArrayUniqueId").

Lemma create_In : forall name p g filename remove ds, create_dataset_infos name p g filename remove = Ok ds ->
  forall d, In d ds <-> announced name p g filename remove d.
Proof.
  intros name p g filename remove ds H d. unfold create_dataset_infos in H.
  set (rest := map _ (filter_values is_attr p) ++ map _ (g_axes g)) in H.
  assert (R : In d rest <-> (exists n t a, reported p (IAttr n t a) /\
     d = mkP n filename t (length (g_dims g)) ("/entry/" +++ n +++ "/" +++ n) "/entry/NDAttributes/NDArrayUniqueId") \/
    (exists a, In a (g_axes g) /\
     d = (if remove then mkP (a +++ ".value_set") (additional filename) POSITION_SET 1 (set_path a) ""
          else mkP (a +++ ".value_set") filename POSITION_SET 1 ("/entry/detector/" +++ a +++ "_set") ""))).
  { unfold rest. rewrite in_app_iff, !in_map_iff. split.
    - intros [([[n t] a] & <- & K)|(a & <- & K)].
      + left. exists n, t, a. split; [now apply in_attr | reflexivity].
      + right. exists a. auto.
    - intros [(n & t & a & K & ->)|(a & K & ->)].
      + left. exists (n, t, a). split; [reflexivity | now apply in_attr].
      + right. exists a. auto. }
  destruct (filter_values is_ndarray p) as [|r [|r2 l]] eqn:E; [| |discriminate].
  - assert (ds = rest) by congruence. subst ds. rewrite R. split.
    + intros [(n & t & a & K & ->)|(a & K & ->)]; [econstructor; eauto | now constructor].
    + intros K. destruct K as [n t a K|a K|r K|r n a K _]; try congruence; [left; eauto | right; eauto].
  - match type of H with Ok ?x = _ => assert (X : ds = x) by congruence end. clear H. subst ds.
    cbn [In]. rewrite in_app_iff, R, in_map_iff. split.
    + intros [<-|[([n a] & <- & K)|[(n & t & a & K & ->)|(a & K & ->)]]].
      * now constructor.
      * apply in_calc in K. exact (an_calc name p g filename remove r n a E K).
      * econstructor; eauto.
      * now constructor.
    + intros K. destruct K as [n t a K|a K|r' K|r' n a K K2].
      * right. right. left. eauto.
      * right. right. right. eauto.
      * left. assert (r' = r) by congruence. now subst.
      * right. left. exists (n, a). split; [reflexivity | now apply in_calc].
Qed.

Lemma group_main : forall fmt g remove link name t, In ("/entry/" +++ name +++ "/" +++ name, t) (group_things fmt g remove link name t).
Proof. intros. unfold group_things. apply in_app_iff. right. now left. Qed.
Lemma calc_there : forall fmt g p remove n a, reported p (ICalc n a) ->
  In ("/entry/" +++ n +++ "/" +++ n, TNd a) (layout_things fmt g p remove).
Proof.
  intros fmt g p remove n a R. unfold layout_things. rewrite !in_app_iff. right. left. apply in_flat_map.
  exists (n, a). split; [now apply in_calc | apply group_main].
Qed.
Lemma attr_there : forall fmt g p remove n t a, reported p (IAttr n t a) ->
  In ("/entry/" +++ n +++ "/" +++ n, TNd a) (layout_things fmt g p remove).
Proof.
  intros fmt g p remove n t a R. unfold layout_things. rewrite !in_app_iff. right. right. left. apply in_flat_map.
  exists (n, t, a). split; [now apply in_attr | exact (group_main fmt g remove true n (TNd a))].
Qed.
Lemma det_there : forall fmt g p remove, In ("/entry/detector/detector", TDet) (layout_things fmt g p remove).
Proof. intros. unfold layout_things. apply in_app_iff. left. exact (group_main fmt g remove false "detector" TDet). Qed.
Lemma set_there : forall fmt g p d a, In d (g_dims g) -> In a (d_axes d) ->
  In ("/entry/detector/" +++ a +++ "_set", TConst (String.concat "," (map fmt (d_pos d a)))) (layout_things fmt g p false).
Proof.
  intros fmt g p d a D A. unfold layout_things. apply in_app_iff. left. unfold group_things. apply in_app_iff. left.
  apply axis_things_In. exists d, a. split; [exact D|]. split; [exact A | reflexivity].
Qed.
Lemma uid_there : forall fmt g p remove,
  In ("/entry/NDAttributes/NDArrayUniqueId", TNd "NDArrayUniqueId") (layout_things fmt g p remove).
Proof. intros. unfold layout_things. rewrite !in_app_iff. right. right. right. now left. Qed.

(** ** Each path once *)

Lemma append_inj : forall a b c : string, a +++ b = a +++ c -> b = c.
Proof. intros a b c; induction a as [|x a IH]; cbn; intros H; [exact H|]. injection H as H. auto. Qed.
Lemma append_inj_r : forall a b c : string, a +++ c = b +++ c -> a = b.
Proof.
  assert (L : forall a b : string, String.length (a +++ b) = String.length a + String.length b).
  { intros a b; induction a as [|x a IH]; [reflexivity|]. cbn. now rewrite IH. }
  intros a; induction a as [|x a IH]; intros b c H.
  - destruct b as [|y b]; [reflexivity|]. exfalso. apply (f_equal String.length) in H. cbn in H. rewrite L in H. lia.
  - destruct b as [|y b].
    + exfalso. apply (f_equal String.length) in H. cbn in H. rewrite L in H. lia.
    + cbn in H. injection H as -> H. f_equal. exact (IH b c H).
Qed.
Lemma slash_split : forall a b r s, no_slash a -> no_slash b -> a +++ "/" +++ r = b +++ "/" +++ s -> a = b.
Proof.
  intros a; induction a as [|x a IH]; intros [|y b] r s A B H; cbn in *; auto.
  - injection H as <- _. destruct B as [B _]. congruence.
  - injection H as -> _. destruct A as [A _]. congruence.
  - injection H as -> H. f_equal. destruct A, B. eapply IH; eauto.
Qed.

Definition pathof (n r : string) : string := "/entry/" +++ n +++ "/" +++ r.
Lemma pathof_inj : forall n m r s, no_slash n -> no_slash m -> pathof n r = pathof m s -> n = m /\ r = s.
Proof.
  intros n m r s N M H. unfold pathof in H. apply (append_inj "/entry/") in H.
  pose proof (slash_split n m r s N M H) as E. subst m. split; [reflexivity|].
  apply append_inj in H. now apply (append_inj "/") in H.
Qed.

Lemma NoDup_join : forall (A : Type) (l m : list A), NoDup l -> NoDup m -> (forall a, In a l -> ~ In a m) -> NoDup (l ++ m).
Proof.
  intros A l m L M D. induction L as [|a l N L IH]; [exact M|]. cbn. constructor.
  - rewrite in_app_iff. intros [K|K]; [auto|]. exact (D a (or_introl eq_refl) K).
  - apply IH. intros b K. apply D. now right.
Qed.
Lemma NoDup_map_inj : forall A B (f : A -> B) l, NoDup l -> (forall x y, In x l -> In y l -> f x = f y -> x = y) -> NoDup (map f l).
Proof.
  intros A B f l N; induction N as [|a l NI N IH]; intros H; [constructor|]. cbn. constructor.
  - intros K. apply in_map_iff in K. destruct K as (b & E & K).
    assert (b = a) by (apply H; auto; [now right | now left]). subst b. contradiction.
  - apply IH. intros x y X Y. apply H; now right.
Qed.

Lemma groups_NoDup : forall L : list (string * list string), NoDup (map fst L) ->
  (forall n rs, In (n, rs) L -> no_slash n /\ NoDup rs) ->
  NoDup (flat_map (fun nr => map (pathof (fst nr)) (snd nr)) L).
Proof.
  intros L; induction L as [|[n rs] L IH]; intros N H; [constructor|]. cbn [map fst] in N. inversion N as [|? ? N1 N2]; subst.
  cbn [flat_map fst snd]. destruct (H n rs (or_introl eq_refl)) as [Ns Nr]. apply NoDup_join.
  - apply NoDup_map_inj; [exact Nr|]. intros x y _ _ E. now apply (pathof_inj n n x y Ns Ns) in E.
  - apply IH; [exact N2|]. intros m ss K. apply H. now right.
  - intros q K1 K2. apply in_map_iff in K1. destruct K1 as (r & <- & _).
    apply in_flat_map in K2. destruct K2 as ([m ss] & K2 & K3). apply in_map_iff in K3. destruct K3 as (r' & E & _).
    cbn [fst] in E. destruct (H m ss (or_intror K2)) as [Ms _].
    destruct (pathof_inj m n r' r Ms Ns E) as [-> _]. apply N1. apply in_map_iff. now exists (n, ss).
Qed.

Definition axis_sets (g : gen) : list string := map (fun a => a +++ "_set") (flat_map d_axes (g_dims g)).
Definition inside (g : gen) (remove : bool) (n : string) : string * list string :=
  (n, (if remove then [] else axis_sets g) ++ [n]).
Definition shapes (g : gen) (p : part_info) (remove : bool) : list (string * list string) :=
  inside g remove "detector" :: map (fun na => inside g remove (fst na)) (filter_values is_calc p)
  ++ map (fun nta => inside g remove (fst (fst nta))) (filter_values is_attr p)
  ++ [("NDAttributes", ["NDArrayUniqueId"; "NDArrayTimeStamp"])].

Lemma map_flat : forall A B C (f : B -> C) (h : A -> list B) l, map f (flat_map h l) = flat_map (fun x => map f (h x)) l.
Proof. intros A B C f h l; induction l as [|x r IH]; [reflexivity|]. cbn. now rewrite map_app, IH. Qed.
Lemma group_paths : forall fmt g remove link n t,
  map fst (group_things fmt g remove link n t) = map (pathof (fst (inside g remove n))) (snd (inside g remove n)).
Proof.
  intros fmt g remove link n t. unfold group_things, inside. cbn [fst snd]. rewrite !map_app. f_equal.
  destruct remove; [reflexivity|]. unfold axis_things, axis_sets. rewrite map_map, map_flat.
  transitivity (flat_map (fun d => map (fun a => pathof n (a +++ "_set")) (d_axes d)) (g_dims g)).
  - apply flat_map_ext. intros d. rewrite map_map. apply map_ext. intros a. unfold axis_thing, pathof. cbn [fst].
    cbn [String.append]. do 7 f_equal.
  - induction (g_dims g) as [|d r IH]; [reflexivity|]. cbn [flat_map]. rewrite map_app. now rewrite IH.
Qed.
Lemma layout_paths : forall fmt g p remove, map fst (layout_things fmt g p remove) =
  flat_map (fun nr => map (pathof (fst nr)) (snd nr)) (shapes g p remove).
Proof.
  intros fmt g p remove. unfold layout_things, shapes. cbn [flat_map]. rewrite !map_app, !flat_map_app, !map_flat, !flat_map_map.
  rewrite group_paths. f_equal. f_equal; [|f_equal].
  - apply flat_map_ext. intros [n a]. apply group_paths.
  - apply flat_map_ext. intros [[n t] a]. apply group_paths.
Qed.

Lemma set_not_detector : forall a, a +++ "_set" <> "detector".
Proof.
  intros a H. assert (E : a +++ "_set" = "dete" +++ "ctor") by exact H. clear H.
  do 9 (destruct a as [|? a]; [discriminate|]; cbn in E; try discriminate; injection E as ? E).
Qed.

Lemma axis_sets_NoDup : forall g, NoDup (flat_map d_axes (g_dims g)) -> NoDup (axis_sets g).
Proof. intros g N. unfold axis_sets. apply NoDup_map_inj; [exact N|]. intros x y _ _ E. eapply append_inj_r; exact E. Qed.

Lemma once : forall fmt g p remove, NoDup (flat_map d_axes (g_dims g)) ->
  NoDup ("detector" :: map fst (filter_values is_calc p) ++ map (fun nta => fst (fst nta)) (filter_values is_attr p) ++ ["NDAttributes"]) ->
  (forall n, In n (map fst (filter_values is_calc p) ++ map (fun nta => fst (fst nta)) (filter_values is_attr p)) ->
     no_slash n /\ forall a, In a (flat_map d_axes (g_dims g)) -> n <> a +++ "_set") ->
  NoDup (map fst (layout_things fmt g p remove)).
Proof.
  intros fmt g p remove Na N H. rewrite layout_paths. apply groups_NoDup.
  - unfold shapes. cbn [map fst inside]. rewrite !map_app, !map_map. cbn [inside fst map].
    erewrite (map_ext _ fst); [exact N|]. reflexivity.
  - assert (Z : forall n, no_slash n -> (forall a, In a (flat_map d_axes (g_dims g)) -> n <> a +++ "_set") ->
      no_slash n /\ NoDup (snd (inside g remove n))).
    { intros n Ns Ha. split; [exact Ns|]. unfold inside. cbn [snd]. apply NoDup_join.
      - destruct remove; [constructor | now apply axis_sets_NoDup].
      - repeat constructor. intros [].
      - intros s K [<-|[]]. destruct remove; [destruct K|]. unfold axis_sets in K. apply in_map_iff in K.
        destruct K as (a & E & K). exact (Ha a K (eq_sym E)). }
    intros n rs K. unfold shapes in K. cbn [In] in K. rewrite !in_app_iff, !in_map_iff in K.
    destruct K as [K|[([m a] & K & I)|[([[m t] a] & K & I)|[K|[]]]]].
    + injection K as <- <-. apply (Z "detector").
      * cbn. repeat (split; [discriminate|]). exact Logic.I.
      * intros a _ E. exact (set_not_detector a (eq_sym E)).
    + injection K as <- <-. destruct (H m) as [H1 H2].
      { apply in_app_iff. left. apply in_map_iff. now exists (m, a). } exact (Z m H1 H2).
    + injection K as <- <-. destruct (H m) as [H1 H2].
      { apply in_app_iff. right. apply in_map_iff. now exists (m, t, a). } exact (Z m H1 H2).
    + injection K as <- <-. split.
      * cbn. repeat (split; [discriminate|]). exact Logic.I.
      * repeat constructor; cbn; intuition discriminate.
Qed.

(** ** Attributes of the groups *)

Lemma entry_attrs : forall fmt g p w remove link n rank more,
  In (make_nxdata fmt n rank g remove link more)
     (match make_layout_xml fmt g p w remove with El _ _ [El _ _ ks] => ks | _ => [] end) ->
  forall k v, In (attribute k v) (nxdata_kids fmt n rank g remove link) ->
  In ("/entry/" +++ n, k, v) (group_attrs "" (make_layout_xml fmt g p w remove)).
Proof.
  intros fmt g p w remove link n rank more H k v K.
  unfold make_layout_xml in *.
  match goal with |- In _ (group_attrs "" (El _ _ [El _ _ ?ks])) => change (In ("/entry/" +++ n, k, v) (flat_map (group_attrs "/entry") ks ++ [])); change (In (make_nxdata fmt n rank g remove link more) ks) in H end.
  rewrite app_nil_r. apply in_flat_map. exists (make_nxdata fmt n rank g remove link more). split; [exact H|].
  unfold make_nxdata.
  match goal with |- In _ (group_attrs "/entry" (El _ _ ?ks)) => change (In ("/entry/" +++ n, k, v) (flat_map (group_attrs ("/entry/" +++ n)) ks)) end.
  rewrite flat_map_app. apply in_app_iff. left. apply in_flat_map. exists (attribute k v). split; [exact K|]. now left.
Qed.

Lemma enum_In : forall A (l : list A) k i x, nth_error l i = Some x -> In (k + i, x) (enum k l).
Proof.
  intros A l; induction l as [|y r IH]; intros k i x H; [destruct i; discriminate|]. destruct i as [|i]; cbn in *.
  - injection H as ->. left. f_equal. lia.
  - right. replace (k + S i) with (S k + i) by lia. auto.
Qed.
Lemma kids_index : forall fmt n rank g link i d a, nth_error (g_dims g) i = Some d -> In a (d_axes d) ->
  In (attribute (a +++ "_set_indices") (str i)) (nxdata_kids fmt n rank g false link).
Proof.
  intros fmt n rank g link i d a D A. unfold nxdata_kids. right. right. right. apply in_flat_map.
  exists (i, d). split; [exact (enum_In _ _ 0 i d D)|]. cbn [fst snd]. apply in_flat_map. exists a. split; [exact A|]. now left.
Qed.

Lemma holds_det : forall fmt g p d a, In d (g_dims g) -> In a (d_axes d) ->
  holds (layout_things fmt g p false) ("/entry/detector/" +++ a +++ "_set") (String.concat "," (map fmt (d_pos d a))).
Proof. intros. left. now apply set_there. Qed.
Lemma holds_link : forall fmt g p n d a t, (exists x, In (n, x) (filter_values is_calc p)) \/ (exists y x, In (n, y, x) (filter_values is_attr p)) ->
  In d (g_dims g) -> In a (d_axes d) -> t = String.concat "," (map fmt (d_pos d a)) ->
  holds (layout_things fmt g p false) ("/entry/" +++ n +++ "/" +++ a +++ "_set") t.
Proof.
  intros fmt g p n d a t H D A ->. right. exists ("/entry/detector/" +++ a +++ "_set"). split; [|now apply set_there].
  assert (G : forall x, In ("/entry/" +++ n +++ "/" +++ a +++ "_set", TLink ("/entry/detector/" +++ a +++ "_set")) (group_things fmt g false true n x)).
  { intros x. unfold group_things. apply in_app_iff. left. apply axis_things_In. exists d, a. repeat split; auto. }
  unfold layout_things. rewrite !in_app_iff. right. destruct H as [(x & H)|(y & x & H)].
  - left. apply in_flat_map. exists (n, x). split; [exact H | apply G].
  - right. left. apply in_flat_map. exists (n, y, x). split; [exact H|]. cbn [fst snd]. apply G.
Qed.
