(* C79: file names for detectors that run on Windows. *)
From Coq Require Import String Ascii Bool Lia List.
From Verif Require Import Base Yaml_Model Yaml_Spec Yaml_Proofs Trans_Model.
Import ListNotations.
Local Open Scope string_scope.
Local Open Scope list_scope.

(* ---- what C79 says ---- *)
(* one character for another *)
Fixpoint swap (c d : ascii) (s : string) : string :=
  match s with EmptyString => EmptyString | String x r => String (if Ascii.eqb x c then d else x) (swap c d r) end.
Definition occurs (p s : string) : Prop := exists a b, s = a +++ p +++ b.
(* t is the only translator among the infos *)
Definition no_tr (l : list (option translator)) : Prop := forall i, In i l -> i = None.
Definition none_in (pi : dict pinfo) : Prop := forall k l, In (k, PInfos l) pi -> no_tr l.
Definition only (pi : dict pinfo) (t : translator) : Prop :=
  exists pre k a b post, pi = pre ++ (k, PInfos (a ++ Some t :: b)) :: post /\ none_in pre /\ none_in post /\ no_tr a /\ no_tr b.
(* what the prefix stands for on Windows *)
Definition root (t : translator) : string :=
  if String.eqb (network_prefix t) "" then windows_drive_letter t +++ ":" else network_prefix t +++ path_prefix t.

(* ---- proofs ---- *)
Lemma prefix_spec p s : String.prefix p s = true <-> exists r, s = p +++ r.
Proof.
  revert s. induction p as [|c p IH]; intros s.
  - split; [intros _; exists s; reflexivity|]. destruct s; reflexivity.
  - destruct s as [|d s]; cbn [String.prefix].
    + split; [discriminate|]. intros (r & E). discriminate.
    + destruct (ascii_dec c d) as [->|N].
      * rewrite IH. split; intros (r & E); exists r; [cbn; congruence|cbn in E; congruence].
      * split; [discriminate|]. intros (r & E). cbn in E. congruence.
Qed.
Lemma occurs_cons p c s : occurs p s -> occurs p (String c s).
Proof. intros (a & b & ->). exists (String c a), b. reflexivity. Qed.

Lemma replace_free p new s : p <> "" -> ~ occurs p s -> replace p new s = s.
Proof.
  intros P. unfold replace. induction s as [|c s IH]; intros H; [reflexivity|]. cbn [replace_from].
  destruct (String.prefix p (String c s)) eqn:E.
  - apply prefix_spec in E as (r & E). destruct H. exists "", r. exact E.
  - f_equal. apply IH. intros X. apply H, occurs_cons, X.
Qed.
Lemma replace_head p new s : p <> "" -> replace p new (p +++ s) = new +++ replace p new s.
Proof.
  intros P. destruct p as [|c p]; [congruence|]. unfold replace. cbn [String.append replace_from].
  assert (String.prefix (String c p) (String c (p +++ s)) = true) as ->
    by (apply prefix_spec; exists s; reflexivity).
  cbn [String.length Nat.pred]. rewrite skip_all. reflexivity.
Qed.
Lemma replace_char c d s : replace (String c "") (String d "") s = swap c d s.
Proof.
  unfold replace. induction s as [|x s IH]; [reflexivity|]. cbn [replace_from String.prefix swap String.length Nat.pred].
  destruct (ascii_dec c x) as [->|N].
  - rewrite Ascii.eqb_refl. assert (String.prefix "" s = true) as -> by (destruct s; reflexivity). cbn [String.append]. rewrite IH. reflexivity.
  - destruct (Ascii.eqb_spec x c); [congruence|]. rewrite IH. reflexivity.
Qed.
Lemma swap_app c d a b : swap c d (a +++ b) = swap c d a +++ swap c d b.
Proof. induction a as [|x a IH]; cbn; [reflexivity|rewrite IH; reflexivity]. Qed.
Lemma swap_has c d s : c <> d -> ~ has c (swap c d s).
Proof.
  intros N. induction s as [|x s IH]; cbn; [tauto|]. intros [E|E]; [|exact (IH E)].
  destruct (Ascii.eqb_spec x c); congruence.
Qed.
Lemma swap_inj c d a b : ~ has d a -> ~ has d b -> swap c d a = swap c d b -> a = b.
Proof.
  revert b. induction a as [|x a IH]; intros [|y b] A B E; cbn in *; [reflexivity|discriminate|discriminate|].
  injection E as E1 E2. f_equal; [|apply IH; tauto].
  destruct (Ascii.eqb_spec x c), (Ascii.eqb_spec y c); subst; tauto || congruence.
Qed.
Lemma has_colon_spec s : has_colon s = true <-> has ":" s.
Proof.
  induction s as [|c s IH]; cbn; [split; [discriminate|tauto]|]. rewrite orb_true_iff, IH, Ascii.eqb_eq. tauto.
Qed.
Lemma app_cancel a b c : a +++ b = a +++ c -> b = c.
Proof. induction a as [|x a IH]; cbn; [auto|]. intros E. injection E as E. auto. Qed.

Lemma values_nil l : flat_map (fun i => match i with Some t => [t] | None => @nil translator end) l = [] <-> no_tr l.
Proof.
  split.
  - induction l as [|[t|] l IH]; intros E i I; [destruct I|discriminate E|]. destruct I as [<-|I]; [reflexivity|]. exact (IH E i I).
  - induction l as [|i l IH]; intros H; [reflexivity|]. cbn. rewrite (H i (or_introl eq_refl)). apply IH. intros j J. apply H. right. exact J.
Qed.
Lemma filter_nil pi : filter_values pi = [] <-> none_in pi.
Proof.
  unfold filter_values. split.
  - induction pi as [|[k [l| |]] pi IH]; intros E k0 l0 I; [destruct I| | |]; cbn in E.
    + apply app_eq_nil in E as [E1 E2]. destruct I as [I|I]; [|exact (IH E2 k0 l0 I)]. injection I as <- <-. apply values_nil, E1.
    + destruct I as [I|I]; [discriminate I|exact (IH E k0 l0 I)].
    + destruct I as [I|I]; [discriminate I|exact (IH E k0 l0 I)].
  - induction pi as [|[k i] pi IH]; intros H; [reflexivity|]. cbn [flat_map snd].
    rewrite (IH (fun k0 l0 I => H k0 l0 (or_intror I))), app_nil_r. destruct i as [l| |]; [|reflexivity|reflexivity].
    apply values_nil. exact (H k l (or_introl eq_refl)).
Qed.
Lemma filter_app a b : filter_values (a ++ b) = filter_values a ++ filter_values b.
Proof. apply flat_map_app. Qed.
Lemma values_app a b : flat_map (fun i => match i with Some t => [t] | None => @nil translator end) (a ++ b)
  = flat_map (fun i => match i with Some t => [t] | None => [] end) a ++ flat_map (fun i => match i with Some t => [t] | None => [] end) b.
Proof. apply flat_map_app. Qed.
Lemma values_one l t : flat_map (fun i => match i with Some t => [t] | None => @nil translator end) l = [t] ->
  exists a b, l = a ++ Some t :: b /\ no_tr a /\ no_tr b.
Proof.
  induction l as [|[u|] l IH]; intros E; [discriminate| |].
  - injection E as -> E. exists [], l. split; [reflexivity|]. split; [intros i []|apply values_nil, E].
  - destruct (IH E) as (a & b & -> & A & B). exists (None :: a), b. split; [reflexivity|]. split; [|exact B].
    intros i [<-|I]; [reflexivity|exact (A i I)].
Qed.
Lemma single_spec pi t : filter_single_value pi = Ok t <-> only pi t.
Proof.
  unfold filter_single_value. assert (H : filter_values pi = [t] <-> only pi t).
  2:{ rewrite <- H. destruct (filter_values pi) as [|u [|v l]]; split; intros E; try discriminate; congruence. }
  split.
  - induction pi as [|[k i] pi IH]; intros E; [discriminate|].
    assert (R : filter_values pi = [t] -> filter_values [(k, i)] = [] -> only ((k, i) :: pi) t).
    { intros E1 E2. destruct (IH E1) as (pre & k0 & a & b & post & -> & N1 & N2 & A & B).
      exists ((k, i) :: pre), k0, a, b, post. split; [reflexivity|]. split; [|auto].
      intros k1 l1 [I|I]; [|exact (N1 k1 l1 I)]. apply filter_nil in E2. apply (E2 k1 l1). left. exact I. }
    change ((k, i) :: pi) with ([(k, i)] ++ pi) in E. rewrite filter_app in E.
    destruct (filter_values [(k, i)]) as [|u l] eqn:F; [exact (R E eq_refl)|].
    injection E as -> E. apply app_eq_nil in E as [-> E]. destruct i as [l| |]; [|discriminate F|discriminate F].
    unfold filter_values in F. cbn [flat_map snd] in F. rewrite app_nil_r in F. apply values_one in F as (a & b & -> & A & B).
    exists [], k, a, b, pi. split; [reflexivity|]. split; [intros ? ? []|]. split; [apply filter_nil, E|auto].
  - intros (pre & k & a & b & post & -> & N1 & N2 & A & B). rewrite filter_app.
    rewrite (proj2 (filter_nil pre) N1). unfold filter_values at 1. cbn [flat_map snd app]. fold (filter_values post).
    rewrite (proj2 (filter_nil post) N2), app_nil_r, values_app. cbn [flat_map].
    rewrite (proj2 (values_nil a) A), (proj2 (values_nil b) B). reflexivity.
Qed.

(* A path is translated exactly if there is one translator, it starts with the prefix and has no
   colon; and there is no slash in what comes out. *)
Theorem C79_accepted pi f :
  (exists w, translate_filepath pi f = Ok w) <-> exists t r, only pi t /\ f = path_prefix t +++ r /\ ~ has ":" f.
Proof.
  unfold translate_filepath. split.
  - intros (w & E). destruct (filter_single_value pi) as [t|] eqn:S; [|discriminate].
    apply single_spec in S. destruct (String.prefix (path_prefix t) f) eqn:P; [|discriminate]. cbn [negb] in E.
    destruct (has_colon f) eqn:C; [discriminate|]. apply prefix_spec in P as (r & ->). exists t, r.
    split; [exact S|]. split; [reflexivity|]. intros X. apply has_colon_spec in X. congruence.
  - intros (t & r & S & -> & C). apply single_spec in S. rewrite S, prefix_app. cbn [negb].
    destruct (has_colon _) eqn:H; [apply has_colon_spec in H; contradiction|]. eexists. reflexivity.
Qed.
Print Assumptions C79_accepted.

Theorem C79_no_slash pi f w : translate_filepath pi f = Ok w -> ~ has "/" w.
Proof.
  unfold translate_filepath. destruct (filter_single_value pi) as [t|]; [|discriminate].
  destruct (negb _); [discriminate|]. destruct (has_colon f); [discriminate|]. intros E. injection E as <-.
  unfold py_replace at 1. rewrite replace_char. apply swap_has. discriminate.
Qed.
Print Assumptions C79_no_slash.

(* If the prefix is only at the start, the prefix becomes the drive or the network path, and the
   rest is kept, with the slashes turned round. *)
Theorem C79_path pi t r : only pi t -> path_prefix t <> "" -> ~ occurs (path_prefix t) r -> ~ has ":" (path_prefix t +++ r) ->
  translate_filepath pi (path_prefix t +++ r) = Ok (swap "/" "\" (root t) +++ swap "/" "\" r).
Proof.
  intros S P O C. unfold translate_filepath. apply single_spec in S. rewrite S, prefix_app. cbn [negb].
  destruct (has_colon _) eqn:H; [apply has_colon_spec in H; contradiction|]. f_equal. fold (root t).
  unfold py_replace at 1. rewrite replace_char, <- swap_app. f_equal.
  unfold py_replace. destruct (path_prefix t) as [|c p] eqn:E; [congruence|].
  rewrite (replace_head (String c p)) by discriminate. rewrite replace_free; [reflexivity|discriminate|exact O].
Qed.
Print Assumptions C79_path.

(* So different files have different names. *)
Theorem C79_injective pi t r1 r2 w : only pi t -> path_prefix t <> "" ->
  ~ occurs (path_prefix t) r1 -> ~ occurs (path_prefix t) r2 -> ~ has "\" r1 -> ~ has "\" r2 ->
  translate_filepath pi (path_prefix t +++ r1) = Ok w -> translate_filepath pi (path_prefix t +++ r2) = Ok w -> r1 = r2.
Proof.
  intros S P O1 O2 B1 B2 E1 E2.
  assert (C : forall r v, translate_filepath pi (path_prefix t +++ r) = Ok v -> ~ has ":" (path_prefix t +++ r)).
  { intros r v E. assert (X : exists w, translate_filepath pi (path_prefix t +++ r) = Ok w) by (exists v; exact E).
    apply C79_accepted in X as (? & ? & _ & _ & X). exact X. }
  rewrite (C79_path pi t r1 S P O1 (C _ _ E1)) in E1. rewrite (C79_path pi t r2 S P O2 (C _ _ E2)) in E2.
  rewrite <- E2 in E1. injection E1 as E1. apply app_cancel in E1. exact (swap_inj _ _ _ _ B1 B2 E1).
Qed.
Print Assumptions C79_injective.

Definition ex_pi : dict pinfo :=
  [("det", PNone); ("win", PInfos [None; Some (mkTr "X" "/dls" "")]); ("bad", PExc)].
Definition ex_net : dict pinfo := [("win", PInfos [Some (mkTr "X" "/dls" "//dc")])].
Lemma only_pi : only ex_pi (mkTr "X" "/dls" "").
Proof. apply single_spec. reflexivity. Qed.
Example C79_ex : only ex_pi (mkTr "X" "/dls" "") /\ ~ occurs "/dls" "/i18/data/a.h5"
  /\ translate_filepath ex_pi "/dls/i18/data/a.h5" = Ok "X:\i18\data\a.h5"
  /\ translate_filepath ex_net "/dls/i18/data/a.h5" = Ok "\\dc\dls\i18\data\a.h5"
  /\ translate_filepath ex_pi "/scratch/a.h5" = Err NoPrefix
  /\ translate_filepath ex_pi "/dls/i18/a:b.h5" = Err Colon
  /\ translate_filepath (ex_pi ++ ex_net) "/dls/i18" = Err NotOne.
Proof.
  split; [exact only_pi|]. split; [|repeat split].
  intros (a & b & E). repeat (destruct a as [|? a]; [discriminate E|]; cbn in E; injection E as _ E). destruct a; discriminate E.
Qed.

(* ---- the XML files ---- *)
(* The file in a directory that can be translated can be translated. *)
Lemma swap_colon s : ~ has ":" (swap ":" "_" s).
Proof. apply swap_has. discriminate. Qed.
Lemma join_shape d b : exists m, path_join d b = d +++ m +++ b /\ (m = "" \/ m = "/").
Proof.
  unfold path_join. destruct d as [|c d].
  - exists "". split; [reflexivity|left; reflexivity].
  - destruct (Ascii.eqb _ "/"); [exists ""|exists "/"]; (split; [reflexivity|auto]).
Qed.
Theorem C79_xml pi d mri suffix w : ~ has ":" suffix -> translate_filepath pi d = Ok w ->
  exists v, translate_filepath pi (make_xml_filename d mri suffix) = Ok v.
Proof.
  intros N E. apply C79_accepted. assert (X : exists w, translate_filepath pi d = Ok w) by (exists w; exact E).
  apply C79_accepted in X as (t & r & S & -> & C). exists t.
  unfold make_xml_filename. destruct (join_shape (path_prefix t +++ r) (py_replace ":" "_" mri +++ "-" +++ suffix +++ ".xml")) as (m & -> & Hm).
  eexists. split; [exact S|]. split; [rewrite !app_assoc_s; reflexivity|].
  unfold py_replace. rewrite replace_char. rewrite !has_app. intros [H|[H|[H|[H|[H|H]]]]].
  - apply C, has_app, H.
  - destruct Hm as [-> | ->]; cbn in H; [tauto|]. destruct H as [H|H]; [discriminate H|tauto].
  - exact (swap_colon mri H).
  - cbn in H. destruct H as [H|H]; [discriminate H|tauto].
  - exact (N H).
  - cbn in H. repeat (destruct H as [H|H]; [discriminate H|]). tauto.
Qed.
Print Assumptions C79_xml.

Lemma app_cancel_r a b c : a +++ c = b +++ c -> a = b.
Proof.
  intros E. assert (L : String.length a = String.length b).
  { assert (X : String.length (a +++ c) = String.length (b +++ c)) by (rewrite E; reflexivity). rewrite !len_app in X. lia. }
  revert b E L. induction a as [|x a IH]; intros [|y b] E L; cbn in *; [reflexivity|discriminate|discriminate|].
  injection E as -> E. f_equal. apply IH; [exact E|lia].
Qed.
(* Blocks without underscores in their mris do not share a file. *)
Theorem C79_xml_apart d m1 m2 suffix : ~ has "_" m1 -> ~ has "_" m2 ->
  make_xml_filename d m1 suffix = make_xml_filename d m2 suffix -> m1 = m2.
Proof.
  intros N1 N2 E. unfold make_xml_filename, py_replace in E. rewrite !replace_char in E.
  assert (E1 : swap ":" "_" m1 +++ "-" +++ suffix +++ ".xml" = swap ":" "_" m2 +++ "-" +++ suffix +++ ".xml").
  { unfold path_join in E. destruct d as [|c d]; [exact E|]. destruct (Ascii.eqb _ "/").
    - exact (app_cancel _ _ _ E).
    - apply app_cancel in E. apply (app_cancel "/"). exact E. }
  apply app_cancel_r in E1. exact (swap_inj _ _ _ _ N1 N2 E1).
Qed.
Print Assumptions C79_xml_apart.
Example C79_xml_ex : make_xml_filename "/dls/i18" "BL18I:DET:STAT" "attributes" = "/dls/i18/BL18I_DET_STAT-attributes.xml"
  /\ translate_filepath ex_pi (make_xml_filename "/dls/i18" "BL18I:DET:STAT" "attributes") = Ok "X:\i18\BL18I_DET_STAT-attributes.xml".
Proof. split; vm_compute; reflexivity. Qed.

(* ---- where it is false ---- *)
(* The prefix is replaced wherever it is in the path. *)
Theorem C79_again_refuted : exists pi t r w, only pi t /\ translate_filepath pi (path_prefix t +++ r) = Ok w
  /\ w <> swap "/" "\" (root t) +++ swap "/" "\" r /\ w = "X:\i18X:\2021\a.h5".
Proof.
  exists ex_pi, (mkTr "X" "/dls" ""), "/i18/dls/2021/a.h5". eexists. split; [exact only_pi|].
  split; [vm_compute; reflexivity|]. split; [vm_compute; discriminate|reflexivity].
Qed.
Print Assumptions C79_again_refuted.
(* A directory whose name only starts like the prefix is accepted. *)
Theorem C79_sibling_refuted : exists pi t w, only pi t /\ path_prefix t = "/dls"
  /\ translate_filepath pi "/dls_sw/prod/a.h5" = Ok w /\ w = "X:_sw\prod\a.h5".
Proof.
  exists ex_pi, (mkTr "X" "/dls" ""). eexists. split; [exact only_pi|]. split; [reflexivity|]. split; vm_compute; reflexivity.
Qed.
Print Assumptions C79_sibling_refuted.
(* Two blocks may share a file. *)
Theorem C79_xml_shared_refuted : exists d m1 m2 suffix, m1 <> m2 /\ make_xml_filename d m1 suffix = make_xml_filename d m2 suffix.
Proof. exists "/dls", "DET:STAT", "DET_STAT", "attributes". split; [discriminate|reflexivity]. Qed.
Print Assumptions C79_xml_shared_refuted.
