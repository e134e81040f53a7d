(** Lemmas for C55: what is in the files. *)
From Coq Require Import String Ascii Bool QArith ZArith Lia Decimal DecimalNat DecimalString List.
From Verif Require Import Base Hdf_Model Hdf_Spec Hdf_Proofs Odin_Model Odin_Spec Odin_Proofs.
Import ListNotations.
Local Open Scope nat_scope.
Local Open Scope string_scope.
Local Open Scope list_scope.

(** ** Numbers as text *)

Definition num (s : string) : nat := match NilEmpty.uint_of_string s with Some u => Nat.of_uint u | None => 0 end.
Lemma num_str : forall n, num (str n) = n.
Proof. intros n. unfold num, str. rewrite NilEmpty.usu. apply DecimalNat.Unsigned.of_to. Qed.
Lemma str_inj : forall n m, str n = str m -> n = m.
Proof. intros n m H. rewrite <- (num_str n), <- (num_str m). now rewrite H. Qed.
Lemma zeros_num : forall k u, NilEmpty.uint_of_string (zeros k +++ NilEmpty.string_of_uint u) = Some (Nat.iter k D0 u).
Proof.
  intros k u; induction k as [|k IH]; [apply NilEmpty.usu|].
  change (zeros (S k) +++ NilEmpty.string_of_uint u) with (String "0" (zeros k +++ NilEmpty.string_of_uint u)).
  cbn [NilEmpty.uint_of_string]. rewrite IH. reflexivity.
Qed.
Lemma num_pad6 : forall n, num (pad6 n) = n.
Proof.
  intros n. unfold pad6, num, str. rewrite zeros_num.
  assert (E : forall k u, Nat.of_uint (Nat.iter k D0 u) = Nat.of_uint u).
  { intros k u; induction k as [|k IH]; [reflexivity|]. cbn [Nat.iter nat_rect]. unfold Nat.of_uint in *. exact IH. }
  rewrite E. apply DecimalNat.Unsigned.of_to.
Qed.
Lemma pad6_inj : forall n m, pad6 n = pad6 m -> n = m.
Proof. intros n m H. rewrite <- (num_pad6 n), <- (num_pad6 m). now rewrite H. Qed.
Lemma str_nonempty : forall n, str n <> "".
Proof.
  intros n H. destruct n; [discriminate|]. assert (K : num (str (S n)) = 0) by now rewrite H. rewrite num_str in K. discriminate.
Qed.

(** ** Putting names in a file *)

Lemma dmem_In : forall (f : h5) p, dmem p f = true <-> In p (map fst f).
Proof.
  intros f p. unfold dmem. destruct (dget p f) as [v|] eqn:E.
  - split; [intros _|reflexivity]. apply dget_Some_In in E. apply in_map_iff. now exists (p, v).
  - split; [discriminate|]. intros K. apply dget_None_notin in E. contradiction.
Qed.
Lemma puts_ok : forall l f, NoDup (map fst (f ++ l)) -> puts f l = Ok (f ++ l).
Proof.
  intros l; induction l as [|[p n] l IH]; intros f N; [now rewrite app_nil_r|]. cbn [puts]. unfold put.
  destruct (dmem p f) eqn:D.
  - apply dmem_In in D. exfalso. rewrite map_app in N. cbn [map fst] in N. apply NoDup_remove_2 in N. apply N, in_app_iff. now left.
  - replace (f ++ (p, n) :: l) with ((f ++ [(p, n)]) ++ l) in * by (now rewrite <- app_assoc). now apply IH.
Qed.
Lemma puts_inv : forall l f f', puts f l = Ok f' -> f' = f ++ l.
Proof.
  intros l; induction l as [|[p n] l IH]; intros f f' H; [injection H as <-; now rewrite app_nil_r|]. cbn [puts] in H. unfold put in H.
  destruct (dmem p f); [discriminate|]. apply IH in H. now rewrite <- app_assoc in H.
Qed.
Lemma puts_NoDup : forall l f f', NoDup (map fst f) -> puts f l = Ok f' -> NoDup (map fst f').
Proof.
  intros l; induction l as [|[p n] l IH]; intros f f' N H; [now injection H as <-|]. cbn [puts] in H. unfold put in H.
  destruct (dmem p f) eqn:D; [discriminate|]. apply IH in H; [exact H|]. rewrite map_app. apply NoDup_join; [exact N| |].
  - repeat constructor. intros [].
  - intros q Q [<-|[]]. apply dmem_In in Q. cbn in Q. congruence.
Qed.

Lemma NoDup_parts : forall A (l m : list A), NoDup (l ++ m) -> NoDup l /\ NoDup m /\ forall x, In x l -> ~ In x m.
Proof.
  intros A l m; induction l as [|x l IH]; cbn; intros K; [repeat split; auto; constructor|].
  inversion K as [|? ? K1 K2]; subst. destruct (IH K2) as (I1 & I2 & I3). rewrite in_app_iff in K1. split; [constructor; tauto|].
  split; [exact I2|]. intros y [<-|Y]; [tauto | auto].
Qed.
(** Paths are told apart by what they begin with. *)
Lemma NoDup_two : forall A (l m : list A) (P : A -> Prop), NoDup l -> NoDup m -> (forall x, In x l -> P x) -> (forall x, In x m -> ~ P x) -> NoDup (l ++ m).
Proof. intros A l m P L M H K. apply NoDup_join; auto. intros a I J. exact (K a J (H a I)). Qed.

Lemma axis_paths : forall g b, map fst (axis_nodes g b) = map (fun a => b +++ a +++ "_set") (flat_map d_axes (g_dims g)).
Proof.
  intros g b. unfold axis_nodes. induction (g_dims g) as [|d l IH]; [reflexivity|]. cbn [flat_map]. rewrite !map_app, IH. f_equal.
  rewrite map_map. reflexivity.
Qed.
Lemma axis_paths_NoDup : forall g b, NoDup (flat_map d_axes (g_dims g)) -> NoDup (map fst (axis_nodes g b)).
Proof.
  intros g b N. rewrite axis_paths. apply NoDup_map_inj; [exact N|]. intros x y _ _ E. apply append_inj in E. now apply append_inj_r in E.
Qed.
Lemma axis_nodes_In : forall g b d a, In d (g_dims g) -> In a (d_axes d) -> In (b +++ a +++ "_set", NSet (d_pos d a) (g_units g a)) (axis_nodes g b).
Proof. intros g b d a D A. apply in_flat_map. exists d. split; [exact D|]. apply in_map_iff. now exists a. Qed.

Fixpoint starts (p s : string) : bool :=
  match p, s with
  | EmptyString, _ => true
  | String c p', String d s' => Ascii.eqb c d && starts p' s'
  | _, _ => false
  end.
Lemma starts_app : forall p s, starts p (p +++ s) = true.
Proof. intros p s; induction p as [|c p IH]; [reflexivity|]. cbn. now rewrite Ascii.eqb_refl. Qed.

(** [set] does not end [data], [sum] or [uid]. *)
Fixpoint last_of (s : string) (d : ascii) : ascii := match s with EmptyString => d | String c r => last_of r c end.
Lemma last_of_app : forall a s d, last_of (a +++ String s "") d = s.
Proof. intros a s; induction a as [|c a IH]; intros d; cbn; [reflexivity | apply IH]. Qed.
Lemma set_path_last : forall b a, last_of (b +++ a +++ "_set") "0" = "t"%char.
Proof.
  intros b a. replace (b +++ a +++ "_set") with ((b +++ a +++ "_se") +++ String "t" "") by (now rewrite !append_assoc). apply last_of_app.
Qed.

(** Each base with its data and its axes. *)
Definition base_nodes (g : gen) (db : string * string) : list (string * node) :=
  (snd db +++ fst db, NHard ("/" +++ fst db)) :: axis_nodes g (snd db).
Lemma base_starts : forall g db p, In p (map fst (base_nodes g db)) -> starts (snd db) p = true.
Proof.
  intros g [d b] p I. cbn [base_nodes map fst snd] in *. destruct I as [<-|I]; [apply starts_app|]. rewrite axis_paths in I.
  apply in_map_iff in I. destruct I as (a & <- & _). apply starts_app.
Qed.
Lemma base_NoDup : forall g db, NoDup (flat_map d_axes (g_dims g)) -> last_of (snd db +++ fst db) "0" <> "t"%char -> NoDup (map fst (base_nodes g db)).
Proof.
  intros g [d b] N L. cbn [base_nodes map fst snd] in *. constructor; [|now apply axis_paths_NoDup].
  rewrite axis_paths. intros I. apply in_map_iff in I. destruct I as (a & E & _). apply L. rewrite <- E. apply set_path_last.
Qed.
Lemma add_nodes_ok : forall g l f, (forall db, In db l -> In ("/" +++ fst db) (map fst f)) ->
  NoDup (map fst (f ++ flat_map (base_nodes g) l)) ->
  add_nodes g f l = Ok (f ++ flat_map (base_nodes g) l, map (fun db => (snd db, node_attrs g (fst db))) l).
Proof.
  intros g l; induction l as [|[d b] l IH]; intros f H N; [cbn; now rewrite app_nil_r|]. cbn [add_nodes].
  pose proof (proj2 (dmem_In f _) (H (d, b) (or_introl eq_refl))) as D. cbn [fst] in D. rewrite D.
  change ((b +++ d, NHard ("/" +++ d)) :: axis_nodes g b) with (base_nodes g (d, b)).
  cbn [flat_map] in *. rewrite app_assoc in *.
  rewrite puts_ok by (rewrite map_app in N; apply NoDup_parts in N; apply N).
  rewrite IH; [reflexivity| |exact N]. intros db I. rewrite map_app, in_app_iff. left. apply H. now right.
Qed.

(** ** Odin *)

Definition pair_nodes (cf : nat * string) : list (string * node) :=
  [("/raw" +++ str (fst cf), NExt (snd cf) "/data"); ("/uid" +++ str (fst cf), NExt (snd cf) "/uid")].
Definition odin_content (g : gen) (files : list string) (shape : list nat) (block : nat) (uid_name sum_name : string) : h5 :=
  one_vds files shape g block "data" "data" ++ flat_map pair_nodes (enum 1 files)
  ++ one_vds files shape g block uid_name "uid" ++ one_vds files shape g block sum_name "sum".

Lemma pairs_paths : forall files k p, In p (map fst (flat_map pair_nodes (enum k files))) ->
  exists i, k <= i /\ (p = "/raw" +++ str i \/ p = "/uid" +++ str i).
Proof.
  intros files; induction files as [|f files IH]; intros k p I; [destruct I|]. cbn [enum flat_map] in I. rewrite map_app, in_app_iff in I.
  destruct I as [I|I].
  - exists k. cbn in I. split; [lia|]. intuition.
  - apply IH in I. destruct I as (i & K & I). exists i. split; [lia | exact I].
Qed.
Lemma pairs_NoDup : forall files k, NoDup (map fst (flat_map pair_nodes (enum k files))).
Proof.
  intros files; induction files as [|f files IH]; intros k; [constructor|]. cbn [enum flat_map]. rewrite map_app. apply NoDup_join; [|apply IH|].
  - cbn. repeat constructor; cbn; intuition discriminate.
  - intros p I J. apply pairs_paths in J. destruct J as (i & K & J). cbn in I.
    destruct I as [<-|[<-|[]]], J as [J|J]; try discriminate; apply append_inj in J || (injection J as J); apply str_inj in J; lia.
Qed.
Lemma odin_content_NoDup : forall g files shape block u s, NoDup (map fst (odin_content g files shape block u s)).
Proof.
  intros. unfold odin_content. rewrite !map_app. cbn [map fst one_vds].
  apply NoDup_join; [repeat constructor; cbn; intuition discriminate| |].
  - apply NoDup_join; [apply pairs_NoDup | repeat constructor; cbn; intuition discriminate |].
    intros p I J. apply pairs_paths in I. destruct I as (i & _ & I). pose proof (str_nonempty i) as E.
    destruct I as [-> | ->]; cbn in J; destruct (str i) as [|c t] eqn:S; try contradiction; intuition discriminate.
  - intros p I J. rewrite in_app_iff in J. destruct J as [J|J].
    + apply pairs_paths in J. destruct J as (i & _ & J). cbn in I. destruct I as [<-|[<-|[]]], J as [J|J]; discriminate.
    + cbn in I, J. intuition (subst; discriminate).
Qed.
Lemma odin_content_starts : forall g files shape block u s p, In p (map fst (odin_content g files shape block u s)) -> starts "/e" p = false.
Proof.
  intros g files shape block u s p I. unfold odin_content in I. rewrite !map_app, !in_app_iff in I. cbn [map fst one_vds In] in I.
  destruct I as [I|[I|[I|I]]]; [| |intuition (subst; reflexivity)|intuition (subst; reflexivity)].
  - intuition (subst; reflexivity).
  - apply pairs_paths in I. destruct I as (i & _ & [-> | ->]); reflexivity.
Qed.

Definition odin_bases : list (string * string) := [("data", "/entry/detector/"); ("sum", "/entry/detector_sum/"); ("uid", "/entry/detector_uid/")].
Lemma starts_short : forall p q s, starts (p +++ q) s = true -> starts p s = true.
Proof.
  intros p; induction p as [|c p IH]; intros q s H; [reflexivity|]. cbn in H. destruct s as [|d s]; [discriminate|].
  apply andb_true_iff in H. destruct H as [E H]. cbn. rewrite E. now apply (IH q).
Qed.
Lemma starts_differ : forall p q s, starts p s = true -> starts q s = true -> starts p q = true \/ starts q p = true.
Proof.
  intros p; induction p as [|c p IH]; intros q s P Q; [now left|]. destruct q as [|d q]; [now right|].
  destruct s as [|e s]; [discriminate|]. cbn in P, Q. apply andb_true_iff in P, Q. destruct P as [P1 P2], Q as [Q1 Q2].
  apply Ascii.eqb_eq in P1, Q1. subst. cbn. rewrite Ascii.eqb_refl. cbn. now apply (IH q s).
Qed.
Lemma bases_NoDup : forall g l, NoDup (flat_map d_axes (g_dims g)) ->
  (forall db, In db l -> last_of (snd db +++ fst db) "0" <> "t"%char) ->
  ForallOrdPairs (fun x y => starts (snd x) (snd y) = false /\ starts (snd y) (snd x) = false) l ->
  NoDup (map fst (flat_map (base_nodes g) l)).
Proof.
  intros g l N L F; induction F as [|db l F1 F IH]; [constructor|]. cbn [flat_map]. rewrite map_app. apply NoDup_join.
  - apply base_NoDup; [exact N | apply L; now left].
  - apply IH. intros x X. apply L. now right.
  - intros p I J. apply base_starts in I. rewrite flat_map_concat_map, concat_map, in_concat in J. destruct J as (x & X & J).
    rewrite map_map in X. apply in_map_iff in X. destruct X as (y & <- & Y). apply base_starts in J.
    rewrite Forall_forall in F1. destruct (F1 y Y) as [F2 F3]. destruct (starts_differ _ _ _ I J); congruence.
Qed.
Lemma bases_entry : forall g l p, (forall db, In db l -> starts "/entry/" (snd db) = true) -> In p (map fst (flat_map (base_nodes g) l)) -> starts "/e" p = true.
Proof.
  intros g l p H I. rewrite flat_map_concat_map, concat_map, in_concat in I. destruct I as (x & X & I).
  rewrite map_map in X. apply in_map_iff in X. destruct X as (y & <- & Y). apply base_starts in I. specialize (H y Y).
  assert (T : forall a b c, starts a b = true -> starts b c = true -> starts a c = true).
  { intros a; induction a as [|x0 a IHa]; intros b c A B; [reflexivity|]. destruct b as [|y0 b]; [discriminate|]. destruct c as [|z c]; [discriminate|].
    cbn in A, B |- *. apply andb_true_iff in A, B. destruct A as [A1 A2], B as [B1 B2]. apply Ascii.eqb_eq in A1, B1. subst.
    rewrite Ascii.eqb_refl. cbn. eapply IHa; eauto. }
  exact (T "/e" _ _ (starts_short "/e" "ntry/" _ H) I).
Qed.
Lemma odin_files_ok : forall g alternate folder raw u s b n, 0 < b -> 0 < n -> existsb (fun b => b) (tl alternate) = false ->
  odin_vds g alternate folder raw u s b n = Ok (odin_content g (odin_files folder raw n) (map (fun i => share (gen_size g) b n i + (gen_size g mod (n * b)) / n) (seq 0 n)) b u s).
Proof.
  intros. unfold odin_vds. rewrite shape_closed, H1 by assumption. exact (puts_ok _ [] (odin_content_NoDup _ _ _ _ _ _)).
Qed.
Lemma odin_nexus_ok : forall g files shape b u s, NoDup (flat_map d_axes (g_dims g)) ->
  odin_nexus g (odin_content g files shape b u s) =
  Ok (odin_content g files shape b u s ++ flat_map (base_nodes g) odin_bases, map (fun db => (snd db, node_attrs g (fst db))) odin_bases).
Proof.
  intros g files shape b u s N. unfold odin_nexus. apply add_nodes_ok.
  - intros db I. unfold odin_content. rewrite !map_app, !in_app_iff. cbn [map fst one_vds In]. cbn in I.
    destruct I as [<-|[<-|[<-|[]]]]; cbn; auto 10.
  - rewrite map_app. apply NoDup_join; [apply odin_content_NoDup| |].
    + apply bases_NoDup; [exact N| |].
      * intros db I. cbn in I. destruct I as [<-|[<-|[<-|[]]]]; discriminate.
      * repeat constructor.
    + intros p I J. apply odin_content_starts in I. apply bases_entry in J; [congruence|].
      intros db K. cbn in K. destruct K as [<-|[<-|[<-|[]]]]; reflexivity.
Qed.
