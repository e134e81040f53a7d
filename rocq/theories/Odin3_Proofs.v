(** Lemmas for C55: Xspress. *)
From Coq Require Import String Ascii Bool QArith ZArith Lia List.
From Verif Require Import Base Hdf_Model Hdf_Spec Hdf_Proofs Odin_Model Odin_Spec Odin_Proofs Odin2_Proofs.
Import ListNotations.
Local Open Scope nat_scope.
Local Open Scope string_scope.
Local Open Scope list_scope.

Definition mca_node (files : list string) (per c : nat) : string * node :=
  ("/raw/mca" +++ str c, NExt (nth (c / per) files "") ("/mca_" +++ str c)).
Lemma mca_even : forall files per m k j, 0 < per -> j * per <= k <= (j + 1) * per -> k + m <= per * length files ->
  mca_loop files per j (seq k m) = Ok (map (mca_node files per) (seq k m)).
Proof.
  intros files per m; induction m as [|m IH]; intros k j P J L; [reflexivity|]. cbn [seq mca_loop map].
  assert (C : (if Nat.leb (per * (j + 1)) k then j + 1 else j) = k / per).
  { destruct (Nat.leb_spec (per * (j + 1)) k) as [K|K].
    - apply (Nat.div_unique k per (j + 1) 0); nia.
    - apply (Nat.div_unique k per j (k - j * per)); nia. }
  rewrite C. pose proof (Nat.div_mod k per ltac:(lia)) as D. pose proof (Nat.mod_upper_bound k per ltac:(lia)) as U.
  destruct (nth_error files (k / per)) as [f|] eqn:F.
  - rewrite IH; [|exact P| |lia].
    + assert (mca_node files per k = ("/raw/mca" +++ str k, NExt f ("/mca_" +++ str k))) as ->; [|reflexivity].
      unfold mca_node. now rewrite (nth_error_nth files (k / per) "" F).
    + set (q := k / per) in *. clearbody q. nia.
  - exfalso. apply nth_error_None in F. set (q := k / per) in *. clearbody q. nia.
Qed.
Lemma mca_uneven : forall files per m k j, 0 < per -> j * per <= k <= (j + 1) * per -> k <= per * length files -> per * length files < k + m ->
  mca_loop files per j (seq k m) = Err IndexError.
Proof.
  intros files per m; induction m as [|m IH]; intros k j P J K L; [lia|]. cbn [seq mca_loop].
  destruct (Nat.leb_spec (per * (j + 1)) k) as [H|H].
  - destruct (nth_error files (j + 1)) as [f|] eqn:F; [|reflexivity]. assert (nth_error files (j + 1) <> None) as F' by congruence. apply nth_error_Some in F'.
    rewrite IH; [reflexivity | exact P | nia | nia | lia].
  - destruct (nth_error files j) as [f|] eqn:F; [|reflexivity]. assert (nth_error files j <> None) as F' by congruence. apply nth_error_Some in F'.
    rewrite IH; [reflexivity | exact P | nia | nia | lia].
Qed.

Definition xsp_content (g : gen) (files : list string) (meta : string) (shape : list nat) (b per nd : nat) : h5 :=
  one_vds files shape g b "data" "data" ++ map (mca_node files per) (seq 0 nd)
  ++ map (fun cf => ("/raw/uid" +++ str (fst cf), NExt (snd cf) "/uid")) (enum 0 files)
  ++ map (fun s => ("/raw/scalar_" +++ str s, NExt meta ("/scalar_" +++ str s))) (seq 0 9)
  ++ [("/raw/dtc", NExt meta "/dtc")].

Lemma enum_fst : forall A (l : list A) k, map fst (enum k l) = seq k (length l).
Proof. intros A l; induction l as [|x l IH]; intros k; [reflexivity|]. cbn. now rewrite IH. Qed.
Lemma numbered_NoDup : forall p l, NoDup l -> NoDup (map (fun n => p +++ str n) l).
Proof. intros p l N. apply NoDup_map_inj; [exact N|]. intros x y _ _ E. apply append_inj in E. now apply str_inj. Qed.
Lemma xsp_paths : forall g files meta shape b per nd, map fst (xsp_content g files meta shape b per nd) =
  ["/process/data_interleave"; "/data"] ++ map (fun n => "/raw/mca" +++ str n) (seq 0 nd)
  ++ map (fun n => "/raw/uid" +++ str n) (seq 0 (length files)) ++ map (fun n => "/raw/scalar_" +++ str n) (seq 0 9) ++ ["/raw/dtc"].
Proof.
  intros. unfold xsp_content. rewrite !map_app. f_equal. f_equal; [now rewrite map_map|]. f_equal.
  - rewrite map_map. cbn [fst]. rewrite <- (enum_fst _ files 0), map_map. reflexivity.
Qed.
Lemma xsp_content_NoDup : forall g files meta shape b per nd, NoDup (map fst (xsp_content g files meta shape b per nd)).
Proof.
  intros. rewrite xsp_paths.
  apply NoDup_join; [repeat constructor; cbn; intuition discriminate| |].
  - apply NoDup_join; [apply numbered_NoDup, seq_NoDup| |].
    + apply NoDup_join; [apply numbered_NoDup, seq_NoDup| |].
      * apply NoDup_join; [apply numbered_NoDup, seq_NoDup | repeat constructor; intros [] |].
        intros p I [<-|[]]. apply in_map_iff in I. destruct I as (x & E & _). discriminate.
      * intros p I J. apply in_map_iff in I. destruct I as (x & <- & _). rewrite in_app_iff in J. destruct J as [J|[J|[]]]; [|discriminate].
        apply in_map_iff in J. destruct J as (y & E & _). discriminate.
    + intros p I J. apply in_map_iff in I. destruct I as (x & <- & _). rewrite !in_app_iff in J. destruct J as [J|[J|[J|[]]]]; [| |discriminate];
        apply in_map_iff in J; destruct J as (y & E & _); discriminate.
  - intros p I J. rewrite !in_app_iff in J. cbn in I. destruct J as [J|[J|[J|[J|[]]]]]; [| | |intuition (subst; discriminate)];
      apply in_map_iff in J; destruct J as (y & <- & _); intuition discriminate.
Qed.
Lemma xsp_content_starts : forall g files meta shape b per nd p, In p (map fst (xsp_content g files meta shape b per nd)) -> starts "/e" p = false.
Proof.
  intros g files meta shape b per nd p I. rewrite xsp_paths, !in_app_iff in I. destruct I as [I|[I|[I|[I|I]]]].
  - cbn in I. intuition (subst; reflexivity).
  - apply in_map_iff in I. destruct I as (x & <- & _). reflexivity.
  - apply in_map_iff in I. destruct I as (x & <- & _). reflexivity.
  - apply in_map_iff in I. destruct I as (x & <- & _). reflexivity.
  - cbn in I. intuition (subst; reflexivity).
Qed.

Definition xsp_file_list (folder raw : string) (n : nat) : list string :=
  map (fun c => folder +++ "/" +++ raw +++ "_" +++ c +++ "_000000.h5") (firstn n letters).
Lemma xsp_file_count : forall folder raw n, n <= 8 -> length (xsp_file_list folder raw n) = n.
Proof. intros. unfold xsp_file_list. rewrite map_length, firstn_length. cbn [length letters]. lia. Qed.
Lemma xsp_vds_ok : forall g alternate folder raw b n nd, 0 < b -> 0 < n <= 8 -> nd mod n = 0 -> existsb (fun b => b) (tl alternate) = false ->
  xsp_vds g alternate folder raw b n nd =
  Ok (xsp_content g (xsp_file_list folder raw n) (folder +++ "/" +++ raw +++ "_meta.h5")
                  (map (fun i => share (gen_size g) b n i + (gen_size g mod (n * b)) / n) (seq 0 n)) b (nd / n) nd).
Proof.
  intros g alternate folder raw b n nd B N M A. unfold xsp_vds. rewrite shape_closed, A by lia. unfold xsp_files.
  change (length letters) with 8. rewrite (proj2 (Nat.leb_le n 8)) by lia.
  change (map (fun c => folder +++ "/" +++ raw +++ "_" +++ c +++ "_" +++ pad6 0 +++ ".h5") (firstn n letters)) with (xsp_file_list folder raw n).
  assert (E : mca_loop (xsp_file_list folder raw n) (nd / n) 0 (seq 0 nd) = Ok (map (mca_node (xsp_file_list folder raw n) (nd / n)) (seq 0 nd))).
  { pose proof (Nat.div_mod nd n ltac:(lia)) as D. rewrite M in D. set (per := nd / n) in *. clearbody per.
    destruct (Nat.eq_0_gt_0_cases per) as [->|P]; [rewrite Nat.mul_0_r in D; cbn in D; subst nd; reflexivity|].
    apply mca_even; [exact P | lia | rewrite xsp_file_count; lia]. }
  rewrite E. exact (puts_ok _ [] (xsp_content_NoDup _ _ _ _ _ _ _)).
Qed.
Lemma xsp_nexus_ok : forall g files meta shape b per nd, NoDup (flat_map d_axes (g_dims g)) ->
  xsp_nexus g (xsp_content g files meta shape b per nd) =
  Ok (xsp_content g files meta shape b per nd ++ base_nodes g ("data", "/entry/xspress/"), [("/entry/xspress/", node_attrs g "data")]).
Proof.
  intros g files meta shape b per nd N. unfold xsp_nexus. rewrite add_nodes_ok.
  - cbn [flat_map map fst snd]. now rewrite app_nil_r.
  - intros db [<-|[]]. rewrite xsp_paths. cbn. auto.
  - rewrite map_app. apply NoDup_join; [apply xsp_content_NoDup| |].
    + apply bases_NoDup; [exact N| |].
      * intros db I. cbn in I. destruct I as [<-|[]]; discriminate.
      * repeat constructor.
    + intros p I J. apply xsp_content_starts in I. apply bases_entry in J; [congruence|].
      intros db K. cbn in K. destruct K as [<-|[]]; reflexivity.
Qed.
