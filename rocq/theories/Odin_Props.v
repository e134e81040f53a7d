(** C54: the frames of each file; C55: the virtual dataset file has what is announced. *)
From Coq Require Import String Ascii Bool QArith ZArith Lia List.
From Verif Require Import Base Hdf_Model Hdf_Spec Hdf_Proofs Odin_Model Odin_Spec Odin_Proofs Odin2_Proofs Odin3_Proofs.
Import ListNotations.
Local Open Scope nat_scope.
Local Open Scope string_scope.
Local Open Scope list_scope.

(** ** C54 *)

(** If the last round has fewer frames than there are files (always so for blocks of
    one frame), each file has as many frames as it is dealt. *)
Theorem C54_dealt : forall frames block files, 0 < block -> 0 < files -> frames mod (files * block) < files ->
  files_shape frames block files = Ok (map (fun i => length (dealt frames block files i)) (seq 0 files)).
Proof.
  intros n b c B C R. rewrite shape_closed by assumption. f_equal. apply map_ext_in. intros i I. apply in_seq in I.
  rewrite dealt_share, (Nat.div_small _ _ R) by lia. lia.
Qed.
Corollary C54_blocks_of_one : forall frames files, 0 < files ->
  files_shape frames 1 files = Ok (map (fun i => length (dealt frames 1 files i)) (seq 0 files)).
Proof. intros n c C. apply C54_dealt; [lia | exact C |]. rewrite Nat.mul_1_r. apply Nat.mod_upper_bound. lia. Qed.
(** In general there are too many, and how many is known. *)
Theorem C54_total : forall frames block files, 0 < block -> 0 < files ->
  exists l, files_shape frames block files = Ok l /\ length l = files /\
  total l = frames + files * (frames mod (files * block) / files) /\
  forall i k, nth_error l i = Some k -> k = length (dealt frames block files i) + frames mod (files * block) / files.
Proof.
  intros n b c B C. eexists. split; [apply shape_closed; assumption|]. split; [now rewrite map_length, seq_length|]. split.
  - rewrite total_plus, total_shares, seq_length by assumption. reflexivity.
  - intros i k H. rewrite nth_error_map in H. destruct (nth_error (seq 0 c) i) as [j|] eqn:E; [|discriminate].
    assert (L : i < c). { assert (K : nth_error (seq 0 c) i <> None) by congruence. apply nth_error_Some in K. now rewrite seq_length in K. }
    rewrite (nth_error_nth' (seq 0 c) 0) in E by (now rewrite seq_length). rewrite seq_nth in E by exact L.
    injection E as <-. injection H as <-. rewrite dealt_share by assumption. reflexivity.
Qed.
Theorem C54_right_iff : forall frames block files l, 0 < block -> 0 < files -> files_shape frames block files = Ok l ->
  (total l = frames <-> frames mod (files * block) < files).
Proof.
  intros n b c l B C H. destruct (C54_total n b c B C) as (l' & H' & _ & T & _). assert (l' = l) by congruence. subst l'. rewrite T.
  split; intros K.
  - destruct (Nat.lt_ge_cases (n mod (c * b)) c) as [L|L]; [exact L|]. pose proof (Nat.div_le_lower_bound (n mod (c * b)) c 1 ltac:(lia) ltac:(lia)). nia.
  - rewrite (Nat.div_small _ _ K). lia.
Qed.
Theorem C54_none : forall frames block files, files * block = 0 -> files_shape frames block files = Err ZeroDivision.
Proof. intros n b c H. unfold files_shape. now rewrite H. Qed.
(** 4500 frames in blocks of 1000 to four files. *)
Theorem C54_blocks_refuted : exists frames block files l, 0 < block /\ 0 < files /\ files_shape frames block files = Ok l /\
  l = [1625; 1125; 1125; 1125] /\ map (fun i => length (dealt frames block files i)) (seq 0 files) = [1500; 1000; 1000; 1000].
Proof.
  exists (45 * 100), (10 * 100), 4. eexists. split; [lia|]. split; [lia|]. split; [vm_compute; reflexivity|]. split; vm_compute; reflexivity.
Qed.
Example C54_ex : files_shape 11 2 4 = Ok [4; 3; 2; 2] /\ map (fun i => dealt 11 2 4 i) (seq 0 4) = [[0; 1; 8; 9]; [2; 3; 10]; [4; 5]; [6; 7]].
Proof. vm_compute. auto. Qed.

(** ** C55: Odin *)

Lemma reads_app : forall f f' p n, reads f p n -> reads (f ++ f') p n.
Proof.
  intros f f' p n H; induction H; [apply reads_vds | apply reads_ext | apply reads_set | eapply reads_link | eapply reads_shape]; eauto; apply in_app_iff; left; eauto.
Qed.
Lemma reads_one : forall f g files shape b s t, (forall x, In x (one_vds files shape g b s t) -> In x f) -> reads f ("/" +++ t) (NInterleave files s shape b).
Proof.
  intros f g files shape b s t H. eapply reads_shape; [apply H; right; now left|]. apply reads_vds. apply H. now left.
Qed.
Lemma files_NoDup : forall folder raw n, NoDup (odin_files folder raw n) /\ length (odin_files folder raw n) = n.
Proof.
  intros folder raw n. split; [|unfold odin_files; now rewrite map_length, seq_length]. apply NoDup_map_inj; [apply seq_NoDup|].
  intros x y _ _ E. do 4 apply append_inj in E. apply append_inj_r, pad6_inj in E. lia.
Qed.
Lemma enum_nth : forall A (l : list A) k i x, nth_error l i = Some x -> In (k + i, x) (enum k l).
Proof.
  intros A l; induction l as [|y l IH]; intros k [|i] x H; try discriminate.
  - injection H as ->. left. f_equal. lia.
  - right. specialize (IH (S k) i x H). now replace (k + S i) with (S k + i) by lia.
Qed.
Lemma set_infos_In : forall g filename base d, In d (set_infos g filename base) <->
  exists a, In a (g_axes g) /\ d = mkP (a +++ ".value_set") filename POSITION_SET 1 (base +++ a +++ "_set") "".
Proof.
  intros g filename base d. unfold set_infos. rewrite in_map_iff. split; intros (a & A & B); exists a; auto.
Qed.
Lemma indices_In : forall a i l k, In (a +++ "_set_indices", i) (flat_map (fun id => map (fun a0 => (a0 +++ "_set_indices", fst id)) (d_axes (snd id))) (enum k l)) <->
  exists j d, i = k + j /\ nth_error l j = Some d /\ In a (d_axes d).
Proof.
  intros a i l; induction l as [|d l IH]; intros k; cbn [enum flat_map].
  - split; [intros [] | intros ([|j] & d & _ & H & _); discriminate].
  - rewrite in_app_iff, (IH (S k)). cbn [fst snd]. split.
    + intros [H|(j & d' & -> & H1 & H2)].
      * apply in_map_iff in H. destruct H as (x & E & H). injection E as E <-. apply append_inj_r in E. subst x. exists 0, d. rewrite Nat.add_0_r. auto.
      * exists (S j), d'. split; [lia | auto].
    + intros ([|j] & d' & -> & H1 & H2).
      * injection H1 as ->. left. apply in_map_iff. exists a. rewrite Nat.add_0_r. auto.
      * right. exists j, d'. split; [lia | auto].
Qed.
Lemma nexus_ok : forall g f base data l s h b, reads f (base +++ data) (NInterleave l s h b) ->
  (forall x, In x (axis_nodes g base) -> In x f) -> nexus g f base (node_attrs g data).
Proof.
  intros g f base data l s h b R H. unfold nexus, node_attrs. cbn [n_signal n_axes n_indices]. split; [eauto|]. split.
  - unfold pad_dims. now rewrite app_length, map_length, repeat_length.
  - split.
    + intros a i. rewrite indices_In. split; [intros (j & d & -> & K); exists d; exact K | intros (d & K); exists i, d; auto].
    + intros i d D. split.
      * intros a E. unfold pad_dims. rewrite nth_error_app1 by (rewrite map_length; apply nth_error_Some; congruence).
        rewrite (map_nth_error _ i _ D). now rewrite E.
      * intros a A. apply reads_set, H, axis_nodes_In; [eapply nth_error_In; exact D | exact A].
Qed.

(** The names of the files: for %s in the template, wherever it is, comes the name; an extension is what comes
    after the last dot, if something other than dots is before it. *)
Definition no_percent (s : string) : Prop := ~ In "%"%char (list_ascii_of_string s).
Definition no_dot (s : string) : Prop := ~ In "."%char (list_ascii_of_string s).
Lemma subst_const t name : no_percent t -> subst t name = t.
Proof.
  unfold no_percent. induction t as [|c r IH]; intros N; [reflexivity|]. cbn [list_ascii_of_string In] in N.
  assert (c <> "%"%char) by (intros ->; apply N; now left). assert (E : subst r name = r) by (apply IH; intros I; apply N; now right).
  assert (S : subst (String c r) name = String c (subst r name)).
  { destruct c as [[] [] [] [] [] [] [] []]; try reflexivity; congruence. }
  now rewrite S, E.
Qed.
Theorem C55_template : forall a b name, no_percent a -> subst (a +++ "%s" +++ b) name = a +++ name +++ subst b name.
Proof.
  intros a b name N. unfold no_percent in N. induction a as [|c r IH]; [reflexivity|].
  assert (C : c <> "%"%char) by (intros ->; apply N; now left).
  assert (S : forall x, subst (String c x) name = String c (subst x name)).
  { intros x. destruct c as [[] [] [] [] [] [] [] []]; try reflexivity; congruence. }
  change ((String c r) +++ "%s" +++ b) with (String c (r +++ "%s" +++ b)). rewrite S, IH by (intros I; apply N; now right). reflexivity.
Qed.
Print Assumptions C55_template.
Lemma has_dot_In s : has_dot s = true <-> In "."%char (list_ascii_of_string s).
Proof.
  induction s as [|c r IH]; cbn [has_dot list_ascii_of_string In]; [split; [discriminate|intros []]|].
  rewrite orb_true_iff, IH, Ascii.eqb_eq. tauto.
Qed.
Lemma no_ext_last b e : no_dot e -> no_ext (b +++ "." +++ e) = b.
Proof.
  intros N. assert (E : has_dot e = false) by (apply not_true_iff_false; now rewrite has_dot_In).
  assert (D : forall x, has_dot (x +++ "." +++ e) = true).
  { induction x as [|c x IH]; [reflexivity|]. change (String c x +++ "." +++ e) with (String c (x +++ "." +++ e)). cbn [has_dot]. rewrite IH. apply orb_true_r. }
  induction b as [|c b IH].
  - change ("" +++ "." +++ e) with (String "."%char e). cbn [no_ext]. now rewrite E.
  - change (String c b +++ "." +++ e) with (String c (b +++ "." +++ e)). cbn [no_ext]. rewrite D, andb_false_r, IH. reflexivity.
Qed.
Theorem C55_extension : forall b e, no_dot e -> (exists c, In c (list_ascii_of_string b) /\ c <> "."%char) ->
  splitext (b +++ "." +++ e) = b.
Proof.
  intros b e N. induction b as [|c r IH]; intros (x & I & X); [destruct I|]. cbn [list_ascii_of_string In] in I.
  change (String c r +++ "." +++ e) with (String c (r +++ "." +++ e)). destruct (Ascii.eqb_spec c "."%char) as [->|C].
  - cbn [splitext]. rewrite IH; [reflexivity|]. destruct I as [<-|I]; [congruence|]. eauto.
  - assert (S : forall s, splitext (String c s) = if has_dot (String c s) then no_ext (String c s) else String c s).
    { intros s. destruct c as [[] [] [] [] [] [] [] []]; try reflexivity; congruence. }
    rewrite S. change (String c (r +++ "." +++ e)) with (String c r +++ "." +++ e). rewrite no_ext_last by exact N.
    assert (H : has_dot (String c r +++ "." +++ e) = true); [|now rewrite H]. clear. generalize (String c r). induction s as [|d s IH]; [reflexivity|].
    change (String d s +++ "." +++ e) with (String d (s +++ "." +++ e)). cbn [has_dot]. rewrite IH. apply orb_true_r.
Qed.
Print Assumptions C55_extension.
Theorem C55_no_extension : forall s, no_dot s -> splitext s = s.
Proof.
  intros s N. assert (E : has_dot s = false) by (apply not_true_iff_false; now rewrite has_dot_In).
  destruct s as [|c r]; [reflexivity|]. destruct (Ascii.eqb_spec c "."%char) as [->|C]; [discriminate|].
  assert (S : splitext (String c r) = if has_dot (String c r) then no_ext (String c r) else String c r).
  { destruct c as [[] [] [] [] [] [] [] []]; try reflexivity; congruence. }
  now rewrite S, E.
Qed.
Print Assumptions C55_no_extension.
Example C55_ex_names : subst "run-%s/%s.v1.h5" "xsp" = "run-xsp/xsp.v1.h5" /\ splitext "..xsp.v1.h5" = "..xsp.v1" /\ splitext "xsp" = "xsp" /\
  no_percent "run-" /\ no_dot "h5".
Proof. unfold no_percent, no_dot. repeat split; try reflexivity; vm_compute; intuition discriminate. Qed.

(** The file is made, each name in it once; the data, the unique ids and the sums are read from the
    files of the writers as C54 says; and what is announced is there, except for one raw dataset and
    one of ids too many. *)
Theorem C55_odin : forall g alternate folder name template uid_name sum_name block n, axes_ok g -> 0 < block -> 0 < n ->
  has_dot (folder +++ "/" +++ subst template name) = true -> existsb (fun b => b) (tl alternate) = false ->
  exists f at_ infos files shape,
  odin_configure g alternate folder name template uid_name sum_name "sum" block n = Ok (f, at_, infos) /\
  files_shape (fold_right Nat.mul 1 (map d_size (g_dims g))) block n = Ok shape /\ length files = n /\
  (forall i, i < n -> nth_error files i = Some (folder +++ "/" +++ splitext (subst template (name +++ "_raw_data")) +++ "_" +++ pad6 (i + 1) +++ ".h5")) /\
  (forall t, In t ["data"; "uid"; "sum"] -> exists src, In ("/" +++ t, NReshape src (map d_size (g_dims g))) f) /\
  NoDup files /\ NoDup (map fst f) /\
  (forall base a, In (base, a) at_ -> nexus g f base a) /\ map fst at_ = ["/entry/detector/"; "/entry/detector_sum/"; "/entry/detector_uid/"] /\
  forall d, In d infos -> p_file d = subst template name /\
    ((exists t, reads f (p_path d) t /\ odin_meant g name uid_name sum_name files shape block f d t) \/
     p_path d = "/raw" +++ str (n + 1) \/ p_path d = "/uid" +++ str (n + 1)).
Proof.
  intros g alternate folder name template u s b n [Ax1 Ax2] B N D Al.
  set (raw := splitext (subst template (name +++ "_raw_data"))). set (files := odin_files folder raw n).
  pose proof (shape_closed (gen_size g) b n B N) as Sh. set (shape := map _ (seq 0 n)) in Sh.
  set (f := odin_content g files shape b u s ++ flat_map (base_nodes g) odin_bases).
  exists f, (map (fun db => (snd db, node_attrs g (fst db))) odin_bases),
    (odin_infos name g (subst template name) "sum" ++ odin_raw_infos name (length (g_dims g) + 2) (subst template name) n), files, shape.
  assert (C1 : forall x, In x (one_vds files shape g b "data" "data") -> In x f) by (intros x I; unfold f, odin_content; rewrite !in_app_iff; auto).
  assert (C2 : forall x, In x (flat_map pair_nodes (enum 1 files)) -> In x f) by (intros x I; unfold f, odin_content; rewrite !in_app_iff; auto).
  assert (C3 : forall x, In x (one_vds files shape g b u "uid") -> In x f) by (intros x I; unfold f, odin_content; rewrite !in_app_iff; auto).
  assert (C4 : forall x, In x (one_vds files shape g b s "sum") -> In x f) by (intros x I; unfold f, odin_content; rewrite !in_app_iff; auto 6).
  assert (C5 : forall db x, In db odin_bases -> In x (base_nodes g db) -> In x f) by (intros db x I J; unfold f; rewrite in_app_iff; right; apply in_flat_map; eauto).
  assert (R1 : reads f "/entry/detector/data" (NInterleave files "data" shape b)).
  { eapply reads_link; [apply (C5 ("data", "/entry/detector/")); now left|]. exact (reads_one f g files shape b "data" "data" C1). }
  assert (R2 : reads f "/entry/detector_sum/sum" (NInterleave files s shape b)).
  { eapply reads_link; [apply (C5 ("sum", "/entry/detector_sum/")); [right; now left | now left]|]. exact (reads_one f g files shape b s "sum" C4). }
  assert (R3 : reads f "/entry/detector_uid/uid" (NInterleave files u shape b)).
  { eapply reads_link; [apply (C5 ("uid", "/entry/detector_uid/")); [right; right; now left | now left]|]. exact (reads_one f g files shape b u "uid" C3). }
  split. { unfold odin_configure. rewrite D. fold raw. rewrite odin_files_ok by assumption. fold files shape. rewrite odin_nexus_ok by exact Ax1. reflexivity. }
  split; [exact Sh|]. split; [apply files_NoDup|]. split.
  { intros i I. unfold files, odin_files. rewrite nth_error_map, (nth_error_nth' _ 0) by (now rewrite seq_length). now rewrite seq_nth. }
  split.
  { intros t [<-|[<-|[<-|[]]]]; [exists "/process/data_interleave"; apply C1|exists "/process/uid_interleave"; apply C3|exists "/process/sum_interleave"; apply C4]; right; now left. }
  split; [apply files_NoDup|]. split.
  { pose proof (odin_nexus_ok g files shape b u s Ax1) as K. unfold f. rewrite map_app. apply NoDup_join; [apply odin_content_NoDup| |].
    + apply bases_NoDup; [exact Ax1| |].
      * intros db I. cbn in I. destruct I as [<-|[<-|[<-|[]]]]; discriminate.
      * repeat constructor.
    + intros p I J. apply odin_content_starts in I. apply bases_entry in J; [congruence|].
      intros db L. cbn in L. destruct L as [<-|[<-|[<-|[]]]]; reflexivity. }
  split.
  { intros base a I. apply in_map_iff in I. destruct I as (db & E & I). injection E as <- <-.
    assert (K : forall x, In x (axis_nodes g (snd db)) -> In x f) by (intros x X; apply (C5 db x I); now right).
    cbn in I. destruct I as [<-|[<-|[<-|[]]]]; cbn [fst snd] in *; eapply nexus_ok; eauto. }
  split; [reflexivity|].
  intros d I. apply in_app_iff in I. unfold odin_infos, odin_raw_infos in I. cbn [In] in I. rewrite in_app_iff in I.
  destruct I as [[<-|[<-|I]]|[I|I]].
  - split; [reflexivity|]. left. eexists. split; [exact R1|]. now apply om_primary.
  - split; [reflexivity|]. left. eexists. split; [exact R2|]. now apply om_secondary.
  - apply set_infos_In in I. destruct I as (a & A & ->). split; [reflexivity|]. left. pose proof (proj1 (Ax2 a) A) as K. apply in_flat_map in K. destruct K as (dm & K1 & K2).
    exists (NSet (d_pos dm a) (g_units g a)). split.
    + apply reads_set. apply (C5 ("data", "/entry/detector/")); [now left|]. right. now apply axis_nodes_In.
    + apply (om_set g name u s files shape b f _ a); auto. now exists dm.
  - apply in_map_iff in I. destruct I as (i & <- & I). split; [reflexivity|]. apply in_seq in I. destruct (Nat.eq_dec i n) as [->|E]; [right; now left|]. left.
    destruct (nth_error files i) as [file|] eqn:F; [|apply nth_error_None in F; unfold files in F; rewrite (proj2 (files_NoDup folder raw n)) in F; lia].
    exists (NExt file "/data"). split; [|eapply om_raw; eauto]. apply reads_ext, C2, in_flat_map. exists (1 + i, file). split; [now apply enum_nth|].
    rewrite (Nat.add_comm i 1). now left.
  - apply in_map_iff in I. destruct I as (i & <- & I). split; [reflexivity|]. apply in_seq in I. destruct (Nat.eq_dec i n) as [->|E]; [right; now right|]. left.
    destruct (nth_error files i) as [file|] eqn:F; [|apply nth_error_None in F; unfold files in F; rewrite (proj2 (files_NoDup folder raw n)) in F; lia].
    exists (NExt file "/uid"). split; [|eapply om_uid; eauto]. apply reads_ext, C2, in_flat_map. exists (1 + i, file). split; [now apply enum_nth|].
    rewrite (Nat.add_comm i 1). right. now left.
Qed.

(** A snake is refused. *)
Theorem C55_snake : forall g alternate folder name template u s sec block n, 0 < block -> 0 < n ->
  has_dot (folder +++ "/" +++ subst template name) = true -> existsb (fun b => b) (tl alternate) = true ->
  odin_configure g alternate folder name template u s sec block n = Err Snake.
Proof.
  intros g alternate folder name template u s sec b n B N D A. unfold odin_configure. rewrite D. unfold odin_vds. now rewrite shape_closed, A by assumption.
Qed.

(** ** C55: Xspress *)

Theorem C55_xspress : forall g alternate folder name template block n nd pairs, axes_ok g -> 0 < block -> 0 < n <= 8 -> nd mod n = 0 -> pairs <= n ->
  has_dot (folder +++ "/" +++ subst template name) = true -> existsb (fun b => b) (tl alternate) = false ->
  exists f at_ infos files meta shape,
  xsp_configure g alternate folder name template block n nd pairs = Ok (f, at_, infos) /\
  files_shape (fold_right Nat.mul 1 (map d_size (g_dims g))) block n = Ok shape /\ length files = n /\
  (forall i c, i < n -> nth_error ["A"; "B"; "C"; "D"; "E"; "F"; "G"; "H"] i = Some c ->
     nth_error files i = Some (folder +++ "/" +++ splitext (subst template (name +++ "_raw_data")) +++ "_" +++ c +++ "_000000.h5")) /\
  meta = folder +++ "/" +++ splitext (subst template (name +++ "_raw_data")) +++ "_meta.h5" /\
  (exists src, In ("/data", NReshape src (map d_size (g_dims g))) f) /\ NoDup files /\ NoDup (map fst f) /\
  (forall base a, In (base, a) at_ -> nexus g f base a) /\ map fst at_ = ["/entry/xspress/"] /\
  forall d, In d infos -> p_file d = subst template name /\
    exists t, reads f (p_path d) t /\ xsp_meant g name files meta shape block (nd / n) d t.
Proof.
  intros g alternate folder name template b n nd pairs [Ax1 Ax2] B N M P D Al.
  set (raw := splitext (subst template (name +++ "_raw_data"))). set (files := xsp_file_list folder raw n). set (meta := folder +++ "/" +++ raw +++ "_meta.h5").
  pose proof (shape_closed (gen_size g) b n B (proj1 N)) as Sh. set (shape := map _ (seq 0 n)) in Sh.
  set (f := xsp_content g files meta shape b (nd / n) nd ++ base_nodes g ("data", "/entry/xspress/")).
  assert (Lf : length files = n) by (apply xsp_file_count; lia).
  exists f, [("/entry/xspress/", node_attrs g "data")],
    (xsp_infos name g (subst template name) ++ xsp_raw_infos name (length (g_dims g) + 2) (subst template name) nd pairs), files, meta, shape.
  assert (C1 : forall x, In x (one_vds files shape g b "data" "data") -> In x f) by (intros x I; unfold f, xsp_content; rewrite !in_app_iff; auto).
  assert (C2 : forall x, In x (map (mca_node files (nd / n)) (seq 0 nd)) -> In x f) by (intros x I; unfold f, xsp_content; rewrite !in_app_iff; auto).
  assert (C3 : forall x, In x (map (fun cf => ("/raw/uid" +++ str (fst cf), NExt (snd cf) "/uid")) (enum 0 files)) -> In x f) by (intros x I; unfold f, xsp_content; rewrite !in_app_iff; auto).
  assert (C4 : forall x, In x (map (fun s => ("/raw/scalar_" +++ str s, NExt meta ("/scalar_" +++ str s))) (seq 0 9)) -> In x f) by (intros x I; unfold f, xsp_content; rewrite !in_app_iff; auto 7).
  assert (C5 : In ("/raw/dtc", NExt meta "/dtc") f) by (unfold f, xsp_content; rewrite !in_app_iff; cbn [In]; auto 10).
  assert (C6 : forall x, In x (base_nodes g ("data", "/entry/xspress/")) -> In x f) by (intros x I; unfold f; rewrite in_app_iff; auto).
  assert (R1 : reads f "/entry/xspress/data" (NInterleave files "data" shape b)).
  { eapply reads_link; [apply C6; now left|]. exact (reads_one f g files shape b "data" "data" C1). }
  split. { unfold xsp_configure. rewrite D. fold raw. rewrite xsp_vds_ok by assumption. fold files meta shape. rewrite xsp_nexus_ok by exact Ax1.
    change (length letters) with 8. now rewrite (proj2 (Nat.leb_le pairs 8)) by lia. }
  split; [exact Sh|]. split; [exact Lf|]. split.
  { intros i c I C. unfold files, xsp_file_list. rewrite nth_error_map.
    assert (FN : forall k (l : list string) j, j < k -> nth_error (firstn k l) j = nth_error l j).
    { clear. induction k as [|k IH]; intros l j J; [lia|]. destruct l as [|x l]; [destruct j; reflexivity|].
      destruct j as [|j]; [reflexivity|]. cbn. apply IH. lia. }
    rewrite FN by exact I. change letters with ["A"; "B"; "C"; "D"; "E"; "F"; "G"; "H"]. rewrite C. reflexivity. }
  split; [reflexivity|]. split; [exists "/process/data_interleave"; apply C1; right; now left|]. split.
  { unfold files, xsp_file_list. apply NoDup_map_inj.
    - pose proof (firstn_skipn n letters) as E. assert (NL : NoDup letters) by (repeat constructor; cbn; intuition discriminate).
      rewrite <- E in NL. apply NoDup_parts in NL. apply NL.
    - intros x y _ _ E. do 4 apply append_inj in E. now apply append_inj_r in E. }
  split.
  { unfold f. rewrite map_app. apply NoDup_join; [apply xsp_content_NoDup| |].
    + apply base_NoDup; [exact Ax1 | discriminate].
    + intros p I J. apply xsp_content_starts in I. apply base_starts in J. apply (starts_short "/e") in J. congruence. }
  split. { intros base a [E|[]]. injection E as <- <-. eapply nexus_ok; [exact R1|]. intros x X. apply C6. now right. }
  split; [reflexivity|].
  intros d I. apply in_app_iff in I. unfold xsp_infos, xsp_raw_infos in I. cbn [In] in I. rewrite !in_app_iff in I.
  destruct I as [[<-|I]|[I|[I|[I|[<-|[]]]]]].
  - split; [reflexivity|]. eexists. split; [exact R1|]. now apply xm_primary.
  - apply set_infos_In in I. destruct I as (a & A & ->). split; [reflexivity|]. pose proof (proj1 (Ax2 a) A) as K. apply in_flat_map in K. destruct K as (dm & K1 & K2).
    exists (NSet (d_pos dm a) (g_units g a)). split.
    + apply reads_set. apply C6. right. now apply axis_nodes_In.
    + apply (xm_set g name files meta shape b (nd / n) _ a); auto. now exists dm.
  - apply in_map_iff in I. destruct I as (c & <- & I). split; [reflexivity|]. apply in_seq in I.
    pose proof (Nat.div_mod nd n ltac:(lia)) as Dn. rewrite M in Dn. set (per := nd / n) in *. clearbody per.
    assert (Pp : 0 < per) by nia. pose proof (Nat.div_mod c per ltac:(lia)) as Dc. pose proof (Nat.mod_upper_bound c per ltac:(lia)) as Uc.
    destruct (nth_error files (c / per)) as [file|] eqn:F.
    + exists (NExt file ("/mca_" +++ str c)). split; [|apply (xm_mca g name files meta shape b per _ c (c / per) (c mod per)); auto; lia].
      apply reads_ext, C2, in_map_iff. exists c. split; [|apply in_seq; lia]. unfold mca_node. now rewrite (nth_error_nth files (c / per) "" F).
    + apply nth_error_None in F. rewrite Lf in F. set (q := c / per) in *. clearbody q. nia.
  - apply in_map_iff in I. destruct I as (i & <- & I). split; [reflexivity|]. apply in_seq in I. eexists. split; [|apply (xm_scalar g name files meta shape b (nd / n) _ i); auto; lia].
    apply reads_ext, C4, in_map_iff. exists i. split; [reflexivity | now apply in_seq].
  - apply in_map_iff in I. destruct I as (i & <- & I). split; [reflexivity|]. apply in_seq in I.
    destruct (nth_error files i) as [file|] eqn:F; [|apply nth_error_None in F; lia].
    exists (NExt file "/uid"). split; [|eapply xm_uid; eauto]. apply reads_ext, C3, in_map_iff. exists (i, file). split; [reflexivity|]. exact (enum_nth _ files 0 i file F).
  - split; [reflexivity|]. eexists. split; [apply reads_ext; exact C5|]. now apply xm_dtc.
Qed.

(** With channels left over, configure fails with an IndexError. *)
Theorem C55_uneven : forall g alternate folder name template block n nd pairs, 0 < block -> 0 < n <= 8 -> n <= nd -> nd mod n <> 0 ->
  has_dot (folder +++ "/" +++ subst template name) = true -> existsb (fun b => b) (tl alternate) = false ->
  xsp_configure g alternate folder name template block n nd pairs = Err IndexError.
Proof.
  intros g alternate folder name template b n nd pairs B N L M D A. unfold xsp_configure. rewrite D. unfold xsp_vds. rewrite shape_closed, A by lia.
  unfold xsp_files. change (length letters) with 8. rewrite (proj2 (Nat.leb_le n 8)) by lia.
  pose proof (Nat.div_mod nd n ltac:(lia)) as Dn. pose proof (Nat.div_le_lower_bound nd n 1 ltac:(lia) ltac:(lia)) as Q.
  rewrite mca_uneven; [reflexivity | lia | lia | lia |]. rewrite map_length, firstn_length. change (length letters) with 8. rewrite Nat.min_l by lia. lia.
Qed.

(** ** A scan *)

Definition g_ex : gen := mkGen [mkDim ["y"] 3 (fun _ => [0; 1; 2]%Q); mkDim ["x"; "z"] 4 (fun a => if String.eqb a "x" then [5; 6; 7; 8]%Q else [1; 1; 2; 2]%Q)] ["y"; "x"; "z"] (fun _ => "mm").
Lemma axes_ex : axes_ok g_ex.
Proof. split; [repeat constructor; cbn; intuition discriminate|]. intros a. cbn. tauto. Qed.
Definition odin_ex := odin_configure g_ex [true; false] "/tmp" "eiger" "%s.h5" "uid" "sum" "sum" 1 2.
Definition paths_of (r : result oerr (h5 * list (string * nattrs) * list produced)) : list string * list (string * string) :=
  match r with Ok (f, _, i) => (map fst f, map (fun d => (p_name d, p_path d)) i) | Err _ => ([], []) end.
Example C55_ex_odin : paths_of odin_ex =
  (["/process/data_interleave"; "/data"; "/raw1"; "/uid1"; "/raw2"; "/uid2"; "/process/uid_interleave"; "/uid"; "/process/sum_interleave"; "/sum";
    "/entry/detector/data"; "/entry/detector/y_set"; "/entry/detector/x_set"; "/entry/detector/z_set";
    "/entry/detector_sum/sum"; "/entry/detector_sum/y_set"; "/entry/detector_sum/x_set"; "/entry/detector_sum/z_set";
    "/entry/detector_uid/uid"; "/entry/detector_uid/y_set"; "/entry/detector_uid/x_set"; "/entry/detector_uid/z_set"],
   [("eiger.data", "/entry/detector/data"); ("eiger.sum", "/entry/detector_sum/sum"); ("y.value_set", "/entry/detector/y_set");
    ("x.value_set", "/entry/detector/x_set"); ("z.value_set", "/entry/detector/z_set"); ("eiger.raw1", "/raw1"); ("eiger.raw2", "/raw2");
    ("eiger.raw3", "/raw3"); ("eiger.uid1", "/uid1"); ("eiger.uid2", "/uid2"); ("eiger.uid3", "/uid3")]).
Proof. vm_compute. reflexivity. Qed.
Example C55_ex_data : match odin_ex with Ok (f, _, _) =>
  dget "/process/data_interleave" f = Some (NInterleave ["/tmp/eiger_raw_data_000001.h5"; "/tmp/eiger_raw_data_000002.h5"] "data" [6; 6] 1) | Err _ => False end.
Proof. vm_compute. reflexivity. Qed.
Example C55_ex_xspress : match xsp_configure g_ex [] "/tmp" "xsp" "%s.h5" 1 2 4 2 with
  | Ok (f, _, _) => dget "/raw/mca1" f = Some (NExt "/tmp/xsp_raw_data_A_000000.h5" "/mca_1") /\
                    dget "/raw/mca2" f = Some (NExt "/tmp/xsp_raw_data_B_000000.h5" "/mca_2") | Err _ => False end.
Proof. vm_compute. auto. Qed.
Example C55_ex_hyps : has_dot ("/tmp/" +++ subst "%s.h5" "xsp") = true /\ existsb (fun b => b) (tl [true; false]) = false /\ 4 mod 2 = 0 /\ 2 <= 2.
Proof. vm_compute. auto. Qed.
Example C55_ex_snake : odin_configure g_ex [false; true] "/tmp" "eiger" "%s.h5" "uid" "sum" "sum" 1 2 = Err Snake.
Proof. vm_compute. reflexivity. Qed.
Example C55_ex_uneven : xsp_configure g_ex [] "/tmp" "xsp" "%s.h5" 1 2 5 1 = Err IndexError.
Proof. vm_compute. reflexivity. Qed.

(** ** What goes wrong *)

(** One raw dataset more is announced than there are files. *)
Theorem C55_raw_refuted : exists g alternate f at_ infos d, axes_ok g /\
  odin_configure g alternate "/tmp" "eiger" "%s.h5" "uid" "sum" "sum" 1 2 = Ok (f, at_, infos) /\ In d infos /\ ~ In (p_path d) (map fst f).
Proof.
  exists g_ex, [true; false]. do 3 eexists. exists (mkP "eiger.raw3" "eiger.h5" RAW 4 "/raw3" ""). split; [exact axes_ex|]. split; [vm_compute; reflexivity|].
  split; cbn; intuition discriminate.
Qed.
(** A secondary dataset with another name than sum is announced but not made. *)
Theorem C55_secondary_refuted : exists g alternate f at_ infos d, axes_ok g /\
  odin_configure g alternate "/tmp" "eiger" "%s.h5" "uid" "sum" "total" 1 2 = Ok (f, at_, infos) /\ In d infos /\ p_type d = SECONDARY /\ ~ In (p_path d) (map fst f).
Proof.
  exists g_ex, [true; false]. do 3 eexists. exists (mkP "eiger.total" "eiger.h5" SECONDARY 4 "/entry/detector_total/total" "/entry/detector_uid/uid").
  split; [exact axes_ex|]. split; [vm_compute; reflexivity|]. split; [|split; [reflexivity|]]; cbn; intuition discriminate.
Qed.
(** The unique ids of the Xspress data are announced at a path that is not made. *)
Theorem C55_xspress_uid_refuted : exists g f at_ infos d, axes_ok g /\
  xsp_configure g [] "/tmp" "xsp" "%s.h5" 1 2 4 2 = Ok (f, at_, infos) /\ In d infos /\ p_type d = PRIMARY /\ p_uid d <> "" /\ ~ In (p_uid d) (map fst f).
Proof.
  exists g_ex. do 3 eexists. exists (mkP "xsp.data" "xsp.h5" PRIMARY 4 "/entry/xspress/data" "/entry/xspress/uid").
  split; [exact axes_ex|]. split; [vm_compute; reflexivity|]. split; [|split; [reflexivity|split; [discriminate|]]]; cbn; intuition discriminate.
Qed.
(** With fewer channels than files the first channel is looked for in the second file. *)
Theorem C55_few_channels_refuted : exists f at_ infos,
  xsp_configure g_ex [] "/tmp" "xsp" "%s.h5" 1 2 1 1 = Ok (f, at_, infos) /\ In ("/raw/mca0", NExt "/tmp/xsp_raw_data_B_000000.h5" "/mca_0") f.
Proof. do 3 eexists. split; [vm_compute; reflexivity|]. cbn. intuition. Qed.

Print Assumptions C54_dealt.
Print Assumptions C54_blocks_of_one.
Print Assumptions C54_total.
Print Assumptions C54_right_iff.
Print Assumptions C54_none.
Print Assumptions C54_blocks_refuted.
Print Assumptions C55_odin.
Print Assumptions C55_snake.
Print Assumptions C55_xspress.
Print Assumptions C55_uneven.
Print Assumptions C55_raw_refuted.
Print Assumptions C55_secondary_refuted.
Print Assumptions C55_xspress_uid_refuted.
Print Assumptions C55_few_channels_refuted.
