(* C83: each block of a PandA is found by its names, and each change reaches its block. *)
From Coq Require Import String Ascii Bool Arith Lia List.
From Verif Require Import Base Hdf_Model Ports_Model PField_Model PField_Spec PField_Proofs PField_Props PName_Model.
From Verif Require Import Odin2_Proofs Ports_Props.
Import ListNotations.
Local Open Scope string_scope.
Local Open Scope list_scope.
Local Open Scope nat_scope.

(* ---- what C83 says ---- *)
(* block number i (from 1) of the root is called name *)
Definition block (b : blocks_data) (root : string) (i : nat) (name : string) : Prop :=
  exists n fs, In (root, (n, fs)) b /\ 1 <= i <= n /\ name = (if Nat.eqb n 1 then root else root +++ str i).
(* the device uses k for it: its name, or the root and its number *)
Definition known_as (b : blocks_data) (k name : string) : Prop :=
  exists root i, block b root i name /\ (k = name \/ k = root +++ str i).
(* the device has each root once, and no root ends in a digit *)
Definition plain (b : blocks_data) : Prop := NoDup (dkeys b) /\ forall root, In root (dkeys b) -> ends_in_no_digit root.

(* ---- proofs ---- *)
Lemma name_digits root i j root' : ends_in_no_digit root -> ends_in_no_digit root' -> root +++ str i = root' +++ str j -> root = root' /\ i = j.
Proof.
  intros E E' H. assert (D : end_digits (root +++ str i) = end_digits (root' +++ str j)) by now rewrite H.
  rewrite !end_digits_app in D by (auto; apply str_digits). apply str_inj in D. subst j. split; [|reflexivity]. exact (Hdf_Proofs.append_inj_r _ _ _ H).
Qed.
Lemma root_digits root j root' : ends_in_no_digit root -> ends_in_no_digit root' -> root = root' +++ str j -> False.
Proof.
  intros E E' H. assert (D : end_digits (root +++ "") = end_digits (root' +++ str j)) by (rewrite append_nil; now rewrite H).
  rewrite !end_digits_app in D by (auto; apply str_digits). symmetry in D. exact (str_ne j D).
Qed.
Lemma names_In root n x : In x (block_names root n) <-> exists i, 1 <= i <= n /\ x = (if Nat.eqb n 1 then root else root +++ str i).
Proof.
  unfold block_names. destruct (Nat.eqb_spec n 1) as [->|N].
  - split; [intros [<-|[]]; exists 1; auto|]. intros (i & _ & ->). now left.
  - rewrite in_map_iff. split.
    + intros (i & <- & I). apply in_seq in I. exists (i + 1). split; [lia|reflexivity].
    + intros (i & I & ->). exists (i - 1). split; [f_equal; f_equal; lia|]. apply in_seq. lia.
Qed.
Lemma all_names_In b x : In x (all_names b) <-> exists root i, block b root i x.
Proof.
  unfold all_names. rewrite in_flat_map. split.
  - intros ([root [n fs]] & I & J). cbn [fst snd] in J. apply names_In in J as (i & L & E). exists root, i, n, fs. auto.
  - intros (root & i & n & fs & I & L & E). exists (root, (n, fs)). split; [exact I|]. cbn [fst snd]. apply names_In. eauto.
Qed.
Definition all_entries (b : blocks_data) := flat_map (fun e => entries (fst e) (fst (snd e))) b.
Lemma entries_In b k c : In (k, c) (all_entries b) <-> known_as b k c.
Proof.
  unfold all_entries. rewrite in_flat_map. split.
  - intros ([root [n fs]] & I & J). cbn [fst snd] in J. unfold entries in J. apply in_flat_map in J as (x & X & J).
    apply names_In in X as (i & L & ->). exists root, i. destruct J as [J|J].
    + injection J as <- <-. split; [|now left]. exists n, fs. auto.
    + destruct (Nat.eqb_spec n 1) as [->|N]; [|destruct J]. destruct J as [J|[]]. injection J as <- <-.
      assert (i = 1) by lia. subst i. split; [exists 1, fs; auto|]. right. reflexivity.
  - intros (root & i & (n & fs & I & L & E) & K). exists (root, (n, fs)). split; [exact I|]. cbn [fst snd]. unfold entries.
    apply in_flat_map. exists c. split; [apply names_In; eauto|]. destruct K as [->|K]; [now left|].
    destruct (Nat.eqb_spec n 1) as [->|N].
    + right. left. subst c. assert (i = 1) by lia. subst i. subst k. reflexivity.
    + left. congruence.
Qed.
Lemma block_unique b root n fs root' n' fs' : plain b -> In (root, (n, fs)) b -> In (root', (n', fs')) b -> root = root' -> n = n' /\ fs = fs'.
Proof.
  intros [N _] I J <-. apply (dget_In_nodup _ _ _ N) in I. apply (dget_In_nodup _ _ _ N) in J. rewrite I in J. injection J; auto.
Qed.
Lemma known_unique b k c c' : plain b -> known_as b k c -> known_as b k c' -> c = c'.
Proof.
  intros P (r & i & (n & fs & I & L & E) & K) (r' & i' & (n' & fs' & I' & L' & E') & K').
  assert (D : ends_in_no_digit r) by (apply P; unfold dkeys; apply in_map_iff; exists (r, (n, fs)); auto).
  assert (D' : ends_in_no_digit r') by (apply P; unfold dkeys; apply in_map_iff; exists (r', (n', fs')); auto).
  assert (X : k = r +++ str i \/ n = 1 /\ k = r) by (destruct (Nat.eqb_spec n 1); destruct K; subst; auto).
  assert (X' : k = r' +++ str i' \/ n' = 1 /\ k = r') by (destruct (Nat.eqb_spec n' 1); destruct K'; subst; auto).
  assert (R : r = r').
  { destruct X as [X|[N X]], X' as [X'|[N' X']]; rewrite X in X'.
    - apply (name_digits _ _ _ _ D D' X').
    - exfalso. symmetry in X'. exact (root_digits _ _ _ D' D X').
    - exfalso. exact (root_digits _ _ _ D D' X').
    - exact X'. }
  destruct (block_unique b _ _ _ _ _ _ P I I' R) as [<- <-]. subst r'.
  destruct (Nat.eqb_spec n 1); [congruence|]. destruct X as [X|[? _]]; [|contradiction]. destruct X' as [X'|[? _]]; [|contradiction].
  rewrite X in X'. destruct (name_digits _ _ _ _ D D X') as [_ <-]. congruence.
Qed.
Lemma fold_entries l : forall m, (forall k c c', In (k, c) l -> In (k, c') l -> c = c') ->
  forall k, dget k (fold_left (fun m (kv : string * string) => dset (fst kv) (snd kv) m) l m) = match find (fun kv => String.eqb (fst kv) k) l with Some kv => Some (snd kv) | None => dget k m end.
Proof.
  induction l as [|[k0 c0] l IH]; intros m U k; [reflexivity|]. cbn [fold_left find fst snd]. rewrite IH by (intros; eapply U; right; eassumption).
  destruct (find (fun kv => String.eqb (fst kv) k) l) as [[k1 c1]|] eqn:F.
  - apply find_some in F as [F1 F2]. cbn [fst] in F2. apply String.eqb_eq in F2. subst k1.
    destruct (String.eqb_spec k0 k) as [->|]; [|reflexivity]. cbn [snd]. f_equal. apply (U k); [right; exact F1|now left].
  - destruct (String.eqb_spec k0 k) as [->|N]; [apply dget_dset_same|]. apply dget_dset_other. congruence.
Qed.
Lemma find_controller b k c : plain b -> (dget k (controllers b) = Some c <-> known_as b k c).
Proof.
  intros P. unfold controllers. fold (all_entries b).
  assert (U : forall k c c', In (k, c) (all_entries b) -> In (k, c') (all_entries b) -> c = c').
  { intros k0 c0 c1 A B. apply entries_In in A. apply entries_In in B. exact (known_unique b k0 _ _ P A B). }
  rewrite fold_entries by exact U. rewrite <- entries_In. split.
  - destruct (find _ _) as [[k1 c1]|] eqn:F; [|discriminate]. apply find_some in F as [F1 F2]. cbn [fst] in F2. apply String.eqb_eq in F2. subst k1.
    cbn [snd]. intros H; injection H as <-. exact F1.
  - intros I. destruct (find (fun kv => String.eqb (fst kv) k) (all_entries b)) as [[k1 c1]|] eqn:F.
    + apply find_some in F as [F1 F2]. cbn [fst] in F2. apply String.eqb_eq in F2. subst k1. cbn [snd]. f_equal. exact (U _ _ _ F1 I).
    + exfalso. apply (find_none _ _ F) in I. cbn [fst] in I. now rewrite String.eqb_refl in I.
Qed.

(* Each name leads to its block, and to no other. *)
Theorem C83_found : forall b k name, plain b -> (dget k (controllers b) = Some name <-> known_as b k name).
Proof. exact (fun b k name P => find_controller b k name P). Qed.
Print Assumptions C83_found.

(* The blocks have different names, so that the process takes them all. *)
Theorem C83_distinct : forall b, plain b -> NoDup (all_names b).
Proof.
  intros b P. assert (Q : forall b0, (forall e, In e b0 -> In e b) -> NoDup (dkeys b0) -> NoDup (all_names b0)).
  { induction b0 as [|[root [n fs]] b0 IH]; intros S N; [constructor|]. unfold dkeys in N. cbn [map fst] in N. inversion N as [|? ? N1 N2]; subst.
    unfold all_names. cbn [flat_map fst snd]. apply NoDup_app'.
    - unfold block_names. destruct (Nat.eqb n 1); [repeat constructor; intros []|]. apply NoDup_map_inj'; [|apply seq_NoDup].
      intros x y _ _ E. apply Hdf_Proofs.append_inj in E. apply str_inj in E. lia.
    - apply IH; [intros e I; apply S; now right|exact N2].
    - intros x A B. apply names_In in A as (i & L & E). change (In x (all_names b0)) in B. apply all_names_In in B as (r' & i' & n' & fs' & I' & L' & E').
      assert (I : In (root, (n, fs)) b) by (apply S; now left). assert (J : In (r', (n', fs')) b) by (apply S; now right).
      assert (D : ends_in_no_digit root) by (apply P; unfold dkeys; apply in_map_iff; exists (root, (n, fs)); auto).
      assert (D' : ends_in_no_digit r') by (apply P; unfold dkeys; apply in_map_iff; exists (r', (n', fs')); auto).
      assert (R : root = r').
      { subst x. destruct (Nat.eqb n 1), (Nat.eqb n' 1).
        - exact E'.
        - exfalso. exact (root_digits _ _ _ D D' E').
        - exfalso. symmetry in E'. exact (root_digits _ _ _ D' D E').
        - apply (name_digits _ _ _ _ D D' E'). }
      apply N1. rewrite R. change (In r' (map fst b0)). apply in_map_iff. exists (r', (n', fs')). auto. }
  apply Q; [auto|apply P].
Qed.
Print Assumptions C83_distinct.

Lemma deliver_all m bc : (forall bn, In bn (dkeys bc) -> dget bn m <> None) ->
  exists calls, deliver m bc = (calls, true) /\ (forall c d, In (c, d) calls <-> exists bn, In (bn, d) bc /\ dget bn m = Some c).
Proof.
  induction bc as [|[bn d] bc IH]; intros H.
  - exists []. split; [reflexivity|]. intros c d. split; [intros []|intros (? & [] & _)].
  - destruct IH as (calls & E & I). { intros x X. apply H. right. exact X. }
    cbn [deliver]. destruct (dget bn m) as [c|] eqn:G; [|exfalso; apply (H bn); [now left|exact G]]. rewrite E. exists ((c, d) :: calls).
    split; [reflexivity|]. intros c' d'. cbn [In]. rewrite I. split.
    + intros [X|(x & X & Y)]; [injection X as <- <-; exists bn; auto|exists x; auto].
    + intros (x & [X|X] & Y); [left; congruence|right; eauto].
Qed.
Lemma deliver_none m bc : (exists bn, In bn (dkeys bc) /\ dget bn m = None) -> snd (deliver m bc) = false.
Proof.
  induction bc as [|[bn d] bc IH]; intros (x & I & G); [destruct I|]. cbn [deliver]. destruct (dget bn m) as [c|] eqn:E; [|reflexivity].
  destruct I as [<-|I]; [cbn [fst] in G; congruence|]. destruct (deliver m bc). cbn [snd] in *. apply IH. exists x. auto.
Qed.
Lemma route_all_keys cs : forall bc bc', route_all bc cs = Some bc' -> NoDup (dkeys bc) ->
  NoDup (dkeys bc') /\ forall bn, In bn (dkeys bc') <-> In bn (dkeys bc) \/ exists k v fn, In (k, v) cs /\ reports bn fn k.
Proof.
  induction cs as [|[k v] cs IH]; intros bc bc' H N; cbn [route_all] in H.
  - injection H as <-. split; [exact N|]. intros bn. split; [auto|]. intros [X|(? & ? & ? & [] & _)]; exact X.
  - destruct (route bc k v) as [bc1|] eqn:R; [|discriminate]. apply route_dest in R.
    assert (N1 : NoDup (dkeys bc1)) by (destruct (dest k) as [[b0 f0]|]; subst bc1; [apply dset_nodup, N|exact N]).
    destruct (IH _ _ H N1) as [A B]. split; [exact A|]. intros bn. rewrite B.
    assert (X : In bn (dkeys bc1) <-> In bn (dkeys bc) \/ exists fn, reports bn fn k).
    { destruct (dest k) as [[b0 f0]|] eqn:D; subst bc1.
      - rewrite In_dkeys_dset. split.
        + intros [->|Y]; [right; exists f0; now apply dest_reports|now left].
        + intros [Y|(fn & Y)]; [now right|]. apply dest_reports in Y. rewrite D in Y. injection Y as -> _. now left.
      - split; [auto|]. intros [Y|(fn & Y)]; [exact Y|]. apply dest_reports in Y. congruence. }
    rewrite X. split.
    + intros [[Y|(fn & Y)]|(k' & v' & fn & I & Y)]; [now left|right; exists k, v, fn; cbn; auto|right; exists k', v', fn; cbn; auto].
    + intros [Y|(k' & v' & fn & [I|I] & Y)]; [auto|injection I as <- <-; eauto|right; eauto].
Qed.

(* When the device only tells of blocks that it has, each block is given the last change of each of its fields
   (under each of its names), and nothing else. *)
Theorem C83_delivered : forall b cs, plain b ->
  (forall k v, In (k, v) cs -> exists x f, k = x +++ "." +++ f) ->
  (forall k v bn fn, In (k, v) cs -> reports bn fn k -> exists name, known_as b bn name) ->
  exists calls, handle b cs = (calls, true)
  /\ forall name fn v, (exists d, In (name, d) calls /\ dget fn d = Some v) <-> (exists bn, known_as b bn name /\ last_report bn fn cs v).
Proof.
  intros b cs P T K. destruct (C73_route_total cs T) as (bc & R). unfold handle. rewrite R.
  destruct (route_all_keys cs [] bc R (NoDup_nil _)) as [N I].
  destruct (deliver_all (controllers b) bc) as (calls & E & C).
  { intros bn B. apply I in B as [[]|(k & v & fn & X & Y)]. destruct (K k v bn fn X Y) as (name & Q).
    apply (find_controller b bn name P) in Q. congruence. }
  exists calls. split; [exact E|]. intros name fn v. split.
  - intros (d & X & G). apply C in X as (bn & X & Y). exists bn. split; [apply find_controller; assumption|].
    apply (C73_routed cs bc bn fn v R). exists d. split; [apply dget_In_nodup; assumption|exact G].
  - intros (bn & Y & L). apply (C73_routed cs bc bn fn v R) in L as (d & X & G). exists d. split; [|exact G]. apply C. exists bn.
    split; [apply dget_Some_In, X|]. apply find_controller; assumption.
Qed.
Print Assumptions C83_delivered.

(* One change for a block that is not there, and the handling fails. *)
Theorem C83_unknown : forall b cs k v bn fn, plain b -> In (k, v) cs -> reports bn fn k -> (forall name, ~ known_as b bn name) ->
  snd (handle b cs) = false.
Proof.
  intros b cs k v bn fn P I R U. unfold handle. destruct (route_all [] cs) as [bc|] eqn:E; [|reflexivity].
  apply deliver_none. exists bn. destruct (route_all_keys cs [] bc E (NoDup_nil _)) as [_ J]. split; [apply J; right; eauto|].
  destruct (dget bn (controllers b)) as [c|] eqn:G; [|reflexivity]. apply (find_controller b bn c P) in G. exfalso. exact (U c G).
Qed.
Print Assumptions C83_unknown.

(* The busses are told of the positions of all blocks, with how they are captured and scaled, of the bits and of
   the words that the bits are captured in. *)
Theorem C83_busses : forall b bits words k, In k (bus_fields b bits words) <->
  In k bits \/ In k words \/
  exists root n fs i name f, In (root, (n, fs)) b /\ 1 <= i <= n /\ name = (if Nat.eqb n 1 then root else root +++ str i)
    /\ In (f, "pos_out") fs
    /\ In k [name +++ "." +++ f; name +++ "." +++ f +++ ".CAPTURE"; name +++ "." +++ f +++ ".UNITS"; name +++ "." +++ f +++ ".SCALE"; name +++ "." +++ f +++ ".OFFSET"].
Proof.
  intros b bits words k.
  assert (A : forall x y z : string, (x +++ y) +++ z = x +++ y +++ z) by (induction x as [|c x IH]; intros; [reflexivity|]; cbn; now rewrite IH).
  assert (P : forall p, In p (pos_names b) <-> exists root n fs i name f, In (root, (n, fs)) b /\ 1 <= i <= n
     /\ name = (if Nat.eqb n 1 then root else root +++ str i) /\ In (f, "pos_out") fs /\ p = name +++ "." +++ f).
  { intros p. unfold pos_names. rewrite in_flat_map. split.
    - intros ([root [n fs]] & I & J). cbn [fst snd] in J. apply in_flat_map in J as (name & M & J). apply names_In in M as (i & L & E).
      apply in_flat_map in J as ([f t] & F & J). cbn [fst snd] in J. destruct (String.eqb_spec t "pos_out") as [->|]; [|destruct J].
      destruct J as [<-|[]]. exists root, n, fs, i, name, f. auto.
    - intros (root & n & fs & i & name & f & I & L & E & F & ->). exists (root, (n, fs)). split; [exact I|]. cbn [fst snd].
      apply in_flat_map. exists name. split; [apply names_In; eauto|]. apply in_flat_map. exists (f, "pos_out"). split; [exact F|]. left. reflexivity. }
  unfold bus_fields. rewrite !in_app_iff, in_flat_map. split.
  - intros [H|[(p & H & S)|[H|H]]]; [|  |now left|now right; left].
    + apply P in H as (root & n & fs & i & name & f & I & L & E & F & ->). right; right. exists root, n, fs, i, name, f. cbn [In]. auto 10.
    + apply P in H as (root & n & fs & i & name & f & I & L & E & F & ->). right; right. exists root, n, fs, i, name, f.
      do 4 (split; [assumption|]). right. apply in_map_iff in S as (s & <- & S). rewrite !A. cbn [In] in *.
      destruct S as [<-|[<-|[<-|[<-|[]]]]]; auto 10.
  - intros [H|[H|(root & n & fs & i & name & f & I & L & E & F & H)]]; [auto|auto|].
    assert (Q : In (name +++ "." +++ f) (pos_names b)) by (apply P; exists root, n, fs, i, name, f; auto).
    destruct H as [<-|H]; [now left|]. right. left. exists (name +++ "." +++ f). split; [exact Q|]. cbn [map In]. rewrite !A. cbn [In] in H.
    destruct H as [<-|[<-|[<-|[<-|[]]]]]; auto 10.
Qed.
Print Assumptions C83_busses.

Definition b0 : blocks_data := [("PCAP", (1, [("ENABLE", "bit_mux")])); ("INENC", (2, [("VAL", "pos_out"); ("CLK", "param")]))].
Example C83_ex : plain b0 /\ all_names b0 = ["PCAP"; "INENC1"; "INENC2"]
  /\ handle b0 [("PCAP.ENABLE", "ZERO"); ("*METADATA.LABEL_PCAP1", "Mine"); ("INENC2.CLK", "3"); ("*METADATA.LABEL_INENC2", "Two"); ("INENC2.CLK", "4")]
     = ([("PCAP", [("ENABLE", "ZERO")]); ("PCAP", [("LABEL", "Mine")]); ("INENC2", [("CLK", "4"); ("LABEL", "Two")])], true)
  /\ bus_fields b0 ["PCAP.ACTIVE"] [] = ["INENC1.VAL"; "INENC2.VAL"; "INENC1.VAL.CAPTURE"; "INENC1.VAL.UNITS"; "INENC1.VAL.SCALE"; "INENC1.VAL.OFFSET";
      "INENC2.VAL.CAPTURE"; "INENC2.VAL.UNITS"; "INENC2.VAL.SCALE"; "INENC2.VAL.OFFSET"; "PCAP.ACTIVE"]
  /\ handle b0 [("INENC3.CLK", "4"); ("PCAP.ENABLE", "ONE")] = ([], false).
Proof.
  split; [|repeat split; vm_compute; reflexivity]. split.
  - repeat constructor; cbn; intuition discriminate.
  - intros root [<-|[<-|[]]]; right; [exists "PCA", "P"%char|exists "INEN", "C"%char]; (split; [reflexivity|]; vm_compute; intuition discriminate).
Qed.

(* Where a root ends in a digit, a label can reach another block. *)
Theorem C83_digit_refuted : exists b k name, NoDup (dkeys b) /\ NoDup (all_names b) /\ known_as b k name
  /\ dget k (controllers b) <> Some name.
Proof.
  exists [("A", (1, [])); ("A1", (1, []))], "A1", "A". split; [repeat constructor; cbn; intuition discriminate|].
  split; [vm_compute; repeat constructor; cbn; intuition discriminate|]. split; [|vm_compute; discriminate].
  exists "A", 1. split; [|right; reflexivity]. exists 1, []. cbn. auto.
Qed.
Print Assumptions C83_digit_refuted.
