(* C32, C33, C34: PandA tables, client protocol and bit outputs *)
From Coq Require Import String Ascii Bool ZArith Lia List.
From Verif Require Import Base Panda_Model Panda_Spec Panda_Proofs.
Import ListNotations.
Local Open Scope list_scope.

(* ------------------------------------------------------------------ *)
(* C32: a table written to the PandA as 32-bit words reads back as itself, for every
   layout of disjoint fields and every table of values that fit. *)
Theorem C32_table_roundtrip : forall fs n t,
  layout_ok fs -> table_ok fs n t ->
  exists words,
    list_from_table fs t = Ok words
    /\ Forall (fun w => (0 <= w < 2 ^ 32)%Z) words
    /\ Z.of_nat (length words) = (Z.of_nat n * ints_per_row fs)%Z
    /\ table_from_list fs words = Ok t.
Proof. exact tables_roundtrip. Qed.
Print Assumptions C32_table_roundtrip.

Section ExC32.
Local Open Scope Z_scope.
Local Open Scope string_scope.
Let fs := [("REPEATS", mkTF 15 0 [] false); ("TRIGGER", mkTF 19 16 ["Immediate"; "BITA=0"; "BITA=1"] false);
           ("OUTA1", mkTF 20 20 [] false); ("POSITION", mkTF 63 32 [] true); ("TIME1", mkTF 95 64 [] false)].
Let t := [("REPEATS", [CInt 3; CInt 65535]); ("TRIGGER", [CStr "BITA=1"; CStr "Immediate"]);
          ("OUTA1", [CBool true; CBool false]); ("POSITION", [CInt (-5); CInt 7]);
          ("TIME1", [CInt 1; CInt 4294967295])].
(* a layout like SEQ.TABLE with a negative position *)
Example C32_ex_layout : layout_ok fs /\ table_ok fs 2 t.
Proof.
  split.
  - unfold layout_ok, fs. split; [discriminate|]. split.
    + repeat constructor; simpl; intuition discriminate.
    + split.
      * repeat apply Forall_cons; try apply Forall_nil; unfold field_ok; cbn;
          (split; [lia|split; [reflexivity|split; [|lia]]]);
          repeat constructor; simpl; intuition discriminate.
      * split; [|vm_compute; discriminate].
        repeat constructor; unfold disjoint; cbn; lia.
  - unfold table_ok, fs, t. repeat apply Forall2_cons; try apply Forall2_nil;
      (split; [reflexivity|split; [reflexivity|]]);
      repeat apply Forall_cons; try apply Forall_nil; unfold fits; cbn;
      try (repeat split; lia); intuition.
Qed.
Example C32_ex_words :
  list_from_table fs t = Ok [1179651; 4294967291; 1; 65535; 7; 4294967295].
Proof. vm_compute. reflexivity. Qed.
End ExC32.

(* Outside the hypotheses: a signed field of 12 bits loses the sign, *)
Theorem C32_signed_narrow_refuted :
  exists fs t words t', list_from_table fs t = Ok words /\ table_from_list fs words = Ok t'
    /\ t = [("P", [CInt (-1)])]%string /\ t' = [("P", [CInt 4095])]%string.
Proof.
  exists [("P", mkTF 11 0 [] true)]%string, [("P", [CInt (-1)])]%string. eexists. eexists.
  repeat split; vm_compute; reflexivity.
Qed.
Print Assumptions C32_signed_narrow_refuted.

(* and a table whose top bit is the first of a word cannot be written at all. *)
Theorem C32_top_bit_32_refuted :
  exists fs t, Forall (fun nf => field_ok (snd nf)) fs /\ table_ok fs 1 t
    /\ list_from_table fs t = Err NoIndex.
Proof.
  exists [("A", mkTF 31 0 [] false); ("B", mkTF 32 32 [] false)]%string,
         [("A", [CInt 1]); ("B", [CBool true])]%string.
  split; [|split; [|vm_compute; reflexivity]].
  - repeat apply Forall_cons; try apply Forall_nil; unfold field_ok; cbn;
      (split; [lia|split; [reflexivity|split; [constructor|lia]]]).
  - repeat apply Forall2_cons; try apply Forall2_nil;
      (split; [reflexivity|split; [reflexivity|]]);
      repeat apply Forall_cons; try apply Forall_nil; unfold fits; cbn; repeat split; lia.
Qed.
Print Assumptions C32_top_bit_32_refuted.

(* ------------------------------------------------------------------ *)
(* C33: however the bytes are cut into packets (between characters) and however requests interleave with
   them, the i-th answer in the stream goes to the i-th request sent.  While the receive
   thread runs all complete answers have been delivered. *)
Theorem C33_answers_in_order : forall es, packets_ok es ->
  let a := answers None (lines_of [] (stream es)) in
  (exists n, c_got (crun es) = firstn n (combine (sent es) a))
  /\ (c_alive (crun es) = true ->
      c_got (crun es) = combine (sent es) a /\ length a <= length (sent es)
      /\ c_waiting (crun es) = skipn (length a) (sent es)).
Proof.
  intros es H. cbv zeta. split; [apply client_prefix; exact H|apply client_alive; exact H].
Qed.
Print Assumptions C33_answers_in_order.

(* The receive thread does not die as long as the server answers well-formed lines and
   never more answers than requests. *)
Theorem C33_stays_alive : forall es, packets_ok es ->
  well_formed false (lines_of [] (stream es)) = true ->
  (forall e1 e2, es = e1 ++ e2 -> length (answers None (lines_of [] (stream e1))) <= length (sent e1)) ->
  c_alive (crun es) = true.
Proof. intros es H1 H2 H3. apply (client_stays_alive es H1 H2 H3). Qed.
Print Assumptions C33_stays_alive.

(* Cutting the same bytes differently gives the same answers. *)
Theorem C33_packets_do_not_matter : forall ids p1 p2,
  Forall (fun b => b <> [] /\ text b) p1 -> Forall (fun b => b <> [] /\ text b) p2 ->
  concat p1 = concat p2 ->
  well_formed false (lines_of [] (concat p1)) = true ->
  length (answers None (lines_of [] (concat p1))) <= length ids ->
  c_got (crun (map Send ids ++ map Packet p1)) = c_got (crun (map Send ids ++ map Packet p2)).
Proof.
  assert (Hs : forall ids p, stream (map Send ids ++ map Packet p) = concat p).
  { intros ids p. unfold stream. rewrite flat_map_app.
    replace (flat_map _ (map Send ids)) with (@nil ascii) by (induction ids; simpl; auto).
    simpl. induction p; simpl; congruence. }
  assert (Hi : forall ids p, sent (map Send ids ++ map Packet p) = ids).
  { intros ids p. unfold sent. rewrite flat_map_app.
    replace (flat_map _ (map Packet p)) with (@nil nat) by (induction p; simpl; auto).
    rewrite app_nil_r. induction ids; simpl; congruence. }
  assert (G : forall ids p, Forall (fun b => b <> [] /\ text b) p ->
     well_formed false (lines_of [] (concat p)) = true ->
     length (answers None (lines_of [] (concat p))) <= length ids ->
     c_got (crun (map Send ids ++ map Packet p)) = combine ids (answers None (lines_of [] (concat p)))).
  { intros ids p Hp Hw Hl.
    assert (Hpk : packets_ok (map Send ids ++ map Packet p)).
    { apply Forall_app. split; apply Forall_map; [apply Forall_forall; auto|exact Hp]. }
    destruct (client_alive _ Hpk) as (E & _).
    - apply client_stays_alive; [exact Hpk|rewrite Hs; exact Hw|].
      intros e1 e2 E.
      (* requests come first, so a prefix with any bytes has all the requests *)
      assert (P : stream e1 = [] \/ (sent e1 = ids /\ exists b, concat p = stream e1 ++ b)).
      { destruct (Nat.le_gt_cases (length e1) (length ids)) as [Hle|Hgt].
        - left. assert (E1 : e1 = firstn (length e1) (map Send ids)).
          { transitivity (firstn (length e1) (e1 ++ e2)).
            - rewrite firstn_app, Nat.sub_diag, firstn_all. simpl. rewrite app_nil_r. reflexivity.
            - rewrite <- E, firstn_app. replace (length e1 - length (map Send ids)) with 0
                by (rewrite map_length; lia). simpl. rewrite app_nil_r. reflexivity. }
          rewrite E1, firstn_map. induction (firstn (length e1) ids); simpl; auto.
        - right. assert (E1 : e1 = map Send ids ++ map Packet (firstn (length e1 - length ids) p)).
          { transitivity (firstn (length e1) (e1 ++ e2)).
            - rewrite firstn_app, Nat.sub_diag, firstn_all. simpl. rewrite app_nil_r. reflexivity.
            - rewrite <- E, firstn_app, map_length, firstn_map.
              rewrite (firstn_all2 ids) by lia. rewrite firstn_map. reflexivity. }
          rewrite E1, Hi, Hs. split; [reflexivity|].
          exists (concat (skipn (length e1 - length ids) p)).
          rewrite <- concat_app, firstn_skipn. reflexivity. }
      destruct P as [-> | [-> [b Eb]]]; [simpl; lia|].
      rewrite Eb in Hl. rewrite lines_of_app in Hl.
      (* fewer lines, fewer answers *)
      assert (M : forall L r acc, length (answers acc L) <= length (answers acc (L ++ r))).
      { induction L as [|l L IHL]; intros r acc; [simpl; lia|]. simpl.
        destruct (starts_err l); [simpl; specialize (IHL r None); lia|].
        destruct acc as [g|].
        - destruct (ends_multi l); [simpl; specialize (IHL r None); lia|].
          destruct (starts_bang l); [apply IHL|simpl; lia].
        - destruct (ends_multi l); [simpl; specialize (IHL r None); lia|].
          destruct (starts_bang l); [apply IHL|simpl; specialize (IHL r None); lia]. }
      etransitivity; [apply M|exact Hl].
    - rewrite Hs, Hi in E. exact E. }
  intros ids p1 p2 H1 H2 E Hw Hl. rewrite (G ids p1 H1 Hw Hl).
  rewrite E in *. rewrite (G ids p2 H2 Hw Hl). reflexivity.
Qed.
Print Assumptions C33_packets_do_not_matter.

Section ExC33.
Local Open Scope string_scope.
Let b := list_ascii_of_string.
Let nl := String "010"%char EmptyString.
Let es := [Send 1; Send 2; Packet (b "OK ="); Send 3; Packet (b ("7" ++ nl ++ "!µA"));
           Packet (b (nl ++ "!B" ++ nl ++ "." ++ nl ++ "ERR no")); Packet (b nl)].
Example C33_ex : packets_ok es /\ c_alive (crun es) = true /\
  c_got (crun es) = [(1, RLine (b "OK =7")); (2, RMulti [b "µA"; b "B"]); (3, RErr (b "ERR no"))].
Proof.
  split; [|split; vm_compute; reflexivity].
  unfold packets_ok, es. repeat (apply Forall_cons; [first [exact I | split; [vm_compute; discriminate|]]|]); try apply Forall_nil.
  all: match goal with |- text ?x => let y := eval vm_compute in x in change (text y) end.
  all: repeat (first [apply text_nil | apply text_1; [vm_compute; lia|]
                     | apply text_2; [vm_compute; lia|vm_compute; lia|]]).
Qed.
(* the hypotheses of C33_stays_alive are met too *)
Example C33_ex_alive : well_formed false (lines_of [] (stream es)) = true /\
  (forall e1 e2, es = (e1 ++ e2)%list -> length (answers None (lines_of [] (stream e1))) <= length (sent e1)).
Proof.
  split; [vm_compute; reflexivity|].
  intros e1 e2 E. assert (E1 : e1 = firstn (length e1) es).
  { rewrite E, firstn_app, Nat.sub_diag, firstn_all. simpl. rewrite app_nil_r. reflexivity. }
  rewrite E1. destruct (length e1) as [|[|[|[|[|[|[|n]]]]]]]; try (vm_compute; lia).
  rewrite firstn_all2 by (simpl; lia). vm_compute. lia.
Qed.
(* and those of C33_packets_do_not_matter *)
Example C33_ex_packets :
  c_got (crun (map Send [5] ++ map Packet [b ("!x" ++ nl ++ "." ++ nl)%string])%list) = [(5, RMulti [b "x"])] /\
  c_got (crun (map Send [5] ++ map Packet [b "!"; b ("x" ++ nl)%string; b "."; b nl])%list) = [(5, RMulti [b "x"])].
Proof. split; vm_compute; reflexivity. Qed.
End ExC33.

(* A packet that is not whole characters, or the empty one of a closed connection, ends the receive thread, and
   nothing that comes after it is answered. *)
Theorem C33_undecodable_ends : forall es b rest, ~ text b \/ b = [] ->
  c_alive (crun (es ++ [Packet b])) = false
  /\ c_got (crun (es ++ [Packet b] ++ rest)) = c_got (crun es).
Proof.
  intros es b rest H.
  assert (K : c_alive (recv_packet (crun es) b) = false /\ c_got (recv_packet (crun es) b) = c_got (crun es)).
  { unfold recv_packet. destruct (c_alive (crun es)) eqn:A; cbn [negb]; [|split; [exact A|reflexivity]].
    destruct (utf8_ok (length b) b) eqn:U; cbn [negb]; [|split; reflexivity].
    destruct H as [H| ->]; [|split; reflexivity].
    exfalso. apply H. apply (utf8_text (length b)); [lia|exact U]. }
  assert (D : forall l c, c_alive c = false -> c_got (fold_left cstep l c) = c_got c).
  { induction l as [|e l IH]; intros c Hc; [reflexivity|]. cbn [fold_left].
    destruct e as [i|p].
    - rewrite IH by exact Hc. reflexivity.
    - cbn [cstep]. unfold recv_packet. rewrite Hc. cbn [negb]. apply IH. exact Hc. }
  destruct K as [K1 K2]. unfold crun in *. rewrite !fold_left_app. cbn [fold_left cstep].
  split; [exact K1|]. rewrite D by exact K1. exact K2.
Qed.
Print Assumptions C33_undecodable_ends.
(* a lead byte followed by another one *)
Example C33_ex_undecodable : ~ text ["194"%char; "195"%char; "010"%char] /\
  c_alive (crun [Send 1; Packet ["194"%char; "195"%char; "010"%char]]) = false.
Proof.
  split; [|vm_compute; reflexivity]. intros H.
  inversion H as [|c b Hc Hb E|c c1 b Hc H1 Hb E|c c1 c2 b Hc H1 H2 Hb E|]; subst.
  - vm_compute in Hc. lia.
  - unfold is_cont in H1. vm_compute in H1. lia.
  - vm_compute in Hc. lia.
Qed.

(* Packets must hold whole characters: each packet is decoded on its own, so a
   character cut in two kills the receive thread.  The bytes are "µ" = C2 B5. *)
Theorem C33_split_character_refuted :
  exists ids p1 p2, concat p1 = concat p2
    /\ c_alive (crun (map Send ids ++ map Packet p1)) = true
    /\ length (c_got (crun (map Send ids ++ map Packet p1))) = 1
    /\ c_alive (crun (map Send ids ++ map Packet p2)) = false
    /\ c_got (crun (map Send ids ++ map Packet p2)) = [].
Proof.
  exists [0], [["194"%char; "181"%char; "010"%char]], [["194"%char]; ["181"%char; "010"%char]].
  repeat split; vm_compute; reflexivity.
Qed.
Print Assumptions C33_split_character_refuted.

(* ------------------------------------------------------------------ *)
(* C34: after any history with at most one report of each bit per poll, one further
   quiet poll shows the last reported value of every bit, and nothing is pending. *)
Theorem C34_settles : forall names h k v,
  In k names -> Forall one_report_each h -> last_report k h = Some v ->
  let s := polls names (h ++ [[]]) in
  dget k (bo_shown s) = Some v /\ dget k (bo_outs s) = Some v /\ dget k (bo_changes s) = None.
Proof.
  intros names h k v Hk Hf Hv. cbv zeta.
  destruct (polls_inv k names h Hk Hf) as (I1 & I2 & I3).
  unfold polls in *. rewrite fold_left_app. cbn [fold_left].
  set (s := fold_left bo_poll h (bo_init names)) in *.
  destruct (poll_inv k s [] I1 (NoDup_nil _) I2) as ((J1 & _) & _ & J3).
  destruct (J3 eq_refl) as [V C]. rewrite (I3 v Hv) in V. unfold bo_value in V. rewrite C in V.
  rewrite J1, V, C. auto.
Qed.
Print Assumptions C34_settles.

(* No pulse is missed: every poll that reports a bit, even with the value it already
   shows, changes what is shown. *)
Theorem C34_every_report_visible : forall names h poll k,
  In k names -> Forall one_report_each (h ++ [poll]) -> In k (map fst poll) ->
  exists b, dget k (bo_shown (polls names h)) = Some b
    /\ dget k (bo_shown (polls names (h ++ [poll]))) = Some (negb b).
Proof.
  intros names h poll k Hk Hf Hin. rewrite Forall_app in Hf. destruct Hf as [Hf Hp].
  inversion Hp as [|? ? Hp1 _]; subst.
  destruct (polls_inv k names h Hk Hf) as (I1 & I2 & I3).
  unfold polls in *. rewrite fold_left_app. cbn [fold_left].
  set (s := fold_left bo_poll h (bo_init names)) in *.
  destruct (poll_report k poll) as [v|] eqn:E.
  - destruct (poll_inv k s poll I1 Hp1 I2) as (_ & J2 & _). apply (J2 v E).
  - exfalso. clear - Hin E. induction poll as [|[j w] poll IH]; [destruct Hin|].
    unfold poll_report in E. simpl in E. rewrite report_acc in E.
    destruct (poll_report k poll) eqn:E1; [discriminate|].
    destruct (String.eqb_spec k j); [discriminate|]. simpl in Hin. destruct Hin; [congruence|]. auto.
Qed.
Print Assumptions C34_every_report_visible.

Section ExC34.
Local Open Scope string_scope.
Let h := [[("A", true); ("B", true)]; [("A", true)]; [("A", false); ("B", false)]].
Example C34_ex : Forall one_report_each h /\ last_report "A" h = Some false /\
  map (fun n => dget "A" (bo_shown (polls ["A"; "B"] (firstn n (h ++ [[]])%list)))) [1; 2; 3; 4]
  = [Some true; Some false; Some true; Some false].
Proof.
  split; [|split; vm_compute; reflexivity].
  unfold h, one_report_each. repeat constructor; simpl; intuition discriminate.
Qed.
End ExC34.

(* Two reports of the same bit in one poll can leave it wrong for ever: if True was
   pending and False then True are reported, the bit settles at False. *)
Theorem C34_two_reports_refuted :
  exists names h k v, In k names /\ last_report k h = Some v
    /\ forall n, dget k (bo_shown (polls names (h ++ repeat [] (S n)))) = Some (negb v).
Proof.
  exists ["A"]%string, [[("A", true)]; [("A", true)]; [("A", false); ("A", true)]]%string,
    "A"%string, true.
  split; [left; reflexivity|]. split; [reflexivity|].
  intros n. induction n as [|n IH]; [vm_compute; reflexivity|].
  assert (G : forall m, polls ["A"]%string
      ([[("A", true)]; [("A", true)]; [("A", false); ("A", true)]]%string ++ repeat [] (S m))
      = mkBO [("A"%string, false)] [] [("A"%string, false)]).
  { clear. intros m. replace (repeat [] (S m)) with (repeat (@nil (string * bool)) m ++ [[]]).
    - unfold polls. rewrite fold_left_app, fold_left_app.
      set (s0 := fold_left bo_poll _ (bo_init ["A"]%string)). vm_compute in s0.
      induction m as [|m IH]; [vm_compute; reflexivity|].
      replace (repeat [] (S m)) with (repeat (@nil (string * bool)) m ++ [[]])
        by (symmetry; apply repeat_cons).
      rewrite fold_left_app. rewrite IH. reflexivity.
    - symmetry. apply repeat_cons. }
  rewrite G. reflexivity.
Qed.
Print Assumptions C34_two_reports_refuted.
