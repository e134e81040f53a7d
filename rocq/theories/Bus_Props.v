(* C49: the PandA bus tables show, row by row, what the device last reported or the user
   last asked for, and positions are shown scaled *)
From Coq Require Import String Ascii Bool ZArith QArith Lia List.
From Verif Require Import Base Bus_Model Bus_Spec Bus_Proofs.
Import ListNotations.
Local Open Scope nat_scope.
Local Open Scope list_scope.

(* ---- the example device: one capture word with two bits (and an empty slot), two
   positions ---- *)
Definition ex_pcap : dict (list string) := [("PCAP.BITS0.CAPTURE", ["TTLIN1.VAL"; ""; "TTLIN2.VAL"])]%string.
Definition ex_pos : list string := ["INENC1.VAL"; "COUNTER1.OUT"]%string.
Definition ex_b : busses := create_busses true ex_pcap ex_pos.

Lemma ex_hardware : hardware ex_pcap ex_pos.
Proof.
  assert (D : forall n k, In n ex_pos -> pos_key n k ->
    In k (ex_pos ++ flat_map (fun n => map (fun f => field_key n f) [Capture; Scale; Offset; Units]) ex_pos)).
  { intros n k [<-|[<-|[]]] [->|[[] ->]]; cbn; auto 20. }
  constructor.
  - repeat constructor; simpl; intuition discriminate.
  - intros n [<-|[<-|[]]]; reflexivity.
  - repeat constructor; simpl; tauto.
  - repeat constructor; simpl; intuition discriminate.
  - intros n k H K. apply (D n k H) in K. cbn in K |- *. intuition (subst; discriminate).
  - intros n k H K. apply (D n k H) in K. cbn in K |- *. intuition (subst; discriminate).
  - intros k H. cbn in H |- *. intuition (subst; discriminate).
Qed.

Definition txt (s : string) : value := VText (mkText s None None).
Definition tint (s : string) (z : Z) : value := VText (mkText s (Some z) (Some (inject_Z z))).
Definition tnum (s : string) (q : Q) : value := VText (mkText s None (Some q)).

(* a request for the first position: scale 1/2, captured *)
Definition ex_want : table :=
  [("name", [CS "INENC1.VAL"]); ("value", [CN 0]); ("units", [CS "mm"]); ("scale", [CN (1 # 2)]);
   ("offset", [CN 3]); ("capture", [CS "Value"]); ("datasetName", [CS "x"]);
   ("datasetType", [CS "position"])]%string.

Definition ex_last : list (string * value) :=
  [("INENC1.VAL.OFFSET", tint "3" 3); ("INENC1.VAL.SCALE", tnum "0.5" (1 # 2))]%string.
Definition ex_run : list bop :=
  [Report [("INENC1.VAL", tint "10" 10); ("TTLIN1.VAL", VBit true); ("INENC1.VAL.SCALE", tnum "0.1" (1 # 10));
           ("PCAP.BITS0.CAPTURE", txt "Value")];
   SetPositions ex_want None;
   Report ex_last]%string.

(* ---- the columns ---- *)

(* Every row keeps its name, and each of the four fields of a position shows the last
   report or request for it. *)
Theorem C49_fields : forall ds pcap pos l b, hardware pcap pos -> Forall op_wf l ->
  brun (create_busses ds pcap pos) l = (b, true) ->
  forall i n, nth_error pos i = Some n ->
    at_ (positions b) "name" i = Some (CS n) /\
    forall f, exists c, at_ (positions b) (column f) i = Some c /\ same c (field_after n f l).
Proof.
  intros ds pcap pos l b HW W H i n Hn. split.
  - assert (T := run_tables_ok ds pcap pos HW l b W H). unfold at_.
    rewrite (tk_pname _ _ _ _ T), nth_error_map, Hn. reflexivity.
  - destruct (run_pos_row ds pcap pos HW l b i n W Hn H) as (_ & R & _). exact R.
Qed.

(* The value of a position is the counts last reported, scaled and offset as the table
   says, whatever the order of the changes in a batch, once the device has been heard
   since the last request which rescaled it. *)
Theorem C49_scaled : forall ds pcap pos l b, hardware pcap pos -> Forall op_wf l ->
  brun (create_busses ds pcap pos) l = (b, true) ->
  forall i n, nth_error pos i = Some n -> heard n l ->
  exists v, at_ (positions b) "value" i = Some (CN v) /\
    forall s o, field_after n Scale l = CN s -> field_after n Offset l = CN o ->
      (v == inject_Z (counts_after n l) * s + o)%Q.
Proof.
  intros ds pcap pos l b HW W H i n Hn Hh.
  destruct (run_pos_row ds pcap pos HW l b i n W Hn H) as (_ & R & v & R1 & R2).
  exists v. split; [exact R1|]. intros s o Hs Ho.
  destruct (R Scale) as (c & C1 & C2). rewrite Hs in C2.
  destruct c as [x|s'|x]; try discriminate C2.
  destruct (R Offset) as (d & D1 & D2). rewrite Ho in D2.
  destruct d as [x|o'|x]; try discriminate D2.
  cbn [column same] in C1, C2, D1, D2. rewrite (R2 Hh s' o' C1 D1), C2, D2. reflexivity.
Qed.

Example C49_ex : let '(b, ok) := brun ex_b ex_run in
  ok = true /\ at_ (positions b) "value" 0 = Some (CN (10 * (1 # 2) + 3)) /\
  at_ (positions b) "units" 0 = Some (CS "mm") /\ at_ (positions b) "capture" 0 = Some (CS "Value") /\
  at_ (bits b) "value" 0 = Some (CB true) /\ at_ (bits b) "capture" 1 = Some (CB true) /\
  at_ (positions b) "value" 1 = Some (CN 0).
Proof. vm_compute. repeat split. Qed.

Example C49_ex_heard : heard "INENC1.VAL" ex_run /\ Forall op_wf ex_run.
Proof.
  split.
  - exact (heard_report "INENC1.VAL" (firstn 2 ex_run) ex_last eq_refl).
  - repeat constructor; simpl; tauto.
Qed.

Example C49_ex_spec : counts_after "INENC1.VAL" ex_run = 10%Z /\
  field_after "INENC1.VAL" Scale ex_run = CN (1 # 2) /\
  field_after "INENC1.VAL" Offset ex_run = CN 3 /\
  field_after "INENC1.VAL" Units ex_run = CS "mm".
Proof. vm_compute. repeat split. Qed.

(* Until then the table shows the new scale beside the value by the old one. *)
Theorem C49_stale_value_refuted : exists l b v s o,
  Forall op_wf l /\ brun ex_b l = (b, true) /\
  at_ (positions b) "value" 0 = Some (CN v) /\ at_ (positions b) "scale" 0 = Some (CN s) /\
  at_ (positions b) "offset" 0 = Some (CN o) /\
  ~ (v == inject_Z (counts_after "INENC1.VAL" l) * s + o)%Q.
Proof.
  exists (firstn 2 ex_run). eexists. exists (10 * (1 # 10) + 0)%Q, (1 # 2)%Q, 3%Q.
  split; [repeat constructor; simpl; tauto|].
  split; [vm_compute; reflexivity|].
  split; [reflexivity|]. split; [reflexivity|]. split; [reflexivity|].
  vm_compute. discriminate.
Qed.

(* Each bit shows the value last reported for it, and its capture box the last report of
   its word or request for it. *)
Theorem C49_bits : forall ds pcap pos l b, hardware pcap pos -> Forall op_wf l ->
  brun (create_busses ds pcap pos) l = (b, true) ->
  forall i w n, nth_error (flat pcap) i = Some (w, n) ->
    at_ (bits b) "name" i = Some (CS n) /\
    at_ (bits b) "value" i = Some (bit_after n l) /\
    exists c, at_ (bits b) "capture" i = Some c /\ same c (capture_after n w l).
Proof.
  intros ds pcap pos l b HW W H i w n Hn. split.
  - assert (T := run_tables_ok ds pcap pos HW l b W H). unfold at_.
    rewrite (tk_bname _ _ _ _ T), !nth_error_map, Hn. reflexivity.
  - exact (run_bit_row ds pcap pos HW l b i w n W Hn H).
Qed.

Example C49_ex_bits : nth_error (flat ex_pcap) 1 = Some ("PCAP.BITS0.CAPTURE", "TTLIN2.VAL")%string /\
  bit_after "TTLIN1.VAL" ex_run = CB true /\
  capture_after "TTLIN2.VAL" "PCAP.BITS0.CAPTURE" ex_run = CB true.
Proof. vm_compute. repeat split. Qed.

(* A report or request which raises leaves both tables as they were. *)
Theorem C49_failed : forall b o b' s e, bstep b o = (b', s, Some e) ->
  bits b' = bits b /\ positions b' = positions b.
Proof.
  intros b o b' s e H. destruct o as [ch|t r|t r]; cbn [bstep] in H.
  - unfold handle_changes in H.
    destruct (handle_each b ch ([], [], pos_values b)) as [[[bc pc]|e'] vals]; [discriminate|].
    injection H as <- _ _. auto.
  - unfold set_bits in H. destruct (get_column_changes (bits b) t) as [chg|];
      [|injection H as <- _ _; auto].
    destruct (dget "capture" chg) as [c|]; [|discriminate].
    destruct (capture_fields b c (names t) []) as [fv|]; [|injection H as <- _ _; auto].
    destruct r; [|discriminate]. injection H as <- _ _. auto.
  - unfold set_positions in H. destruct (get_column_changes (positions b) t) as [chg|];
      [|injection H as <- _ _; auto].
    destruct (send_columns (names (positions b)) chg r attrs []) as [sent [e'|]]; [|discriminate].
    injection H as <- _ _. auto.
Qed.

Example C49_ex_failed :
  snd (bstep ex_b (Report [("INENC1.VAL", tint "7" 7); ("NOSUCH.FIELD", txt "1")]%string)) = Some Unknown /\
  snd (bstep ex_b (SetPositions ex_want (Some 1))) = Some Refused.
Proof. vm_compute. auto. Qed.

(* ---- what is sent ---- *)

Lemma position_fields_spec : forall f ns column fv0 fv,
  position_fields (suffix f) ns column fv0 = Ok fv -> NoDup ns ->
  (forall i n, nth_error ns i = Some n -> dget (field_key n f) fv = nth_error column i) /\
  (forall k c, dget k fv = Some c -> dget k fv0 = Some c \/
     exists i n, nth_error ns i = Some n /\ k = field_key n f /\ nth_error column i = Some c) /\
  (forall k, (forall n, In n ns -> k <> field_key n f) -> dget k fv = dget k fv0).
Proof.
  intros f ns; induction ns as [|m r IH]; intros column fv0 fv H N; cbn [position_fields] in H.
  - injection H as <-. split; [|split; auto]. intros [|i] n Hn; discriminate.
  - destruct column as [|c col]; [discriminate|].
    inversion N as [|? ? N1 N2]; subst.
    destruct (IH _ _ _ H N2) as (I1 & I2 & I3). split; [|split].
    + intros [|i] n Hn; cbn [nth_error] in Hn |- *; [|auto].
      injection Hn as ->. rewrite I3.
      * apply dget_dset_same.
      * intros n' Hn' E. apply dotted_inj in E. destruct E as [-> _]. auto.
    + intros k x Hk. apply I2 in Hk. destruct Hk as [Hk|(i & n & A1 & A2 & A3)].
      * rewrite dget_dset, dotted_key in Hk. destruct (String.eqb k (field_key m f)) eqn:E; [|auto].
        apply String.eqb_eq in E. right. exists 0, m. cbn. split; [auto|]. split; [auto|congruence].
      * right. exists (S i), n. auto.
    + intros k Hk. rewrite I3.
      * apply dget_dset_other. intro E. symmetry in E. revert E. apply Hk. left; auto.
      * intros n Hn. apply Hk. right; auto.
Qed.

Lemma send_columns_spec : forall ns chg r l sent0 sent,
  send_columns ns chg r l sent0 = (sent, None) ->
  incl sent0 sent /\
  (forall a s col, In (a, s) l -> dget a chg = Some col ->
     exists fv, position_fields s ns col [] = Ok fv /\ In fv sent) /\
  (forall fv, In fv sent -> In fv sent0 \/ exists a s col, In (a, s) l /\
     dget a chg = Some col /\ position_fields s ns col [] = Ok fv).
Proof.
  intros ns chg r l; induction l as [|[a s] l IH]; intros sent0 sent H; cbn [send_columns] in H.
  - injection H as <-. split; [apply incl_refl|]. split; [intros a s col []|auto].
  - destruct (dget a chg) as [col|] eqn:E.
    + destruct (position_fields s ns col []) as [fv|] eqn:P; [|discriminate].
      destruct (match r with Some n => Nat.eqb n (length sent0) | None => false end); [discriminate|].
      destruct (IH _ _ H) as (I1 & I2 & I3). split; [|split].
      * intros x Hx. apply I1. apply in_or_app. auto.
      * intros a' s' col' [X|X] Hc.
        -- injection X as <- <-. exists fv. split; [congruence|]. apply I1. apply in_or_app.
           right; left; auto.
        -- eapply I2; eauto.
      * intros fv' Hf. apply I3 in Hf. destruct Hf as [Hf|(a' & s' & col' & A & B & C)].
        -- apply in_app_or in Hf. destruct Hf as [Hf|[<-|[]]]; auto.
           right. exists a, s, col. split; [left; auto|auto].
        -- right. exists a', s', col'. split; [right; auto|auto].
    + destruct (IH _ _ H) as (I1 & I2 & I3). split; [exact I1|]. split.
      * intros a' s' col' [X|X] Hc; [|eapply I2; eauto]. injection X as <- <-. congruence.
      * intros fv' Hf. apply I3 in Hf. destruct Hf as [Hf|(a' & s' & col' & A & B & C)]; auto.
        right. exists a', s', col'. split; [right; auto|auto].
Qed.

Lemma attrs_spec : forall a s, In (a, s) attrs <-> exists f, a = column f /\ s = suffix f.
Proof.
  intros a s; unfold attrs; simpl; split.
  - intros [H|[H|[H|[H|[]]]]]; injection H as <- <-;
      [exists Capture|exists Scale|exists Offset|exists Units]; auto.
  - intros [[] [-> ->]]; simpl; auto.
Qed.

(* What a request for positions sends to the device is what the table shows after, and
   every field which changed is among it. *)
Theorem C49_sent : forall ds pcap pos l b t r b' sent, hardware pcap pos -> Forall op_wf l ->
  brun (create_busses ds pcap pos) l = (b, true) -> NoDup (names t) ->
  bstep b (SetPositions t r) = (b', sent, None) ->
  (forall fv k c, In fv sent -> dget k fv = Some c ->
     exists i n f, nth_error pos i = Some n /\ k = field_key n f /\
                   at_ (positions b') (column f) i = Some c) /\
  (forall i n f, nth_error pos i = Some n ->
     at_ (positions b') (column f) i <> at_ (positions b) (column f) i ->
     exists fv, In fv sent /\
       dget (field_key n f) fv = at_ (positions b') (column f) i).
Proof.
  intros ds pcap pos l b t r b' sent HW W H Nt B.
  assert (T := run_tables_ok ds pcap pos HW l b W H). cbn [bstep] in B.
  unfold set_positions in B.
  destruct (get_column_changes (positions b) t) as [chg|] eqn:G; [|discriminate].
  apply get_column_changes_spec in G.
  2:{ rewrite (tk_pkeys _ _ _ _ T). apply pkeys_nodup. }
  2:{ rewrite (names_of _ _ (tk_pname _ _ _ _ T)). apply (hw_pos _ _ HW). }
  2:{ exact Nt. }
  destruct G as (G1 & _ & _).
  destruct (send_columns (names (positions b)) chg r attrs []) as [sent' [e|]] eqn:S; [discriminate|].
  injection B as <- <-. cbn [positions with_tables].
  rewrite (names_of _ _ (tk_pname _ _ _ _ T)) in S.
  apply send_columns_spec in S. destruct S as (_ & S1 & S2). split.
  - intros fv k c Hf Hk. apply S2 in Hf. destruct Hf as [[]|(a & s & col & A & Hc & P)].
    apply attrs_spec in A. destruct A as (f & -> & ->).
    apply position_fields_spec in P; [|apply (hw_pos _ _ HW)]. destruct P as (_ & P & _).
    apply P in Hk. destruct Hk as [Hk|(i & n & A1 & A2 & A3)]; [discriminate|].
    exists i, n, f. split; [auto|]. split; [auto|]. rewrite at_make_updated by exact G1.
    unfold cur. rewrite Hc. exact A3.
  - intros i n f Hn D. rewrite at_make_updated in D |- * by exact G1. unfold cur in D |- *.
    destruct (dget (column f) chg) as [col|] eqn:Hc; [|congruence].
    destruct (S1 (column f) (suffix f) col) as (fv & P & I).
    + apply attrs_spec. eauto.
    + exact Hc.
    + exists fv. split; [exact I|]. apply position_fields_spec in P; [|apply (hw_pos _ _ HW)].
      destruct P as (P & _). apply P. exact Hn.
Qed.

Example C49_ex_sent : exists b' sent, bstep ex_b (SetPositions ex_want None) = (b', sent, None) /\
  length sent = 4 /\
  exists fv, In fv sent /\ dget "INENC1.VAL.SCALE" fv = Some (CN (1 # 2)) /\
             dget "COUNTER1.OUT.SCALE" fv = Some (CN 1).
Proof.
  eexists. eexists. split; [vm_compute; reflexivity|]. split; [reflexivity|].
  eexists. split; [right; left; reflexivity|]. split; reflexivity.
Qed.

(* ---- the capture words ---- *)

Section Words.
Variables (ds : bool) (pcap : dict (list string)) (pos : list string) (b : busses).
Hypothesis HW : hardware pcap pos.
Hypothesis ST : static ds pcap pos b.

Definition lit (column : list cell) (w n : string) : Prop :=
  exists i, nth_error (flat pcap) i = Some (w, n) /\ nth_error column i = Some (CB true).
Definition of_word (w n : string) : Prop := exists i, nth_error (flat pcap) i = Some (w, n).

Lemma capture_fields_spec : forall column rows fv0 fv,
  capture_fields b column rows fv0 = Ok fv ->
  (forall w, (exists n, In n rows /\ lit column w n) -> dget w fv = Some (CS "Value")) /\
  (forall w, ~ (exists n, In n rows /\ lit column w n) -> (exists n, In n rows /\ of_word w n) ->
     dget w fv = match dget w fv0 with Some c => Some c | None => Some (CS "No") end) /\
  (forall w, ~ (exists n, In n rows /\ of_word w n) -> dget w fv = dget w fv0) /\
  (forall w, dget w fv0 = Some (CS "Value") -> dget w fv = Some (CS "Value")).
Proof.
  intros column rows; induction rows as [|n r IH]; intros fv0 fv H; cbn [capture_fields] in H.
  - injection H as <-. split; [|split; [|split]]; auto.
    + intros w [n [[] _]].
    + intros w _ [n [[] _]].
  - destruct (dget n (bit_indexes b)) as [i|] eqn:Ei; [|discriminate].
    destruct (nth_error column i) as [c|] eqn:Ec; [|discriminate].
    destruct (dget n (bit_pcap_fields b)) as [f|] eqn:Ef; [|discriminate].
    assert (B := bit_lookup_Some ds pcap pos b ST _ _ Ei). destruct B as [w0 B].
    rewrite (bit_field ds pcap pos b HW ST _ _ _ B) in Ef. injection Ef as ->.
    assert (Huniq : forall w j, nth_error (flat pcap) j = Some (w, n) -> w = f /\ j = i).
    { intros w j Hj. assert (j = i) by (eapply index_inj; eauto). subst j. split; congruence. }
    apply IH in H. clear IH. destruct H as (I1 & I2 & I3 & I4).
    assert (Hlit : forall w, lit column w n <-> (w = f /\ c = CB true)).
    { intro w. split.
      - intros (j & J1 & J2). destruct (Huniq _ _ J1) as [-> ->]. split; [auto|congruence].
      - intros [-> ->]. exists i. auto. }
    assert (Hof : forall w, of_word w n <-> w = f).
    { intro w. split; [intros [j J]; apply (Huniq _ _ J) | intros ->; exists i; auto]. }
    assert (Hc : (c = CB true) \/ (c <> CB true /\
       (match c with CB true => dset f (CS "Value") fv0
        | _ => if dmem f fv0 then fv0 else dset f (CS "No") fv0 end)
       = if dmem f fv0 then fv0 else dset f (CS "No") fv0)).
    { destruct c as [[]|q|s]; [left; auto| | |]; right; (split; [discriminate|reflexivity]). }
    destruct Hc as [->|[Hc Hfv]].
    + split; [|split; [|split]].
      * intros w (m & [<-|Hm] & L).
        -- apply Hlit in L. destruct L as [-> _]. apply I4. apply dget_dset_same.
        -- apply I1. eauto.
      * intros w NL (m & [<-|Hm] & O).
        -- apply Hof in O. subst w. exfalso. apply NL. exists n. split; [left; auto|].
           apply Hlit. auto.
        -- rewrite I2.
           ++ rewrite dget_dset_other; [reflexivity|]. intros <-. apply NL. exists n.
              split; [left; auto|]. apply Hlit. auto.
           ++ intros (m' & M1 & M2). apply NL. exists m'. split; [right; auto|auto].
           ++ eauto.
      * intros w NO. rewrite I3.
        -- apply dget_dset_other. intros <-. apply NO. exists n. split; [left; auto|].
           apply Hof. auto.
        -- intros (m' & M1 & M2). apply NO. exists m'. split; [right; auto|auto].
      * intros w Hw. apply I4. rewrite dget_dset. destruct (String.eqb w f); auto.
    + rewrite Hfv in *. clear Hfv.
      assert (Hd : forall w, dget w (if dmem f fv0 then fv0 else dset f (CS "No") fv0) =
        match dget w fv0 with Some x => Some x
        | None => if String.eqb w f then Some (CS "No") else None end).
      { intro w. destruct (dmem f fv0) eqn:M.
        - destruct (dget w fv0) eqn:D; [reflexivity|]. destruct (String.eqb w f) eqn:E; [|reflexivity].
          apply String.eqb_eq in E. subst w. unfold dmem in M. rewrite D in M. discriminate.
        - rewrite dget_dset. destruct (String.eqb w f) eqn:E.
          + apply String.eqb_eq in E. subst w. unfold dmem in M. destruct (dget f fv0); [discriminate|].
            reflexivity.
          + destruct (dget w fv0); reflexivity. }
      split; [|split; [|split]].
      * intros w (m & [<-|Hm] & L).
        -- apply Hlit in L. tauto.
        -- apply I1. eauto.
      * intros w NL (m & Hm & O).
        assert (NL' : ~ (exists n0, In n0 r /\ lit column w n0)).
        { intros (m' & M1 & M2). apply NL. exists m'. split; [right; auto|auto]. }
        destruct (String.eqb w f) eqn:E.
        -- apply String.eqb_eq in E. subst w.
           assert (Hf := Hd f). rewrite String.eqb_refl in Hf.
           destruct (in_dec string_dec f (dkeys fv)) as [_|_].
           all: (destruct (existsb (fun m => match dget m (bit_pcap_fields b) with
                   Some x => String.eqb x f | None => false end) r) eqn:X).
           all: try (apply existsb_exists in X; destruct X as (m' & X1 & X2);
                destruct (dget m' (bit_pcap_fields b)) as [x|] eqn:X3; [|discriminate];
                apply String.eqb_eq in X2; subst x;
                assert (Y : of_word f m') by
                  (rewrite (static_fields ds pcap pos b ST) in X3;
                   apply fold_dset_Some in X3; destruct X3 as [X3|X3]; [|discriminate];
                   apply In_nth_error in X3; destruct X3 as [j X3]; exists j; exact X3);
                rewrite I2; [rewrite Hf; destruct (dget f fv0); reflexivity | exact NL' | eauto]).
           all: (rewrite I3; [rewrite Hf; destruct (dget f fv0); reflexivity|]).
           all: (intros (m' & M1 & [j M2]);
                assert (Z := bit_field ds pcap pos b HW ST _ _ _ M2);
                assert (existsb (fun m => match dget m (bit_pcap_fields b) with
                   Some x => String.eqb x f | None => false end) r = true) by
                  (apply existsb_exists; exists m'; split; [exact M1|]; rewrite Z;
                   apply String.eqb_refl); congruence).
        -- assert (Hw := Hd w). rewrite E in Hw.
           destruct Hm as [<-|Hm].
           ++ apply Hof in O. subst w. rewrite String.eqb_refl in E. discriminate.
           ++ rewrite I2; [|exact NL'|eauto]. rewrite Hw. destruct (dget w fv0); reflexivity.
      * intros w NO. rewrite I3.
        -- rewrite Hd. destruct (dget w fv0); [reflexivity|].
           destruct (String.eqb w f) eqn:E; [|reflexivity]. apply String.eqb_eq in E. subst w.
           exfalso. apply NO. exists n. split; [left; auto|]. apply Hof. auto.
        -- intros (m' & M1 & M2). apply NO. exists m'. split; [right; auto|auto].
      * intros w Hw. apply I4. rewrite Hd, Hw. reflexivity.
Qed.

End Words.

(* What a request for bits sends: a capture word is set to Value when a bit of it which
   the request names is captured in the table after, to No when it names bits of the word
   but none of these is captured, and is left alone otherwise. *)
Theorem C49_words : forall ds pcap pos l b t b' fv, hardware pcap pos -> Forall op_wf l ->
  brun (create_busses ds pcap pos) l = (b, true) -> NoDup (names t) ->
  bstep b (SetBits t false) = (b', [fv], None) ->
  let on w n := In n (names t) /\ exists i, nth_error (flat pcap) i = Some (w, n) /\
                  at_ (bits b') "capture" i = Some (CB true) in
  let named w n := In n (names t) /\ exists i, nth_error (flat pcap) i = Some (w, n) in
  forall w,
  ((exists n, on w n) -> dget w fv = Some (CS "Value")) /\
  (~ (exists n, on w n) -> (exists n, named w n) -> dget w fv = Some (CS "No")) /\
  (~ (exists n, named w n) -> dget w fv = None).
Proof.
  intros ds pcap pos l b t b' fv HW W H Nt B on named w.
  assert (T := run_tables_ok ds pcap pos HW l b W H).
  assert (ST := tk_static _ _ _ _ T). cbn [bstep] in B. unfold set_bits in B.
  destruct (get_column_changes (bits b) t) as [chg|] eqn:G; [|discriminate].
  apply get_column_changes_spec in G.
  2:{ rewrite (tk_bkeys _ _ _ _ T). apply bkeys_nodup. }
  2:{ rewrite (names_of _ _ (tk_bname _ _ _ _ T)). apply (hw_bits _ _ HW). }
  2:{ exact Nt. }
  destruct G as (G1 & _ & _).
  destruct (dget "capture" chg) as [col|] eqn:C; [|discriminate].
  destruct (capture_fields b col (names t) []) as [fv'|] eqn:F; [|discriminate].
  injection B as <- <-. cbn [bits with_tables] in on.
  apply (capture_fields_spec ds pcap pos b HW ST) in F. destruct F as (F1 & F2 & F3 & _).
  assert (On : forall n, on w n <-> In n (names t) /\ lit pcap col w n).
  { intro n. unfold on, lit. split; intros (A & i & I1 & I2); (split; [exact A|]); exists i;
      (split; [exact I1|]).
    - rewrite at_make_updated in I2 by exact G1. unfold cur in I2. rewrite C in I2. exact I2.
    - rewrite at_make_updated by exact G1. unfold cur. rewrite C. exact I2. }
  split; [|split].
  - intros [n Hn]. apply F1. exists n. now apply On.
  - intros NO (n & N1 & N2). rewrite F2; [reflexivity| |].
    + intros [m Hm]. apply NO. exists m. now apply On.
    + exists n. split; [exact N1 | exact N2].
  - intro NN. rewrite F3; [reflexivity|]. intros (m & M1 & M2). apply NN. exists m.
    split; [exact M1 | exact M2].
Qed.

(* a request for the capture of some bits *)
Definition want_bits (l : list (string * bool)) : table :=
  [("name", map (fun x => CS (fst x)) l); ("value", map (fun _ => CB false) l);
   ("capture", map (fun x => CB (snd x)) l); ("datasetName", map (fun _ => CS "") l);
   ("datasetType", map (fun _ => CS "monitor") l)]%string.

Example C49_ex_words :
  let '(b', sent, e) := bstep ex_b (SetBits (want_bits [("TTLIN1.VAL", false); ("TTLIN2.VAL", true)]%string) false) in
  sent = [[("PCAP.BITS0.CAPTURE"%string, CS "Value")]] /\ e = None /\
  at_ (bits b') "capture" 0 = Some (CB false) /\ at_ (bits b') "capture" 1 = Some (CB true).
Proof. vm_compute. repeat split. Qed.

(* Two bits of one word can not be captured apart, yet the table shows them so. *)
Theorem C49_word_shared_refuted : exists l b,
  Forall op_wf l /\ brun ex_b l = (b, true) /\
  at_ (bits b) "capture" 0 = Some (CB false) /\ at_ (bits b) "capture" 1 = Some (CB true).
Proof.
  exists [SetBits (want_bits [("TTLIN1.VAL", false); ("TTLIN2.VAL", true)]%string) false].
  eexists. split.
  - repeat constructor; simpl; intuition discriminate.
  - split; [vm_compute; reflexivity|]. split; reflexivity.
Qed.

(* A request which names only one bit of a word turns off the capture of the others,
   which the table goes on to show as captured. *)
Theorem C49_word_mates_refuted : exists l b t b' fv,
  Forall op_wf l /\ brun ex_b l = (b, true) /\ NoDup (names t) /\ ~ In "TTLIN2.VAL"%string (names t) /\
  bstep b (SetBits t false) = (b', [fv], None) /\
  dget "PCAP.BITS0.CAPTURE" fv = Some (CS "No") /\
  at_ (bits b') "capture" 1 = Some (CB true).
Proof.
  exists [Report [("PCAP.BITS0.CAPTURE", txt "Value")]%string]. eexists.
  exists (want_bits [("TTLIN1.VAL", false)]%string). eexists. eexists.
  split; [repeat constructor|]. split; [vm_compute; reflexivity|].
  split; [repeat constructor; simpl; tauto|]. split; [simpl; intuition discriminate|].
  split; [vm_compute; reflexivity|]. split; reflexivity.
Qed.

(* A row with an unknown name is passed over, with a warning, unless the same request
   changes the capture of a bit: then all of it is refused. *)
Theorem C49_unknown_row_refuted : exists t t',
  names t = names t' /\
  snd (bstep ex_b (SetBits t false)) = None /\ snd (bstep ex_b (SetBits t' false)) = Some NoKey.
Proof.
  exists (want_bits [("TTLIN1.VAL", false); ("OLD.BIT", true)]%string),
         (want_bits [("TTLIN1.VAL", true); ("OLD.BIT", true)]%string).
  vm_compute. auto.
Qed.

Print Assumptions C49_fields.
Print Assumptions C49_scaled.
Print Assumptions C49_stale_value_refuted.
Print Assumptions C49_bits.
Print Assumptions C49_failed.
Print Assumptions C49_sent.
Print Assumptions C49_words.
Print Assumptions C49_word_shared_refuted.
Print Assumptions C49_word_mates_refuted.
Print Assumptions C49_unknown_row_refuted.
