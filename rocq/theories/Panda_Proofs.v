(* Proofs for C32, C33, C34 *)
From Coq Require Import String Ascii Bool ZArith Lia List.
From Verif Require Import Base Panda_Model Panda_Spec.
Import ListNotations.
Local Open Scope list_scope.

(* ================= C32 tables ================= *)
Section T.
Local Open Scope Z_scope.

Lemma mask_ones f : mask f = Z.ones (nbits f).
Proof. unfold mask. rewrite Z.ones_equiv. lia. Qed.

Lemma field_word f : field_ok f ->
  0 <= bits_lo f mod 32 /\ 1 <= nbits f /\ bits_lo f mod 32 + nbits f <= 32.
Proof.
  intros (H1 & H2 & _). unfold nbits.
  pose proof (Z.mod_pos_bound (bits_lo f) 32 ltac:(lia)).
  pose proof (Z.mod_pos_bound (bits_hi f) 32 ltac:(lia)).
  pose proof (Z.div_mod (bits_lo f) 32 ltac:(lia)).
  pose proof (Z.div_mod (bits_hi f) 32 ltac:(lia)).
  lia.
Qed.

Lemma land_mask_bound f z : field_ok f -> 0 <= Z.land z (mask f) < 2 ^ nbits f.
Proof.
  intros H. destruct (field_word f H) as (_ & Hn & _).
  rewrite mask_ones, Z.land_ones by lia. apply Z.mod_pos_bound. apply Z.pow_pos_nonneg; lia.
Qed.

Lemma shifted_eq f z : field_ok f ->
  shifted f z = Z.shiftl (Z.land z (mask f)) (bits_lo f mod 32)
  /\ 0 <= shifted f z < 2 ^ 32.
Proof.
  intros H. destruct (field_word f H) as (Hk & Hn & Hs).
  pose proof (land_mask_bound f z H) as B.
  assert (E : 0 <= Z.shiftl (Z.land z (mask f)) (bits_lo f mod 32) < 2 ^ 32).
  { rewrite Z.shiftl_mul_pow2 by lia. split; [apply Z.mul_nonneg_nonneg; [lia|apply Z.pow_nonneg; lia]|].
    apply Z.lt_le_trans with (2 ^ nbits f * 2 ^ (bits_lo f mod 32)).
    - apply Z.mul_lt_mono_pos_r; [apply Z.pow_pos_nonneg; lia|lia].
    - rewrite <- Z.pow_add_r by lia. apply Z.pow_le_mono_r; lia. }
  unfold shifted. rewrite Z.mod_small by exact E. split; [reflexivity|exact E].
Qed.

Lemma ext_same f x z : field_ok f ->
  Z.land (Z.shiftr (Z.lor x (shifted f z)) (bits_lo f mod 32)) (mask f)
  = Z.lor (Z.land (Z.shiftr x (bits_lo f mod 32)) (mask f)) (Z.land z (mask f)).
Proof.
  intros H. destruct (field_word f H) as (Hk & Hn & Hs).
  rewrite (proj1 (shifted_eq f z H)).
  rewrite Z.shiftr_lor, Z.land_lor_distr_l. f_equal.
  rewrite Z.shiftr_shiftl_l by lia. rewrite Z.sub_diag, Z.shiftl_0_r.
  rewrite <- Z.land_assoc, Z.land_diag. reflexivity.
Qed.

Lemma disjoint_word f g : field_ok f -> field_ok g -> disjoint f g ->
  bits_lo f / 32 = bits_lo g / 32 ->
  bits_lo f mod 32 + nbits f <= bits_lo g mod 32 \/ bits_lo g mod 32 + nbits g <= bits_lo f mod 32.
Proof.
  intros (Hf & Ef & _) (Hg & Eg & _) D E. unfold nbits.
  pose proof (Z.div_mod (bits_lo f) 32 ltac:(lia)).
  pose proof (Z.div_mod (bits_lo g) 32 ltac:(lia)).
  unfold disjoint in D. lia.
Qed.

Lemma ext_other f g x z : field_ok f -> field_ok g -> disjoint f g ->
  bits_lo f / 32 = bits_lo g / 32 ->
  Z.land (Z.shiftr (Z.lor x (shifted g z)) (bits_lo f mod 32)) (mask f)
  = Z.land (Z.shiftr x (bits_lo f mod 32)) (mask f).
Proof.
  intros Hf Hg D E. pose proof (disjoint_word f g Hf Hg D E) as W.
  destruct (field_word f Hf) as (Hk & Hn & Hs). destruct (field_word g Hg) as (Hk' & Hn' & Hs').
  rewrite (proj1 (shifted_eq g z Hg)), Z.shiftr_lor, Z.land_lor_distr_l.
  replace (Z.land (Z.shiftr (Z.shiftl (Z.land z (mask g)) (bits_lo g mod 32)) (bits_lo f mod 32)) (mask f))
    with 0; [apply Z.lor_0_r|].
  symmetry. apply Z.bits_inj'. intros i Hi. rewrite Z.bits_0.
  rewrite Z.land_spec, (mask_ones f), Z.shiftr_spec by lia.
  destruct (Z_lt_ge_dec i (nbits f)) as [Hlt|Hge].
  - rewrite Z.shiftl_spec by lia.
    destruct W as [W|W].
    + rewrite Z.testbit_neg_r by lia. reflexivity.
    + rewrite Z.land_spec, mask_ones, (Z.ones_spec_high (nbits g)) by lia.
      rewrite andb_false_r. reflexivity.
  - rewrite (Z.ones_spec_high (nbits f)) by lia. apply andb_false_r.
Qed.

(* rows *)
Lemma or_at_length row ci v : length (or_at row ci v) = length row.
Proof. revert ci. induction row; intros [|ci]; simpl; auto. Qed.

Lemma nth_or_at row ci cj v :
  (ci < length row)%nat ->
  nth cj (or_at row ci v) 0 = if Nat.eqb ci cj then Z.lor (nth cj row 0) v else nth cj row 0.
Proof.
  revert ci cj. induction row as [|x row IH]; intros ci cj H; [simpl in H; lia|].
  destruct ci, cj; simpl; try reflexivity. apply IH. simpl in H. lia.
Qed.

Definition col (f : tfield) : nat := Z.to_nat (bits_lo f / 32).

Lemma extract_same f row z : field_ok f -> (col f < length row)%nat ->
  extract f (col f) (or_at row (col f) (shifted f z))
  = Z.lor (extract f (col f) row) (Z.land z (mask f)).
Proof.
  intros H Hl. unfold extract. rewrite nth_or_at, Nat.eqb_refl by exact Hl.
  apply ext_same. exact H.
Qed.

Lemma extract_other f g row z : field_ok f -> field_ok g -> disjoint f g ->
  (col g < length row)%nat ->
  extract f (col f) (or_at row (col g) (shifted g z)) = extract f (col f) row.
Proof.
  intros Hf Hg D Hl. unfold extract. rewrite nth_or_at by exact Hl.
  destruct (Nat.eqb_spec (col g) (col f)) as [E|E]; [|reflexivity].
  apply ext_other; auto. unfold col in E.
  destruct Hf as ((Hf & _) & _). destruct Hg as ((Hg & _) & _).
  pose proof (Z.div_pos (bits_lo f) 32 Hf ltac:(lia)).
  pose proof (Z.div_pos (bits_lo g) 32 Hg ltac:(lia)). lia.
Qed.

Definition rect (ipr : nat) (m : list (list Z)) : Prop := Forall (fun r => length r = ipr) m.

Lemma or_column_rect ipr m ci vs : rect ipr m -> rect ipr (or_column m ci vs).
Proof.
  intros H. revert vs. induction H as [|r m Hr Hm IH]; intros vs; [constructor|].
  destruct vs as [|v vs]; simpl; constructor; auto.
  rewrite or_at_length. exact Hr. apply IH.
Qed.

Lemma or_column_length m ci vs : length (or_column m ci vs) = length m.
Proof. revert vs. induction m as [|r m IH]; intros [|v vs]; simpl; auto. Qed.

Lemma column_same ipr f m zs : field_ok f -> rect ipr m -> (col f < ipr)%nat ->
  length zs = length m -> Forall (fun r => extract f (col f) r = 0) m ->
  map (extract f (col f)) (or_column m (col f) (map (shifted f) zs))
  = map (fun z => Z.land z (mask f)) zs.
Proof.
  intros Hf Hr Hc. revert zs. induction m as [|r m IH]; intros zs Hl Hz.
  - destruct zs; [reflexivity|discriminate].
  - destruct zs as [|z zs]; [discriminate|].
    inversion Hr; subst. inversion Hz as [|? ? Hz1 Hz2]; subst. simpl.
    rewrite extract_same by auto. rewrite Hz1, Z.lor_0_l. f_equal.
    apply IH; auto.
Qed.

Lemma column_other ipr f g m zs : field_ok f -> field_ok g -> disjoint f g ->
  rect ipr m -> (col g < ipr)%nat ->
  map (extract f (col f)) (or_column m (col g) (map (shifted g) zs))
  = map (extract f (col f)) m.
Proof.
  intros Hf Hg D Hr Hc. revert zs. induction m as [|r m IH]; intros zs; [reflexivity|].
  destruct zs as [|z zs]; [reflexivity|].
  inversion Hr; subst. simpl. rewrite extract_other by auto. f_equal. apply IH. assumption.
Qed.

Lemma column_words ipr g m zs : field_ok g -> rect ipr m -> (col g < ipr)%nat ->
  Forall (Forall (fun w => 0 <= w < 2 ^ 32)) m ->
  Forall (Forall (fun w => 0 <= w < 2 ^ 32)) (or_column m (col g) (map (shifted g) zs)).
Proof.
  intros Hg Hr Hc. revert zs. induction m as [|r m IH]; intros zs H; [constructor|].
  destruct zs as [|z zs]; [exact H|].
  inversion Hr; subst. inversion H as [|? ? Ha Hb]; subst. simpl. constructor; [|apply IH; assumption].
  clear - Ha Hg. revert Ha. generalize (col g).
  induction r as [|x r IH]; intros n Ha; [constructor|].
  inversion Ha; subst. destruct n; simpl; constructor; auto.
  destruct (shifted_eq g z Hg) as [_ B].
  assert (E : forall a, 0 <= a < 2 ^ 32 -> Z.land a (Z.ones 32) = a).
  { intros a Hx. rewrite Z.land_ones by lia. apply Z.mod_small. exact Hx. }
  rewrite <- (E x), <- (E (shifted g z)) by assumption.
  rewrite <- Z.land_lor_distr_l, Z.land_ones by lia. apply Z.mod_pos_bound. reflexivity.
Qed.

(* cells *)
Lemma index_of_spec s l : In s l -> exists i, index_of s l = Some i /\ 0 <= i < Z.of_nat (length l)
  /\ nth_error l (Z.to_nat i) = Some s.
Proof.
  induction l as [|x l IH]; intros H; [destruct H|]. simpl.
  destruct (String.eqb_spec s x) as [-> |Hn].
  - exists 0. simpl. split; [reflexivity|]. split; [lia|reflexivity].
  - destruct H as [H|H]; [congruence|]. destruct (IH H) as (i & -> & B & E).
    exists (i + 1). split; [reflexivity|]. split; [lia|].
    rewrite Z2Nat.inj_add by lia. change (Z.to_nat 1) with 1%nat. rewrite Nat.add_1_r. exact E.
Qed.

Lemma cell_roundtrip f c : field_ok f -> fits f c ->
  exists z, cell_int f c = Ok z /\ decode_cell f (Z.land z (mask f)) = Ok c.
Proof.
  intros Hf Hc. pose proof (field_word f Hf) as (Hk0 & Hn & Hs).
  destruct Hf as (_ & _ & Hnd & Hlen). fold (nbits f) in Hlen.
  unfold fits in Hc. fold (nbits f) in Hc. unfold cell_int, decode_cell.
  assert (Hsmall : forall z, 0 <= z < 2 ^ nbits f -> Z.land z (mask f) = z).
  { intros z Hz. rewrite mask_ones, Z.land_ones by lia. apply Z.mod_small. exact Hz. }
  destruct c as [z|b|s].
  - destruct Hc as (-> & Hn1 & Hz). exists z. split; [reflexivity|].
    destruct (Z.eqb_spec (nbits f) 1) as [E1|E1]; [lia|].
    unfold dtype_bits.
    destruct (signed f).
    + destruct Hz as [Hw Hz].
      rewrite mask_ones, Z.land_ones by lia. unfold wrap. cbn [andb].
      assert (G : forall n, nbits f = n -> n = 8 \/ n = 16 \/ n = 32 ->
        (if n <=? 8 then Ok 8 else if n <=? 16 then Ok 16 else if n <=? 32 then Ok 32
         else if n <=? 64 then Ok 64 else Err BadBits) = (Ok n : result terr Z)).
      { intros n _ [-> | [-> | ->]]; reflexivity. }
      rewrite (G (nbits f) eq_refl Hw). do 2 f_equal.
      rewrite Z.mod_mod by (apply Z.pow_nonzero; lia).
      assert (P2 : 2 ^ nbits f = 2 * 2 ^ (nbits f - 1)).
      { rewrite <- Z.pow_succ_r by lia. f_equal. lia. }
      set (h := 2 ^ (nbits f - 1)) in *.
      destruct (Z_lt_ge_dec z 0) as [Hneg|Hpos].
      * assert (Em : z mod 2 ^ nbits f = z + 2 ^ nbits f).
        { symmetry. apply Z.mod_unique with (q := -1); lia. }
        rewrite Em. destruct (Z.leb_spec h (z + 2 ^ nbits f)); lia.
      * rewrite Z.mod_small by lia. destruct (Z.leb_spec h z); lia.
    + rewrite Hsmall by exact Hz. unfold wrap. cbn [andb].
      destruct (Z.leb_spec (nbits f) 8); [|destruct (Z.leb_spec (nbits f) 16);
        [|destruct (Z.leb_spec (nbits f) 32); [|lia]]];
      (do 2 f_equal; apply Z.mod_small; split; [lia|];
       eapply Z.lt_le_trans; [apply Hz|apply Z.pow_le_mono_r; lia]).
  - destruct Hc as [-> Hn1]. rewrite Hn1. cbn [Z.eqb Pos.eqb].
    eexists. split; [reflexivity|].
    rewrite Hsmall by (rewrite Hn1; destruct b; simpl; lia). destruct b; reflexivity.
  - destruct (index_of_spec s (labels f) Hc) as (i & Ei & Bi & En).
    destruct (labels f) as [|l0 ls] eqn:El; [destruct Hc|].
    rewrite Ei. exists i. split; [reflexivity|]. rewrite Hsmall by lia. rewrite En. reflexivity.
Qed.

Lemma column_roundtrip f cells : field_ok f -> Forall (fits f) cells ->
  exists zs, mapr (cell_int f) cells = Ok zs /\ length zs = length cells
    /\ mapr (decode_cell f) (map (fun z => Z.land z (mask f)) zs) = Ok cells.
Proof.
  intros Hf. induction 1 as [|c cells Hc _ (zs & E1 & E2 & E3)].
  - exists []. repeat split.
  - destruct (cell_roundtrip f c Hf Hc) as (z & Ez & Dz).
    exists (z :: zs). simpl. rewrite Ez, E1, Dz, E3. repeat split. simpl. congruence.
Qed.

Lemma max_ge fs nf : In nf fs ->
  bits_hi (snd nf) <= fold_right Z.max 0 (map (fun nf : string * tfield => bits_hi (snd nf)) fs).
Proof.
  induction fs as [|g fs IH]; intros H; [destruct H|]. simpl.
  destruct H as [-> |H]; [lia|]. specialize (IH H). lia.
Qed.

Lemma max_nonneg fs : 0 <= fold_right Z.max 0 (map (fun nf : string * tfield => bits_hi (snd nf)) fs).
Proof. induction fs; simpl; lia. Qed.

Lemma col_in_range fs nf : layout_ok fs -> In nf fs ->
  bits_lo (snd nf) / 32 < ints_per_row fs.
Proof.
  intros (_ & _ & Hf & _ & Hm) Hin.
  rewrite Forall_forall in Hf. specialize (Hf _ Hin). destruct Hf as (H1 & H2 & _).
  pose proof (max_ge fs nf Hin) as Hmax. unfold ints_per_row.
  set (mx := fold_right Z.max 0 (map (fun nf0 : string * tfield => bits_hi (snd nf0)) fs)) in *.
  pose proof (Z.div_mod mx 32 ltac:(lia)) as D.
  pose proof (Z.mod_pos_bound mx 32 ltac:(lia)) as B.
  assert (Hq : (mx + 31) / 32 = mx / 32 + 1).
  { symmetry. apply Z.div_unique with (r := mx mod 32 - 1); lia. }
  rewrite Hq.
  assert (bits_lo (snd nf) / 32 <= mx / 32) by (apply Z.div_le_mono; lia). lia.
Qed.

Lemma ipr_pos fs : layout_ok fs -> 0 < ints_per_row fs.
Proof.
  intros (_ & _ & _ & _ & Hm). pose proof (max_nonneg fs) as Hn. unfold ints_per_row.
  set (mx := fold_right Z.max 0 (map (fun nf0 : string * tfield => bits_hi (snd nf0)) fs)) in *.
  clearbody mx. apply Z.div_str_pos. split; [lia|]. destruct (Z.eq_dec mx 0) as [E|E]; [|lia].
  exfalso. apply Hm. rewrite E. reflexivity.
Qed.

(* column by column: [done] fields already in the matrix, with their columns *)
Lemma encode_columns_ok ipr n t : forall fs m,
  Forall (fun nf => field_ok (snd nf) /\ bits_lo (snd nf) / 32 < ipr) fs ->
  ForallOrdPairs (fun a b => disjoint (snd a) (snd b)) fs ->
  rect (Z.to_nat ipr) m -> length m = n ->
  Forall (Forall (fun w => 0 <= w < 2 ^ 32)) m ->
  Forall (fun nf => Forall (fun r => extract (snd nf) (col (snd nf)) r = 0) m) fs ->
  Forall (fun nf => exists cells, dget (fst nf) t = Some cells /\ length cells = n
                     /\ Forall (fits (snd nf)) cells) fs ->
  exists m', encode_columns ipr m fs t = Ok m' /\ rect (Z.to_nat ipr) m' /\ length m' = n
    /\ Forall (Forall (fun w => 0 <= w < 2 ^ 32)) m'
    /\ (forall f, field_ok f -> Forall (fun nf => disjoint f (snd nf)) fs ->
          map (extract f (col f)) m' = map (extract f (col f)) m)
    /\ Forall (fun nf => exists cells, dget (fst nf) t = Some cells
          /\ mapr (decode_cell (snd nf)) (map (extract (snd nf) (col (snd nf))) m') = Ok cells) fs.
Proof.
  induction fs as [|[nm f] fs IH]; intros m Hok Hd Hr Hn Hw Hz Ht.
  - exists m. cbn [encode_columns]. repeat split; auto.
  - inversion Hok as [|? ? [Hf Hc] Hok']; subst. inversion Hd as [|? ? Hd1 Hd2]; subst.
    inversion Hz as [|? ? Hz1 Hz2]; subst. inversion Ht as [|? ? Ht1 Ht2]; subst.
    cbn [fst snd] in *. destruct Ht1 as (cells & Ec & El & Efit).
    destruct (column_roundtrip f cells Hf Efit) as (zs & E1 & E2 & E3).
    assert (Hlo : 0 <= bits_lo f / 32).
    { destruct Hf as ((H & _) & _). apply Z.div_pos; lia. }
    assert (Hcol : (col f < Z.to_nat ipr)%nat) by (unfold col; lia).
    set (m1 := or_column m (col f) (map (shifted f) zs)).
    assert (Estep : encode_column ipr m f cells = Ok m1).
    { unfold encode_column. rewrite E1. unfold get_column_index.
      assert (Ecol : bits_hi f / 32 =? bits_lo f / 32 = true) by (apply Z.eqb_eq; apply Hf).
      rewrite Ecol. assert (Hlt : bits_lo f / 32 <? ipr = true) by (apply Z.ltb_lt; exact Hc).
      rewrite Hlt. cbn [negb].
      rewrite (proj2 (Nat.eqb_eq _ _)) by congruence. reflexivity. }
    destruct (IH m1) as (m' & Em & Hr' & Hn' & Hw' & Hoth & Hdec); auto.
    + apply or_column_rect. exact Hr.
    + unfold m1. apply or_column_length.
    + apply column_words with (ipr := Z.to_nat ipr); auto.
    + rewrite Forall_forall in *. intros nf Hin. apply Forall_forall.
      assert (Em : map (extract (snd nf) (col (snd nf))) m1 = map (extract (snd nf) (col (snd nf))) m).
      { apply column_other with (ipr := Z.to_nat ipr); auto.
        - apply Hok'. exact Hin.
        - specialize (Hd1 _ Hin). unfold disjoint in *. lia. }
      specialize (Hz2 _ Hin).
      assert (Hall : Forall (fun x => x = 0) (map (extract (snd nf) (col (snd nf))) m1)).
      { rewrite Em. apply Forall_map. exact Hz2. }
      apply Forall_map in Hall. rewrite Forall_forall in Hall. exact Hall.
    + exists m'. cbn [encode_columns]. rewrite Ec, Estep. split; [exact Em|].
      split; [exact Hr'|]. split; [exact Hn'|]. split; [exact Hw'|]. split.
      * intros g Hg HD. inversion HD as [|? ? D1 D2]; subst. cbn [snd] in D1.
        rewrite Hoth by assumption. apply column_other with (ipr := Z.to_nat ipr); auto.
      * constructor.
        -- cbn [fst snd]. exists cells. split; [exact Ec|].
           rewrite Hoth; [|exact Hf|exact Hd1].
           unfold m1. rewrite (column_same (Z.to_nat ipr)); auto. congruence.
        -- exact Hdec.
Qed.

Lemma decode_columns_ok ipr m t : forall fs cols,
  Forall2 (fun nf nc => fst nf = fst nc /\ field_ok (snd nf) /\ bits_lo (snd nf) / 32 < ipr
     /\ mapr (decode_cell (snd nf)) (map (extract (snd nf) (col (snd nf))) m) = Ok (snd nc)) fs cols ->
  t = cols ->
  decode_columns ipr m fs = Ok t.
Proof.
  intros fs cols H ->. induction H as [|[n f] [n' c] fs cols (E1 & E2 & E3 & E4) H IH]; [reflexivity|].
  cbn [fst snd] in *. subst n'. cbn [decode_columns]. unfold decode_column, get_column_index.
  assert (Ecol : bits_hi f / 32 =? bits_lo f / 32 = true) by (apply Z.eqb_eq; apply E2).
  rewrite Ecol. assert (Hlt : bits_lo f / 32 <? ipr = true) by (apply Z.ltb_lt; exact E3).
  rewrite Hlt. cbn [negb]. fold (col f). rewrite E4, IH. reflexivity.
Qed.

Lemma concat_length_rect n m : rect n m -> length (concat m) = (length m * n)%nat.
Proof. induction 1; simpl; [reflexivity|]. rewrite app_length. lia. Qed.

Lemma chunks_concat n m : (0 < n)%nat -> rect n m ->
  forall fuel, (length m <= fuel)%nat -> chunks fuel n (concat m) = m.
Proof.
  intros Hn. induction 1 as [|r m Hr Hm IH]; intros fuel Hf.
  - destruct fuel; reflexivity.
  - destruct fuel as [|fuel]; [simpl in Hf; lia|].
    cbn [concat chunks]. destruct (r ++ concat m) as [|x l] eqn:E.
    + destruct r; [simpl in Hr; lia|discriminate].
    + rewrite <- E. f_equal.
      * rewrite firstn_app, Hr, Nat.sub_diag. simpl. rewrite app_nil_r.
        rewrite <- Hr. apply firstn_all.
      * rewrite skipn_app, <- Hr, skipn_all, Nat.sub_diag. simpl. rewrite Hr.
        apply IH. simpl in Hf. lia.
Qed.

Lemma extract_zero f ipr : extract f (col f) (repeat 0 ipr) = 0.
Proof.
  unfold extract. replace (nth (col f) (repeat 0 ipr) 0) with 0.
  - rewrite Z.shiftr_0_l. apply Z.land_0_l.
  - generalize (col f). induction ipr as [|k IH]; intros [|j]; simpl; auto.
Qed.

Lemma table_ok_get fs n t : NoDup (map fst fs) -> table_ok fs n t ->
  Forall (fun nf => exists cells, dget (fst nf) t = Some cells /\ length cells = n
                     /\ Forall (fits (snd nf)) cells) fs
  /\ Forall2 (fun nf nc => fst nf = fst nc /\ dget (fst nf) t = Some (snd nc)) fs t.
Proof.
  intros Hnd H.
  assert (Hkeys : map fst fs = dkeys t).
  { unfold dkeys. clear Hnd. induction H as [|a b fs t (E & _) _ IH]; [reflexivity|].
    simpl. congruence. }
  assert (Hget : Forall2 (fun nf nc => fst nf = fst nc /\ dget (fst nf) t = Some (snd nc)) fs t).
  { rewrite Hkeys in Hnd. clear Hkeys.
    assert (G : forall (fs' : list (string * tfield)) (t' : dict (list cell)), (forall x, In x t' -> In x t) ->
       Forall2 (fun nf nc => fst nf = fst nc /\ length (snd nc) = n /\ Forall (fits (snd nf)) (snd nc)) fs' t' ->
       Forall2 (fun nf nc => fst nf = fst nc /\ dget (fst nf) t = Some (snd nc)) fs' t').
    { intros fs' t' Hin H'. induction H' as [|a b fs' t' (E & _) _ IH]; [constructor|].
      constructor.
      - split; [exact E|]. rewrite E. apply dget_In_nodup; [exact Hnd|].
        apply Hin. left. destruct b; reflexivity.
      - apply IH. intros x Hx. apply Hin. right. exact Hx. }
    apply G; auto. }
  split; [|exact Hget].
  assert (G : forall t0 (fs' : list (string * tfield)) (t' : dict (list cell)),
     Forall2 (fun nf nc => fst nf = fst nc /\ length (snd nc) = n /\ Forall (fits (snd nf)) (snd nc)) fs' t' ->
     Forall2 (fun nf nc => fst nf = fst nc /\ dget (fst nf) t0 = Some (snd nc)) fs' t' ->
     Forall (fun nf => exists cells, dget (fst nf) t0 = Some cells /\ length cells = n
                     /\ Forall (fits (snd nf)) cells) fs').
  { intros t0 fs' t' H1. induction H1 as [|a b fs' t' (E & L & F) _ IH]; intros H2; [constructor|].
    inversion H2 as [|? ? ? ? [_ Hg] H2']; subst. constructor; [|apply IH; exact H2'].
    exists (snd b). auto. }
  apply (G t fs t); assumption.
Qed.

Lemma tables_roundtrip fs n t : layout_ok fs -> table_ok fs n t ->
  exists words, list_from_table fs t = Ok words
    /\ Forall (fun w => 0 <= w < 2 ^ 32) words
    /\ Z.of_nat (length words) = Z.of_nat n * ints_per_row fs
    /\ table_from_list fs words = Ok t.
Proof.
  intros Hl Ht. pose proof Hl as (Hne & Hnd & Hf & Hdis & Hm).
  destruct (table_ok_get fs n t Hnd Ht) as [Hget Hget2].
  pose proof (ipr_pos fs Hl) as Hipr. set (ipr := ints_per_row fs) in *.
  set (m0 := repeat (repeat 0 (Z.to_nat ipr)) n).
  assert (Hok : Forall (fun nf => field_ok (snd nf) /\ bits_lo (snd nf) / 32 < ipr) fs).
  { rewrite Forall_forall in *. intros nf Hin. split; [apply Hf; exact Hin|].
    apply col_in_range; assumption. }
  destruct (encode_columns_ok ipr n t fs m0) as (m' & Em & Hr' & Hn' & Hw' & _ & Hdec); auto.
  - apply Forall_forall. intros r Hr. apply repeat_spec in Hr. subst r. apply repeat_length.
  - apply repeat_length.
  - apply Forall_forall. intros r Hr. apply repeat_spec in Hr. subst r.
    apply Forall_forall. intros w Hw. apply repeat_spec in Hw. subst w. lia.
  - apply Forall_forall. intros nf _. apply Forall_forall. intros r Hr.
    apply repeat_spec in Hr. subst r. apply extract_zero.
  - exists (concat m').
    assert (Hlen : length (concat m') = (n * Z.to_nat ipr)%nat).
    { rewrite (concat_length_rect (Z.to_nat ipr)) by exact Hr'. congruence. }
    split; [|split; [|split]].
    + unfold list_from_table. destruct fs as [|[n0 f0] fs']; [congruence|].
      destruct (Forall_inv Hget) as (cells & Ec & El & _). cbn [fst] in Ec. rewrite Ec.
      rewrite El. fold ipr. fold m0. cbv zeta. rewrite Em. reflexivity.
    + apply Forall_concat. exact Hw'.
    + rewrite Hlen. rewrite Nat2Z.inj_mul, Z2Nat.id by lia. reflexivity.
    + unfold table_from_list. fold ipr. destruct (Z.eqb_spec ipr 0); [lia|].
      assert (Hmod : Z.of_nat (length (concat m')) mod ipr =? 0 = true).
      { rewrite Hlen, Nat2Z.inj_mul, Z2Nat.id by lia. rewrite Z.mod_mul by lia. reflexivity. }
      rewrite Hmod. cbn [negb].
      rewrite chunks_concat; [|lia|exact Hr'|].
      2:{ rewrite Hlen, Hn'. assert (0 < Z.to_nat ipr)%nat by lia. nia. }
      apply decode_columns_ok with (cols := t); [|reflexivity].
      clear - Hok Hdec Hget2. revert Hok Hdec.
      assert (G : forall (fs' : list (string * tfield)) (t' : dict (list cell)),
        Forall2 (fun nf nc => fst nf = fst nc /\ dget (fst nf) t = Some (snd nc)) fs' t' ->
        Forall (fun nf => field_ok (snd nf) /\ bits_lo (snd nf) / 32 < ipr) fs' ->
        Forall (fun nf => exists cells, dget (fst nf) t = Some cells
          /\ mapr (decode_cell (snd nf)) (map (extract (snd nf) (col (snd nf))) m') = Ok cells) fs' ->
        Forall2 (fun nf nc => fst nf = fst nc /\ field_ok (snd nf) /\ bits_lo (snd nf) / 32 < ipr
          /\ mapr (decode_cell (snd nf)) (map (extract (snd nf) (col (snd nf))) m') = Ok (snd nc)) fs' t').
      { intros fs' t' H. induction H as [|a b fs' t' [E1 E2] _ IH]; intros Hok Hdec; [constructor|].
        inversion Hok as [|? ? [O1 O2] Hok']; subst. inversion Hdec as [|? ? (c & D1 & D2) Hdec']; subst.
        constructor; [|apply IH; assumption].
        split; [exact E1|]. split; [exact O1|]. split; [exact O2|]. rewrite D2. congruence. }
      apply G. exact Hget2.
Qed.
End T.

(* ================= C33 client ================= *)
Fixpoint tail_of (cur b : bytes) : bytes :=
  match b with
  | [] => cur
  | c :: r => if Ascii.eqb c newline then tail_of [] r else tail_of (c :: cur) r
  end.

Definition no_nl (b : bytes) : Prop := Forall (fun c => Ascii.eqb c newline = false) b.

Lemma split_nonempty b : split_lines b <> [].
Proof. destruct b as [|c b]; simpl; [discriminate|]. destruct (Ascii.eqb c newline); [discriminate|]. destruct (split_lines b); discriminate. Qed.

Lemma split_prefix a b : no_nl a ->
  split_lines (a ++ b) = (a ++ hd [] (split_lines b)) :: tl (split_lines b).
Proof.
  induction 1 as [|c a Hc Ha IH]; simpl.
  - destruct (split_lines b) eqn:E; [destruct (split_nonempty b E)|reflexivity].
  - rewrite Hc, IH. reflexivity.
Qed.

Lemma split_lines_spec b : forall cur, no_nl cur ->
  removelast (split_lines (rev cur ++ b)) = lines_of cur b
  /\ last (split_lines (rev cur ++ b)) [] = rev (tail_of cur b)
  /\ no_nl (tail_of cur b).
Proof.
  induction b as [|c b IH]; intros cur Hc.
  - rewrite app_nil_r. simpl. assert (Hr : no_nl (rev cur)) by (apply Forall_rev; exact Hc).
    rewrite <- (app_nil_r (rev cur)). rewrite split_prefix by exact Hr. simpl.
    rewrite app_nil_r. auto.
  - cbn [lines_of tail_of]. change "010"%char with newline.
    destruct (Ascii.eqb c newline) eqn:E.
    + assert (Hr : no_nl (rev cur)) by (apply Forall_rev; exact Hc).
      rewrite split_prefix by exact Hr. cbn [split_lines]. rewrite E. cbn [hd tl].
      rewrite app_nil_r. destruct (IH [] (Forall_nil _)) as (E1 & E2 & E3). simpl in E1, E2.
      destruct (split_lines b) as [|x l] eqn:Es; [destruct (split_nonempty b Es)|].
      split; [|split; [|exact E3]].
      * rewrite <- E1. reflexivity.
      * rewrite <- E2. reflexivity.
    + replace (rev cur ++ c :: b) with (rev (c :: cur) ++ b)
        by (simpl; rewrite <- app_assoc; reflexivity).
      apply IH. constructor; assumption.
Qed.

Lemma lines_of_app a b : forall cur,
  lines_of cur (a ++ b) = lines_of cur a ++ lines_of (tail_of cur a) b.
Proof.
  induction a as [|c a IH]; intros cur; [reflexivity|].
  cbn [lines_of tail_of app]. change "010"%char with newline.
  destruct (Ascii.eqb c newline); [simpl; f_equal|]; apply IH.
Qed.

Lemma tail_of_app a b : forall cur, tail_of cur (a ++ b) = tail_of (tail_of cur a) b.
Proof.
  induction a as [|c a IH]; intros cur; [reflexivity|].
  cbn [tail_of app]. destruct (Ascii.eqb c newline); apply IH.
Qed.

Lemma tail_no_nl b : forall cur, no_nl cur -> no_nl (tail_of cur b).
Proof. intros cur H. apply (split_lines_spec b cur H). Qed.

Lemma cont_ok c : is_cont c -> cont c = true.
Proof.
  unfold is_cont, cont. intros H. apply andb_true_iff. split; apply Nat.leb_le; lia.
Qed.

Lemma leb_false n m : m < n -> Nat.leb n m = false.
Proof. intros H. apply Nat.leb_gt. exact H. Qed.
Lemma leb_true n m : n <= m -> Nat.leb n m = true.
Proof. intros H. apply Nat.leb_le. exact H. Qed.

Lemma ascii_utf8 b : text b -> forall fuel, utf8_ok fuel b = true.
Proof.
  induction 1 as [|c b Hc Hb IH|c c1 b Hc H1 Hb IH|c c1 c2 b Hc H1 H2 Hb IH
                 |c c1 c2 c3 b Hc H1 H2 H3 Hb IH]; intros [|fuel]; try reflexivity; cbn [utf8_ok];
    set (n := nat_of_ascii c) in *; clearbody n; rewrite ?cont_ok by assumption.
  - rewrite (leb_true n 127) by lia. apply IH.
  - rewrite (leb_false n 127), (leb_true 194 n), (leb_true n 223) by lia. apply IH.
  - rewrite (leb_false n 127), (leb_true 194 n), (leb_false n 223), (leb_true 224 n), (leb_true n 239) by lia.
    apply IH.
  - rewrite (leb_false n 127), (leb_true 194 n), (leb_false n 223), (leb_true 224 n), (leb_false n 239),
      (leb_true 240 n), (leb_true n 244) by lia. apply IH.
Qed.

Lemma cont_inv c : cont c = true -> is_cont c.
Proof. unfold is_cont, cont. intros H. apply andb_true_iff in H. destruct H as [A B]. apply Nat.leb_le in A, B. lia. Qed.

Lemma utf8_text fuel : forall b, length b <= fuel -> utf8_ok fuel b = true -> text b.
Proof.
  induction fuel as [|fuel IH]; intros b L H.
  - destruct b; [constructor|simpl in L; lia].
  - destruct b as [|c r]; [constructor|]. simpl in L. cbn [utf8_ok] in H.
    destruct (Nat.leb (nat_of_ascii c) 127) eqn:E1.
    { apply Nat.leb_le in E1. apply text_1; [lia|]. apply IH; [lia|exact H]. }
    destruct (Nat.leb 194 (nat_of_ascii c) && Nat.leb (nat_of_ascii c) 223) eqn:E2.
    { apply andb_true_iff in E2. destruct E2 as [A B]. apply Nat.leb_le in A, B.
      destruct r as [|c1 r]; [discriminate|]. apply andb_true_iff in H. destruct H as [C H]. simpl in L.
      apply text_2; [lia|apply cont_inv; exact C|apply IH; [lia|exact H]]. }
    destruct (Nat.leb 224 (nat_of_ascii c) && Nat.leb (nat_of_ascii c) 239) eqn:E3.
    { apply andb_true_iff in E3. destruct E3 as [A B]. apply Nat.leb_le in A, B.
      destruct r as [|c1 [|c2 r]]; try discriminate. rewrite !andb_true_iff in H. destruct H as [[C D] H]. simpl in L.
      apply text_3; [lia|apply cont_inv; exact C|apply cont_inv; exact D|apply IH; [lia|exact H]]. }
    destruct (Nat.leb 240 (nat_of_ascii c) && Nat.leb (nat_of_ascii c) 244) eqn:E4; [|discriminate].
    apply andb_true_iff in E4. destruct E4 as [A B]. apply Nat.leb_le in A, B.
    destruct r as [|c1 [|c2 [|c3 r]]]; try discriminate. rewrite !andb_true_iff in H. destruct H as [[[C D] F] H]. simpl in L.
    apply text_4; [lia|apply cont_inv; exact C|apply cont_inv; exact D|apply cont_inv; exact F|apply IH; [lia|exact H]].
Qed.

(* the receiver's own view of the answer in progress *)
Definition acc_of (c : client) : option (list bytes) :=
  match c_multi c with None => None | Some _ => Some (c_lines c) end.
Definition acc_ok (c : client) : Prop :=
  match c_multi c with None => c_lines c = [] | Some m => m = true end.

Lemma starts_err_eq l : starts_with ERR l = starts_err l.
Proof.
  destruct l as [|a [|b [|c l]]]; simpl; try reflexivity.
  - apply andb_false_r.
  - destruct (Ascii.eqb a "E"), (Ascii.eqb b "R"); try rewrite Ascii.eqb_sym; try reflexivity;
      rewrite !andb_false_r; reflexivity.
  - change (Ascii.eqb "E" a && (Ascii.eqb "R" b && (Ascii.eqb "R" c && true)) =
            Ascii.eqb a "E" && Ascii.eqb b "R" && Ascii.eqb c "R").
    rewrite (Ascii.eqb_sym "E" a), (Ascii.eqb_sym "R" b), (Ascii.eqb_sym "R" c).
    rewrite andb_true_r, andb_assoc. reflexivity.
Qed.

Lemma starts_bang_eq l : starts_with [bang] l = starts_bang l.
Proof.
  destruct l as [|a l]; [reflexivity|]. cbn [starts_with starts_bang].
  unfold bang. rewrite Ascii.eqb_sym, andb_true_r. reflexivity.
Qed.

Lemma ends_multi_eq l : is_dot l = ends_multi l.
Proof. destruct l as [|a [|b l]]; reflexivity. Qed.

(* one more answer complete, or none *)
Lemma recv_line_step c l : c_alive c = true -> acc_ok c ->
  let c' := recv_line c l in
  c_buf c' = c_buf c /\
  ( (* no answer completed *)
    (c_alive c' = true /\ acc_ok c' /\ c_waiting c' = c_waiting c /\ c_got c' = c_got c
     /\ forall r, answers (acc_of c) (l :: r) = answers (acc_of c') r)
  \/ (* an answer completed and delivered *)
    (exists q w a, c_waiting c = q :: w /\ c_alive c' = true /\ acc_ok c' /\ c_waiting c' = w
       /\ c_got c' = c_got c ++ [(q, a)]
       /\ forall r, answers (acc_of c) (l :: r) = a :: answers (acc_of c') r)
  \/ (* an answer nobody waits for *)
    (c_waiting c = [] /\ c_alive c' = false /\ c_got c' = c_got c /\
       forall r, exists a r', answers (acc_of c) (l :: r) = a :: r')
  \/ (* protocol error *)
    (c_alive c' = false /\ c_waiting c' = c_waiting c /\ c_got c' = c_got c /\
       (forall r, answers (acc_of c) (l :: r) = []) /\
       (forall r, well_formed (match acc_of c with None => false | _ => true end) (l :: r) = false))).
Proof.
  intros Ha Hok. unfold recv_line. rewrite Ha, starts_err_eq, starts_bang_eq, !ends_multi_eq. cbn [negb].
  destruct c as [ls mu wa bu al go]. cbn [c_lines c_multi c_waiting c_buf c_alive c_got] in *.
  unfold acc_ok, acc_of in *. cbn [c_lines c_multi] in *.
  assert (Hresp : forall b r', (forall r, answers match mu with Some _ => Some ls | None => None end (l :: r)
                        = r' :: answers None r) ->
    let c' := respond (mkClient ls (Some b) wa bu true go) r' in
    c_buf c' = bu /\
    ((exists q w a, wa = q :: w /\ c_alive c' = true /\ c_lines c' = [] /\ c_multi c' = None /\ c_waiting c' = w
       /\ c_got c' = go ++ [(q, a)]
       /\ forall r, answers match mu with Some _ => Some ls | None => None end (l :: r) = a :: answers None r)
     \/ (wa = [] /\ c_alive c' = false /\ c_got c' = go /\
       forall r, exists a r0, answers match mu with Some _ => Some ls | None => None end (l :: r) = a :: r0))).
  { intros b r' H. unfold respond. cbn [c_waiting]. destruct wa as [|q w]; cbn.
    - split; [reflexivity|]. right. repeat split; auto. intros r. eauto.
    - split; [reflexivity|]. left. exists q, w, r'. repeat split; auto. }
  subst al.
  assert (Hlift : forall b r', (forall r, answers match mu with Some _ => Some ls | None => None end (l :: r)
                        = r' :: answers None r) ->
    let c' := respond (mkClient ls (Some b) wa bu true go) r' in
    c_buf c' = bu /\
    ((c_alive c' = true /\ acc_ok c' /\ c_waiting c' = wa /\ c_got c' = go
     /\ forall r, answers match mu with Some _ => Some ls | None => None end (l :: r) = answers (acc_of c') r)
  \/ (exists q w a, wa = q :: w /\ c_alive c' = true /\ acc_ok c' /\ c_waiting c' = w
       /\ c_got c' = go ++ [(q, a)]
       /\ forall r, answers match mu with Some _ => Some ls | None => None end (l :: r) = a :: answers (acc_of c') r)
  \/ (wa = [] /\ c_alive c' = false /\ c_got c' = go /\
       forall r, exists a r', answers match mu with Some _ => Some ls | None => None end (l :: r) = a :: r')
  \/ (c_alive c' = false /\ c_waiting c' = wa /\ c_got c' = go /\
       (forall r, answers match mu with Some _ => Some ls | None => None end (l :: r) = []) /\
       (forall r, well_formed (match match mu with Some _ => Some ls | None => None end with None => false | _ => true end) (l :: r) = false)))).
  { intros b r' H. destruct (Hresp b r' H) as [E [(q & w & a & E1 & E2 & E3 & E4 & E5 & E6 & E7)|E1]].
    - split; [exact E|]. right. left. exists q, w, a. unfold acc_ok, acc_of. rewrite E4.
      repeat split; auto.
    - split; [exact E|]. right. right. left. exact E1. }
  destruct (starts_err l) eqn:Eerr.
  - apply Hlift. intros r. cbn [answers]. rewrite Eerr. reflexivity.
  - destruct mu as [m|].
    + subst m. cbn [negb]. destruct (ends_multi l) eqn:Ed.
      * apply Hlift. intros r. cbn [answers]. rewrite Eerr, Ed. reflexivity.
      * destruct l as [|ch rest].
        { cbn. split; [reflexivity|]. right. right. right. repeat split. }
        destruct (Ascii.eqb ch bang) eqn:Eb.
        -- split; [reflexivity|]. left. repeat split. intros r.
           cbn [answers] in *. rewrite Eerr, Ed. cbn [starts_bang]. unfold bang in Eb. rewrite Eb. reflexivity.
        -- split; [reflexivity|]. right. right. right. cbn [c_alive c_waiting c_got]. repeat split.
           ++ intros r. cbn [answers]. rewrite Eerr, Ed. cbn [starts_bang]. unfold bang in Eb. rewrite Eb. reflexivity.
           ++ intros r. cbn [well_formed]. rewrite Eerr, Ed. cbn [starts_bang]. unfold bang in Eb. rewrite Eb. reflexivity.
    + subst ls. destruct (ends_multi l) eqn:Ed.
      * rewrite orb_true_r. apply Hlift. intros r. cbn [answers]. rewrite Eerr, Ed. reflexivity.
      * rewrite orb_false_r. destruct (starts_bang l) eqn:Eb.
        -- destruct l as [|ch rest]; [discriminate|]. cbn [starts_bang] in Eb. unfold bang. rewrite Eb.
           split; [reflexivity|]. left. repeat split. intros r.
           cbn [answers] in *. rewrite Eerr, Ed. cbn [starts_bang]. rewrite Eb. reflexivity.
        -- apply Hlift. intros r. cbn [answers]. rewrite Eerr, Ed, Eb. reflexivity.
Qed.

Lemma recv_line_dead c l : c_alive c = false -> recv_line c l = c.
Proof. intros H. unfold recv_line. rewrite H. reflexivity. Qed.
Lemma recv_lines_dead ls c : c_alive c = false -> fold_left recv_line ls c = c.
Proof. revert c. induction ls as [|l ls IH]; intros c H; [reflexivity|]. simpl. rewrite recv_line_dead by exact H. apply IH. exact H. Qed.

(* Invariant linking the state to ids sent and lines received. *)
Definition inv_alive (ids : list nat) (L : list bytes) (c : client) : Prop :=
  acc_ok c /\ exists A, (forall r, answers None (L ++ r) = A ++ answers (acc_of c) r)
    /\ length A <= length ids
    /\ c_got c = combine ids A /\ c_waiting c = skipn (length A) ids.
Definition inv_dead (ids : list nat) (L : list bytes) (c : client) : Prop :=
  forall ids' r, exists n, c_got c = firstn n (combine (ids ++ ids') (answers None (L ++ r))).
Definition inv (ids : list nat) (L : list bytes) (c : client) : Prop :=
  if c_alive c then inv_alive ids L c else inv_dead ids L c.

Lemma combine_firstn_ids {A B} (ids : list A) (x : list B) :
  combine ids x = combine (firstn (length x) ids) x.
Proof. revert ids. induction x as [|b x IH]; intros [|i ids]; simpl; try reflexivity. f_equal. apply IH. Qed.

Lemma combine_app_ids {A B} (ids ids' : list A) (x : list B) :
  length x <= length ids -> combine (ids ++ ids') x = combine ids x.
Proof.
  intros H. revert ids H. induction x as [|b x IH]; intros [|i ids] H; simpl in *; try reflexivity; try lia.
  - destruct ids'; reflexivity.
  - f_equal. apply IH. lia.
Qed.

Lemma combine_app_both {A B} (ids : list A) (x y : list B) :
  length x <= length ids -> combine ids (x ++ y) = combine ids x ++ combine (skipn (length x) ids) y.
Proof.
  revert ids. induction x as [|b x IH]; intros [|i ids] H; simpl in *; try reflexivity; try lia.
  f_equal. apply IH. lia.
Qed.

Lemma combine_prefix {A B} (ids ids' : list A) (x y : list B) :
  length x <= length ids ->
  combine ids x = firstn (length x) (combine (ids ++ ids') (x ++ y)).
Proof.
  intros H. rewrite combine_app_both by (rewrite app_length; lia).
  rewrite combine_app_ids by exact H.
  rewrite firstn_app. rewrite combine_length, Nat.min_r by exact H. rewrite Nat.sub_diag. simpl.
  rewrite app_nil_r. symmetry. rewrite <- (firstn_all (combine ids x)) at 2.
  rewrite combine_length, Nat.min_r by exact H. reflexivity.
Qed.

Lemma inv_line ids L c l : inv ids L c -> inv ids (L ++ [l]) (recv_line c l).
Proof.
  unfold inv. destruct (c_alive c) eqn:Ha; intros H.
  2:{ rewrite recv_line_dead by exact Ha. rewrite Ha. intros ids' r. rewrite <- app_assoc. apply H. }
  destruct H as (Hok & A & HA & Hl & Hg & Hw).
  destruct (recv_line_step c l Ha Hok) as [_ [(E1 & E2 & E3 & E4 & E5)|[(q & w & a & E0 & E1 & E2 & E3 & E4 & E5)|[(E0 & E1 & E2 & E3)|(E1 & E2 & E3 & E4 & _)]]]].
  - rewrite E1. split; [exact E2|]. exists A. repeat split; try congruence.
    intros r. rewrite <- app_assoc. rewrite HA. f_equal. apply E5.
  - rewrite E1. split; [exact E2|]. exists (A ++ [a]).
    assert (Hlt : length A < length ids).
    { destruct (Nat.lt_ge_cases (length A) (length ids)) as [?|G]; [assumption|].
      rewrite skipn_all2 in Hw by exact G. congruence. }
    assert (Hsk : skipn (length A) ids = q :: w) by congruence.
    repeat split.
    + intros r. rewrite <- app_assoc. rewrite HA. rewrite <- app_assoc. f_equal. apply E5.
    + rewrite app_length. simpl. lia.
    + rewrite E4, combine_app_both by lia. rewrite Hsk, Hg. destruct w; reflexivity.
    + rewrite E3, app_length. simpl.
      rewrite Nat.add_1_r. clear - Hsk. revert ids Hsk.
      induction (length A) as [|n IH]; intros ids Hsk; destruct ids as [|i ids]; simpl in *; try discriminate.
      * congruence.
      * apply IH. exact Hsk.
  - rewrite E1. intros ids' r. exists (length A). rewrite E2, Hg. rewrite <- app_assoc, HA.
    apply combine_prefix. exact Hl.
  - rewrite E1. intros ids' r. exists (length A). rewrite E3, Hg. rewrite <- app_assoc, HA.
    apply combine_prefix. exact Hl.
Qed.

Lemma inv_lines ids ls : forall L c, inv ids L c -> inv ids (L ++ ls) (fold_left recv_line ls c).
Proof.
  induction ls as [|l ls IH]; intros L c H; [rewrite app_nil_r; exact H|].
  simpl. replace (L ++ l :: ls) with ((L ++ [l]) ++ ls) by (rewrite <- app_assoc; reflexivity).
  apply IH. apply inv_line. exact H.
Qed.

Lemma inv_buf ids L c b : inv ids L c ->
  inv ids L (mkClient (c_lines c) (c_multi c) (c_waiting c) b (c_alive c) (c_got c)).
Proof. intros H. exact H. Qed.

Lemma inv_send ids L c i : inv ids L c -> inv (ids ++ [i]) L (cstep c (Send i)).
Proof.
  unfold inv. cbn [cstep c_alive]. destruct (c_alive c) eqn:Ha.
  - intros (Hok & A & HA & Hl & Hg & Hw). split; [exact Hok|]. exists A.
    cbn [c_got c_waiting acc_of c_multi c_lines]. repeat split.
    + exact HA.
    + rewrite app_length. lia.
    + rewrite combine_app_ids by exact Hl. exact Hg.
    + rewrite skipn_app. rewrite (proj2 (Nat.sub_0_le _ _) Hl). simpl. congruence.
  - intros H ids' r. cbn [c_got]. rewrite <- app_assoc. apply H.
Qed.

Lemma inv_dead_more ids L c l2 : inv_dead ids L c -> inv_dead ids (L ++ l2) c.
Proof. intros H ids' r. rewrite <- app_assoc. apply H. Qed.

Lemma client_inv es : packets_ok es ->
  let c := crun es in
  inv (sent es) (lines_of [] (stream es)) c
  /\ (c_alive c = true -> c_buf c = rev (tail_of [] (stream es))).
Proof.
  unfold crun. induction es as [|e es IH] using rev_ind; intros Hp.
  - simpl. split; [|reflexivity]. split; [reflexivity|]. exists []. repeat split. simpl. lia.
  - unfold packets_ok in Hp. rewrite Forall_app in Hp. destruct Hp as [Hp He].
    specialize (IH Hp). simpl in IH. destruct IH as [I B].
    rewrite fold_left_app. simpl. unfold sent, stream in *. rewrite !flat_map_app. simpl.
    fold (sent es) (stream es) in *. rewrite !app_nil_r.
    set (c := fold_left cstep es client_init) in *.
    inversion He as [|? ? He1 _]; subst. destruct e as [i|b].
    + rewrite app_nil_r. split; [apply inv_send; exact I|]. exact B.
    + rewrite app_nil_r. destruct He1 as [Hne Has]. cbn [cstep]. unfold recv_packet.
      destruct (c_alive c) eqn:Ha; cbn [negb].
      * rewrite (ascii_utf8 b Has). cbn [negb].
        destruct b as [|b0 b1]; [congruence|]. set (b := b0 :: b1) in *. clearbody b.
        rewrite (B eq_refl).
        destruct (split_lines_spec b (tail_of [] (stream es)) (tail_no_nl _ _ (Forall_nil _))) as (S1 & S2 & _).
        rewrite S1, S2, lines_of_app. cbv zeta. split.
        -- apply inv_buf. apply inv_lines. exact I.
        -- intros _. cbn [c_buf]. rewrite tail_of_app. reflexivity.
      * split; [|intros Hx; congruence]. unfold inv in *. rewrite Ha in *. rewrite lines_of_app.
        apply inv_dead_more. exact I.
Qed.

Lemma client_prefix es : packets_ok es ->
  exists n, c_got (crun es) = firstn n (combine (sent es) (answers None (lines_of [] (stream es)))).
Proof.
  intros Hp. destruct (client_inv es Hp) as [I _]. unfold inv in I.
  destruct (c_alive (crun es)).
  - destruct I as (_ & A & HA & Hl & Hg & _). exists (length A).
    specialize (HA []). rewrite app_nil_r in HA. rewrite HA, Hg.
    rewrite <- (app_nil_r (sent es)) at 2. apply combine_prefix. exact Hl.
  - destruct (I [] []) as [n E]. rewrite !app_nil_r in E. exists n. exact E.
Qed.

Lemma client_alive es : packets_ok es -> c_alive (crun es) = true ->
  let a := answers None (lines_of [] (stream es)) in
  c_got (crun es) = combine (sent es) a /\ length a <= length (sent es)
  /\ c_waiting (crun es) = skipn (length a) (sent es).
Proof.
  intros Hp Ha. destruct (client_inv es Hp) as [I _]. unfold inv in I. rewrite Ha in I.
  destruct I as (_ & A & HA & Hl & Hg & Hw).
  specialize (HA []). rewrite app_nil_r in HA. simpl in HA. rewrite app_nil_r in HA.
  cbv zeta. rewrite HA. auto.
Qed.

(* it stays alive: answers never outrun requests and the lines are well formed *)
Lemma well_formed_app a : forall m b, well_formed m (a ++ b) = true -> well_formed m a = true.
Proof.
  induction a as [|l a IH]; intros m b H; [reflexivity|]. simpl in *.
  destruct (starts_err l); [eapply IH; eauto|]. destruct (ends_multi l); [eapply IH; eauto|].
  destruct (starts_bang l); [eapply IH; eauto|]. destruct m; [discriminate|]. eapply IH; eauto.
Qed.

Definition opt_true {A} (o : option A) : bool := match o with None => false | _ => true end.

Lemma lines_alive ids ls : forall L c, inv ids L c -> c_alive c = true ->
  well_formed (opt_true (acc_of c)) ls = true ->
  length (answers None (L ++ ls)) <= length ids ->
  c_alive (fold_left recv_line ls c) = true
  /\ (forall r, well_formed (opt_true (acc_of c)) (ls ++ r) =
                well_formed (opt_true (acc_of (fold_left recv_line ls c))) r).
Proof.
  induction ls as [|l ls IH]; intros L c Hi Ha Hw Hl; [split; [exact Ha|reflexivity]|].
  pose proof (inv_line ids L c l Hi) as Hi'.
  unfold inv in Hi. rewrite Ha in Hi. destruct Hi as (Hok & A & HA & HlA & Hg & Hwt).
  assert (Hwf : forall c' , (c' = recv_line c l) -> c_alive c' = true ->
     forall r, well_formed (opt_true (acc_of c)) (l :: r) = well_formed (opt_true (acc_of c')) r).
  { intros c' -> Hal r. revert Hal. clear - Ha Hok. unfold recv_line. rewrite Ha, starts_err_eq, starts_bang_eq, !ends_multi_eq.
    destruct c as [cls mu wa bu al go]. unfold acc_ok, acc_of, opt_true in *.
    cbn [c_lines c_multi c_waiting c_buf c_alive c_got negb well_formed] in *. subst al.
    assert (R : forall b x, c_alive (respond (mkClient cls b wa bu true go) x) = true ->
              c_multi (respond (mkClient cls b wa bu true go) x) = None).
    { intros b x. unfold respond. destruct wa; cbn; [discriminate|reflexivity]. }
    destruct (starts_err l) eqn:Eerr; [intros Hal; rewrite (R _ _ Hal); reflexivity|].
    destruct mu as [m|].
    - subst m. destruct (ends_multi l) eqn:Ed; [intros Hal; rewrite (R _ _ Hal); reflexivity|].
      destruct l as [|ch rest]; cbn [c_alive]; [discriminate|]. unfold bang. cbn [starts_bang].
      destruct (Ascii.eqb ch "!"); cbn [c_alive]; [reflexivity|discriminate].
    - destruct (ends_multi l) eqn:Ed.
      + rewrite orb_true_r. intros Hal; rewrite (R _ _ Hal); reflexivity.
      + rewrite orb_false_r. destruct (starts_bang l) eqn:Eb.
        * destruct l as [|ch rest]; [discriminate|]. cbn [starts_bang] in Eb. unfold bang. rewrite Eb. reflexivity.
        * intros Hal; rewrite (R _ _ Hal); reflexivity. }
  assert (Hal : c_alive (recv_line c l) = true).
  { destruct (recv_line_step c l Ha Hok) as [_ [(E1 & _)|[(q & w & a & E0 & E1 & _)|[(E0 & E1 & E2 & E3)|(E1 & E2 & E3 & E4 & E5)]]]];
      try exact E1.
    - exfalso. destruct (E3 ls) as (a & r' & Ea). rewrite HA, Ea, app_length in Hl. simpl in Hl.
      rewrite Hwt in E0. assert (length ids <= length A).
      { destruct (Nat.lt_ge_cases (length A) (length ids)) as [G|G]; [|exact G].
        assert (X : length (skipn (length A) ids) = length ids - length A) by apply skipn_length.
        rewrite E0 in X. simpl in X. lia. }
      lia.
    - exfalso. unfold opt_true in Hw. rewrite (E5 ls) in Hw. discriminate. }
  specialize (Hwf _ eq_refl Hal).
  destruct (IH (L ++ [l]) (recv_line c l) Hi' Hal) as [G1 G2].
  - rewrite <- Hwf. exact Hw.
  - rewrite <- app_assoc. exact Hl.
  - split; [exact G1|]. intros r. simpl app. rewrite Hwf. apply G2.
Qed.

Lemma client_stays_alive es : packets_ok es ->
  well_formed false (lines_of [] (stream es)) = true ->
  (forall e1 e2, es = e1 ++ e2 -> length (answers None (lines_of [] (stream e1))) <= length (sent e1)) ->
  c_alive (crun es) = true
  /\ (forall r, well_formed false (lines_of [] (stream es) ++ r) =
                well_formed (opt_true (acc_of (crun es))) r).
Proof.
  unfold crun. induction es as [|e es IH] using rev_ind; intros Hp Hw Hl.
  - split; reflexivity.
  - pose proof Hp as Hp'. unfold packets_ok in Hp. rewrite Forall_app in Hp. destruct Hp as [Hp He].
    assert (Est : stream (es ++ [e]) = stream es ++ stream [e])
      by (unfold stream; rewrite flat_map_app; reflexivity).
    assert (Ese : sent (es ++ [e]) = sent es ++ sent [e])
      by (unfold sent; rewrite flat_map_app; reflexivity).
    rewrite Est in Hw |- *. rewrite lines_of_app in Hw |- *.
    destruct (IH Hp) as [Ha Hwf].
    + eapply well_formed_app. exact Hw.
    + intros e1 e2 E. apply (Hl e1 (e2 ++ [e])). rewrite E, app_assoc. reflexivity.
    + destruct (client_inv es Hp) as [I B]. unfold crun in I, B.
      rewrite fold_left_app. simpl. set (c := fold_left cstep es client_init) in *.
      inversion He as [|? ? He1 _]; subst. destruct e as [i|b].
      * cbn. rewrite app_nil_r. split; [exact Ha|exact Hwf].
      * destruct He1 as [Hne Has]. cbn [cstep]. unfold recv_packet. rewrite Ha. cbn [negb].
        rewrite (ascii_utf8 b Has). cbn [negb].
        specialize (Hl (es ++ [Packet b]) [] (eq_sym (app_nil_r _))).
        rewrite Est, lines_of_app, Ese in Hl.
        assert (Esb : stream [Packet b] = b) by (simpl; apply app_nil_r).
        rewrite Esb in *. simpl (sent [Packet b]) in Hl. rewrite app_nil_r in Hl.
        destruct b as [|b0 b1]; [congruence|]. set (b := b0 :: b1) in *. clearbody b.
        rewrite (B Ha).
        destruct (split_lines_spec b (tail_of [] (stream es)) (tail_no_nl _ _ (Forall_nil _))) as (S1 & S2 & _).
        rewrite S1, S2. cbv zeta. cbn [c_alive].
        destruct (lines_alive (sent es) (lines_of (tail_of [] (stream es)) b) (lines_of [] (stream es)) c I Ha) as [G1 G2].
        -- rewrite <- Hwf. exact Hw.
        -- exact Hl.
        -- split; [exact G1|]. intros r. rewrite ?app_nil_r, <- app_assoc. etransitivity; [apply Hwf|apply G2].
Qed.

(* ================= C34 bit outputs ================= *)
(* invariant for one key: pending value is the negation of what is shown; outs = shown *)
Definition bo_inv (k : string) (s : bitouts) : Prop :=
  dget k (bo_outs s) = dget k (bo_shown s) /\
  exists b, dget k (bo_shown s) = Some b /\
  (dget k (bo_changes s) = None \/ dget k (bo_changes s) = Some (negb b)).

Definition bo_value (k : string) (s : bitouts) : option bool :=
  match dget k (bo_changes s) with Some v => Some v | None => dget k (bo_shown s) end.

Lemma apply_key k now : NoDup (dkeys now) -> forall s,
  dget k (bo_outs (fold_left bo_apply now s)) = match dget k now with Some v => Some v | None => dget k (bo_outs s) end
  /\ dget k (bo_shown (fold_left bo_apply now s)) = match dget k now with Some v => Some v | None => dget k (bo_shown s) end
  /\ bo_changes (fold_left bo_apply now s) = bo_changes s.
Proof.
  induction now as [|[j v] now IH]; intros Hnd s; [repeat split; reflexivity|].
  simpl in Hnd. inversion Hnd as [|? ? Hj Hnd']; subst. simpl.
  destruct (IH Hnd' (bo_apply s (j, v))) as (E1 & E2 & E3).
  cbn [fst snd bo_apply bo_outs bo_shown bo_changes] in *. rewrite E1, E2, E3.
  destruct (String.eqb_spec k j) as [->|Hn].
  - assert (En : dget j now = None) by (apply dget_None_notin; exact Hj).
    rewrite En, !dget_dset_same. repeat split.
  - rewrite !dget_dset_other by congruence. repeat split.
Qed.

Lemma handle_other k now s j v : j <> k ->
  let s' := bo_handle_change now s (j, v) in
  dget k (bo_outs s') = dget k (bo_outs s) /\ dget k (bo_shown s') = dget k (bo_shown s)
  /\ dget k (bo_changes s') = dget k (bo_changes s).
Proof.
  intros Hn. unfold bo_handle_change. destruct (dget j (bo_outs s)) as [cur|]; [|auto].
  destruct (dget j now) as [ch|].
  - destruct (negb (Bool.eqb ch v)); [|auto]. cbn. rewrite dget_dset_other by congruence. auto.
  - destruct (Bool.eqb v cur); cbn; rewrite !dget_dset_other by congruence; auto.
Qed.

Lemma handle_others k now cs : forall s, ~ In k (map fst cs) ->
  let s' := fold_left (bo_handle_change now) cs s in
  dget k (bo_outs s') = dget k (bo_outs s) /\ dget k (bo_shown s') = dget k (bo_shown s)
  /\ dget k (bo_changes s') = dget k (bo_changes s).
Proof.
  induction cs as [|[j v] cs IH]; intros s Hn; [simpl; auto|].
  simpl in Hn. destruct (IH (bo_handle_change now s (j, v))) as (E1 & E2 & E3); [tauto|].
  destruct (handle_other k now s j v) as (F1 & F2 & F3); [intros ->; tauto|].
  cbv zeta. cbn [fold_left]. rewrite E1, E2, E3. auto.
Qed.

Lemma changes_nodup now cs : forall s, NoDup (dkeys (bo_changes s)) ->
  NoDup (dkeys (bo_changes (fold_left (bo_handle_change now) cs s))).
Proof.
  induction cs as [|[j v] cs IH]; intros s H; [exact H|]. simpl. apply IH.
  unfold bo_handle_change. destruct (dget j (bo_outs s)) as [cur|]; [|exact H].
  destruct (dget j now) as [ch|].
  - destruct (negb (Bool.eqb ch v)); [|exact H]. cbn. apply dset_nodup. exact H.
  - destruct (Bool.eqb v cur); cbn; [apply dset_nodup|]; exact H.
Qed.

Lemma poll_nodup s cs : NoDup (dkeys (bo_changes s)) -> NoDup (dkeys (bo_changes (bo_poll s cs))).
Proof.
  intros H. unfold bo_poll. apply changes_nodup.
  destruct (apply_key ""%string (bo_changes s) H (mkBO (bo_outs s) [] (bo_shown s))) as (_ & _ & E).
  rewrite E. cbn. constructor.
Qed.

Definition poll_report (k : string) (cs : list (string * bool)) : option bool :=
  fold_left (fun acc kv => if String.eqb k (fst kv) then Some (snd kv) else acc) cs None.

Lemma report_acc k cs : forall a,
  fold_left (fun acc kv => if String.eqb k (fst kv) then Some (snd kv) else acc) cs a
  = match poll_report k cs with Some v => Some v | None => a end.
Proof.
  unfold poll_report. induction cs as [|[j v] cs IH]; intros a; [reflexivity|].
  simpl. destruct (String.eqb k j); [|apply IH].
  rewrite (IH (Some v)). destruct (fold_left _ cs None); reflexivity.
Qed.

Lemma report_notin k cs : ~ In k (map fst cs) -> poll_report k cs = None.
Proof.
  unfold poll_report. induction cs as [|[j v] cs IH]; intros H; [reflexivity|]. simpl in *.
  destruct (String.eqb_spec k j) as [->|Hn]; [tauto|]. apply IH. tauto.
Qed.

Lemma report_split k cs v : NoDup (map fst cs) -> poll_report k cs = Some v ->
  exists a b, cs = a ++ (k, v) :: b /\ ~ In k (map fst a) /\ ~ In k (map fst b).
Proof.
  intros Hnd. induction cs as [|[j w] cs IH]; intros H; [discriminate|].
  simpl in Hnd. inversion Hnd as [|? ? Hj Hnd']; subst.
  unfold poll_report in H. simpl in H. rewrite report_acc in H.
  destruct (String.eqb_spec k j) as [->|Hn].
  - rewrite report_notin in H by exact Hj. injection H as ->. exists [], cs. simpl. auto.
  - destruct (poll_report k cs) as [x|] eqn:E; [|discriminate]. injection H as ->.
    destruct (IH Hnd' eq_refl) as (a & b & -> & Ha & Hb). exists ((j, w) :: a), b. simpl.
    repeat split; auto. intros [?|?]; [congruence|tauto].
Qed.

Lemma poll_inv k s cs : NoDup (dkeys (bo_changes s)) -> one_report_each cs -> bo_inv k s ->
  let s' := bo_poll s cs in
  bo_inv k s'
  /\ (forall v, poll_report k cs = Some v -> bo_value k s' = Some v
        /\ exists b, dget k (bo_shown s) = Some b /\ dget k (bo_shown s') = Some (negb b))
  /\ (poll_report k cs = None -> bo_value k s' = bo_value k s /\ dget k (bo_changes s') = None).
Proof.
  intros Hnd H1 (Ho & b & Hb & Hc). unfold bo_poll.
  set (now := bo_changes s) in *. set (s0 := mkBO (bo_outs s) [] (bo_shown s)).
  destruct (apply_key k now Hnd s0) as (A1 & A2 & A3). set (s1 := fold_left bo_apply now s0) in *.
  cbn [s0 bo_outs bo_shown bo_changes] in A1, A2, A3.
  assert (C1 : dget k (bo_changes s1) = None) by (rewrite A3; reflexivity).
  destruct (poll_report k cs) as [v|] eqn:Er.
  - destruct (report_split k cs v H1 Er) as (a & c & -> & Ha & Hcn).
    rewrite fold_left_app. cbn [fold_left].
    destruct (handle_others k now a s1 Ha) as (B1 & B2 & B3).
    set (s2 := fold_left (bo_handle_change now) a s1) in *.
    set (s3 := bo_handle_change now s2 (k, v)).
    destruct (handle_others k now c s3 Hcn) as (D1 & D2 & D3).
    set (s4 := fold_left (bo_handle_change now) c s3) in *.
    assert (G : dget k (bo_outs s3) = dget k (bo_shown s3) /\
                dget k (bo_shown s3) = Some (negb b) /\
                ((v = negb b /\ dget k (bo_changes s3) = None) \/ (v = b /\ dget k (bo_changes s3) = Some v))).
    { unfold s3, bo_handle_change. rewrite B1, A1.
      destruct Hc as [Hc|Hc]; rewrite Hc in *.
      - rewrite Ho, Hb. destruct (Bool.eqb_spec v b) as [->|Hvb].
        + cbn. rewrite !dget_dset_same. auto.
        + cbn. rewrite !dget_dset_same, B3, C1. destruct v, b; try congruence; auto.
      - destruct (Bool.eqb_spec (negb b) v) as [<-|Hvb]; cbn.
        + rewrite B1, B2, B3, A1, A2, C1. auto.
        + rewrite B1, B2, A1, A2, !dget_dset_same. destruct v, b; simpl in Hvb; try congruence; auto. }
    destruct G as (G1 & G2 & G3).
    split; [|split].
    + split; [congruence|]. exists (negb b). rewrite D2, D3, G2. split; [reflexivity|].
      destruct G3 as [[-> ->]|[-> ->]]; [auto|]. right. rewrite negb_involutive. reflexivity.
    + intros v' E. injection E as <-. split.
      * unfold bo_value. rewrite D2, D3, G2. destruct G3 as [[-> ->]|[-> ->]]; reflexivity.
      * exists b. split; [exact Hb|]. rewrite D2. exact G2.
    + discriminate.
  - assert (Hni : ~ In k (map fst cs)).
    { clear - Er. induction cs as [|[j w] cs IH]; [simpl; tauto|]. unfold poll_report in Er. simpl in Er.
      rewrite report_acc in Er. destruct (poll_report k cs) eqn:E; [discriminate|].
      destruct (String.eqb_spec k j); [discriminate|]. simpl. intros [?|?]; [congruence|]. apply IH; auto. }
    destruct (handle_others k now cs s1 Hni) as (B1 & B2 & B3).
    set (s2 := fold_left (bo_handle_change now) cs s1) in *.
    split; [|split].
    + split; [rewrite B1, B2, A1, A2; destruct (dget k now); congruence|].
      rewrite B2, B3, A2, C1. destruct Hc as [-> | ->]; eauto.
    + discriminate.
    + intros _. unfold bo_value. rewrite B3, C1, B2, A2. auto.
Qed.

Lemma init_inv k names : In k names -> bo_inv k (bo_init names).
Proof.
  intros H. unfold bo_init, bo_inv. cbn [bo_outs bo_shown bo_changes]. split; [reflexivity|].
  exists false. split; [|left; reflexivity].
  induction names as [|n names IH]; [destruct H|]. simpl. destruct (String.eqb_spec k n); [reflexivity|].
  apply IH. destruct H; [congruence|assumption].
Qed.

Lemma polls_inv k names h : In k names -> Forall one_report_each h ->
  let s := polls names h in
  NoDup (dkeys (bo_changes s)) /\ bo_inv k s /\
  (forall v, last_report k h = Some v -> bo_value k s = Some v).
Proof.
  intros Hk. unfold polls. induction h as [|cs h IH] using rev_ind; intros Hf.
  - cbn. split; [constructor|]. split; [apply (init_inv k names Hk)|discriminate].
  - rewrite Forall_app in Hf. destruct Hf as [Hf Hcs]. destruct (IH Hf) as (I1 & I2 & I3).
    inversion Hcs as [|? ? Hc1 _]; subst. rewrite fold_left_app. cbn [fold_left].
    set (s := fold_left bo_poll h (bo_init names)) in *.
    destruct (poll_inv k s cs I1 Hc1 I2) as (J1 & J2 & J3).
    split; [apply poll_nodup; exact I1|]. split; [exact J1|].
    intros v. unfold last_report. rewrite concat_app, fold_left_app. simpl. rewrite app_nil_r.
    rewrite report_acc. destruct (poll_report k cs) as [w|] eqn:E.
    + intros Ev. injection Ev as ->. apply J2. reflexivity.
    + intros Ev. destruct (J3 eq_refl) as [-> _]. apply I3. exact Ev.
Qed.
