(** Lemmas for C54. *)
From Coq Require Import String Ascii Bool QArith Qround ZArith Lia List.
From Verif Require Import Base Hdf_Model Hdf_Spec Hdf_Proofs Odin_Model Odin_Spec.
Import ListNotations.
Local Open Scope nat_scope.
Local Open Scope string_scope.
Local Open Scope list_scope.

(** ** Frames *)

Lemma mod_split : forall n b c, 0 < b -> 0 < c -> n mod (c * b) = n mod b + b * ((n / b) mod c).
Proof. intros. rewrite (Nat.mul_comm c b). rewrite Nat.mod_mul_r by lia. reflexivity. Qed.
Lemma div_split : forall n b c, 0 < b -> 0 < c -> n / (c * b) = n / b / c.
Proof. intros. rewrite (Nat.mul_comm c b). rewrite <- Nat.div_div by lia. reflexivity. Qed.

Definition share (n b c i : nat) : nat := n / (c * b) * b + Nat.min b (n mod (c * b) - i * b).

Lemma share_step : forall n b c i, 0 < b -> 0 < c -> i < c ->
  share (S n) b c i = share n b c i + (if Nat.eqb ((n / b) mod c) i then 1 else 0).
Proof.
  intros n b c i B C I. unfold share.
  pose proof (Nat.div_mod n (c * b) ltac:(nia)) as D. pose proof (Nat.mod_upper_bound n (c * b) ltac:(nia)) as U.
  pose proof (mod_split n b c B C) as M. pose proof (Nat.mod_upper_bound n b ltac:(lia)) as U1.
  pose proof (Nat.mod_upper_bound (n / b) c ltac:(lia)) as U2.
  set (q := n / (c * b)) in *. set (r := n mod (c * b)) in *. set (j := (n / b) mod c) in *. set (s := n mod b) in *.
  assert (E : (S n) / (c * b) = (if Nat.eqb (S r) (c * b) then S q else q) /\
              (S n) mod (c * b) = (if Nat.eqb (S r) (c * b) then 0 else S r)).
  { destruct (Nat.eqb_spec (S r) (c * b)) as [K|K].
    - split; [symmetry; apply (Nat.div_unique (S n) (c * b) (S q) 0) | symmetry; apply (Nat.mod_unique (S n) (c * b) (S q) 0)]; nia.
    - split; [symmetry; apply (Nat.div_unique (S n) (c * b) q (S r)) | symmetry; apply (Nat.mod_unique (S n) (c * b) q (S r))]; nia. }
  destruct E as [-> ->]. clearbody q r j s. clear D U.
  assert (R : r = s + b * j) by lia. subst r.
  destruct (Nat.eqb_spec j i) as [->|N].
  - destruct (Nat.eqb_spec (S (s + b * i)) (c * b)) as [K|K].
    + assert (c = S i) by nia. subst c. assert (S s = b) by nia. subst b. rewrite !Nat.min_r by nia. nia.
    + rewrite !Nat.min_r by nia. nia.
  - destruct (Nat.eqb_spec (S (s + b * j)) (c * b)) as [K|K].
    + assert (S j = c) by nia. assert (S s = b) by nia. subst b c. rewrite (Nat.min_l (S s) (s + S s * j - i * S s)) by nia.
      rewrite Nat.min_r by lia. nia.
    + destruct (Nat.lt_trichotomy j i) as [L|[L|L]]; [|contradiction|].
      * replace (S (s + b * j) - i * b) with 0 by nia. replace (s + b * j - i * b) with 0 by nia. lia.
      * rewrite !Nat.min_l by nia. lia.
Qed.

Lemma dealt_share : forall n b c i, 0 < b -> 0 < c -> i < c -> length (dealt n b c i) = share n b c i.
Proof.
  intros n b c i B C I. unfold dealt. induction n as [|n IH].
  - unfold share. rewrite Nat.div_0_l, Nat.mod_0_l by nia. cbn. lia.
  - rewrite seq_S, filter_app, app_length, IH, share_step by assumption. cbn. destruct (Nat.eqb ((n / b) mod c) i); reflexivity.
Qed.

Lemma down_length : forall r b, 0 < b -> length (down r b) = (r + b - 1) / b.
Proof. intros. unfold down. now rewrite map_length, seq_length. Qed.
Lemma down_ceil : forall r b i, 0 < b -> (i < (r + b - 1) / b <-> i * b < r).
Proof.
  intros r b i B. pose proof (Nat.div_mod (r + b - 1) b ltac:(lia)) as D. pose proof (Nat.mod_upper_bound (r + b - 1) b ltac:(lia)) as U.
  set (q := (r + b - 1) / b) in *. set (m := (r + b - 1) mod b) in *. clearbody q m. split; intros H; nia.
Qed.
Lemma nth_down : forall r b i k, 0 < b ->
  nth i (map (fun x => if Nat.ltb b x then b else x) (down r b) ++ repeat 0 k) 0 = Nat.min b (r - i * b).
Proof.
  intros r b i k B. destruct (Nat.lt_ge_cases i ((r + b - 1) / b)) as [L|L].
  - rewrite app_nth1 by (rewrite map_length, down_length; assumption).
    unfold down. rewrite map_map.
    rewrite (nth_indep _ 0 ((fun x => if Nat.ltb b (r - x * b) then b else r - x * b) 0)) by (rewrite map_length, seq_length; exact L).
    rewrite (map_nth (fun x => if Nat.ltb b (r - x * b) then b else r - x * b)), seq_nth by exact L. cbn [Nat.add].
    destruct (Nat.ltb_spec b (r - i * b)); lia.
  - assert (r <= i * b). { destruct (Nat.le_gt_cases r (i * b)) as [K|K]; [exact K|]. apply (down_ceil r b i B) in K. lia. }
    rewrite app_nth2 by (rewrite map_length, down_length; assumption). rewrite nth_repeat. lia.
Qed.
Lemma whole_part : forall n b c k, 0 < b -> 0 < c ->
  Z.to_nat (Qfloor ((Z.of_nat n # Pos.of_nat (c * b)) * inject_Z (Z.of_nat b) + inject_Z (Z.of_nat k))) = n / c + k.
Proof.
  intros n b c k B C.
  assert (E : ((Z.of_nat n # Pos.of_nat (c * b)) * inject_Z (Z.of_nat b) + inject_Z (Z.of_nat k) ==
               (Z.of_nat (n + k * c) # Pos.of_nat c))%Q).
  { unfold Qeq, Qmult, Qplus, inject_Z. cbn [Qnum Qden]. rewrite !Pos2Z.inj_mul, <- !positive_nat_Z, !Nat2Pos.id by nia. nia. }
  rewrite (Qfloor_comp _ _ E). unfold Qfloor. rewrite <- positive_nat_Z, Nat2Pos.id by lia.
  rewrite <- Nat2Z.inj_div, Nat2Z.id, Nat.div_add by lia. reflexivity.
Qed.
Lemma shape_closed : forall n b c, 0 < b -> 0 < c ->
  files_shape n b c = Ok (map (fun i => share n b c i + (n mod (c * b)) / c) (seq 0 c)).
Proof.
  intros n b c B C. unfold files_shape. destruct (Nat.eqb_spec (c * b) 0) as [K|K]; [nia|]. f_equal. apply map_ext.
  intros i. rewrite nth_down, whole_part by assumption. unfold share.
  assert (n / c = n / (c * b) * b + n mod (c * b) / c) as ->; [|lia].
  rewrite (Nat.div_mod n (c * b)) at 1 by lia.
  replace (c * b * (n / (c * b)) + n mod (c * b)) with (n mod (c * b) + (n / (c * b) * b) * c) by lia. rewrite Nat.div_add by lia. lia.
Qed.

Lemma total_app : forall l m, total (l ++ m) = total l + total m.
Proof. intros l m; induction l as [|x l IH]; [reflexivity|]. cbn. fold (total (l ++ m)) (total l). lia. Qed.
Lemma total_shares : forall b c n, 0 < b -> 0 < c -> total (map (share n b c) (seq 0 c)) = n.
Proof.
  intros b c n B C. induction n as [|n IH].
  - assert (Z : forall l, total (map (share 0 b c) l) = 0); [|apply Z].
    intros l; induction l as [|i l IH]; [reflexivity|]. cbn [map total fold_right]. fold (total (map (share 0 b c) l)). rewrite IH.
    unfold share. rewrite Nat.div_0_l, Nat.mod_0_l by nia. lia.
  - assert (K : forall m, m <= c -> total (map (share (S n) b c) (seq 0 m)) =
              total (map (share n b c) (seq 0 m)) + (if Nat.ltb ((n / b) mod c) m then 1 else 0)).
    { intros m; induction m as [|m IHm]; intros Hm; [reflexivity|]. rewrite !seq_S, !map_app, !total_app, IHm by lia.
      cbn [Nat.add map total fold_right]. rewrite share_step by lia. rewrite !Nat.add_0_r.
      destruct (Nat.eqb_spec ((n / b) mod c) m), (Nat.ltb_spec ((n / b) mod c) m), (Nat.ltb_spec ((n / b) mod c) (S m)); lia. }
    rewrite K, IH by lia. pose proof (Nat.mod_upper_bound (n / b) c ltac:(lia)). destruct (Nat.ltb_spec ((n / b) mod c) c); lia.
Qed.
Lemma total_plus : forall A (f : A -> nat) k l, total (map (fun i => f i + k) l) = total (map f l) + length l * k.
Proof. intros A f k l; induction l as [|x l IH]; [reflexivity|]. cbn [map total fold_right length]. fold (total (map (fun i => f i + k) l)) (total (map f l)). rewrite IH. lia. Qed.
