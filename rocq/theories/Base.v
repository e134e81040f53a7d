(** Shared vocabulary: results with exceptions as values and insertion-ordered
    dictionaries with string keys. *)
From Coq Require Import List String Bool Arith Lia.
Import ListNotations.
Set Implicit Arguments.

(** A Python call either returns a value or raises.  [E] is the kind of
    exception (Python language semantics, no single source line). *)
Inductive result (E A : Type) : Type :=
| Ok (a : A)
| Err (e : E).
Arguments Ok {E A} a.
Arguments Err {E A} e.

(** [dict A] models an [OrderedDict]/[dict] with string keys
    (/repo/malcolm/compat.py re-exports OrderedDict): an association list in
    insertion order.  All operations below keep keys unique. *)
Definition dict (A : Type) := list (string * A).

(** [d.get(k)] (Python dict semantics). *)
Fixpoint dget {A} (k : string) (d : dict A) : option A :=
  match d with
  | [] => None
  | (k', v) :: r => if String.eqb k k' then Some v else dget k r
  end.

(** [k in d] (Python dict semantics). *)
Definition dmem {A} (k : string) (d : dict A) : bool :=
  match dget k d with Some _ => true | None => false end.

(** [d[k] = v]: a key already present keeps its position, a new key goes to the
    end (Python dict semantics). *)
Fixpoint dset {A} (k : string) (v : A) (d : dict A) : dict A :=
  match d with
  | [] => [(k, v)]
  | (k', v') :: r => if String.eqb k k' then (k', v) :: r else (k', v') :: dset k v r
  end.

(** [del d[k]] / [d.pop(k, None)] (Python dict semantics). *)
Fixpoint ddel {A} (k : string) (d : dict A) : dict A :=
  match d with
  | [] => []
  | (k', v') :: r => if String.eqb k k' then r else (k', v') :: ddel k r
  end.

(** [x in l] for a list or set of strings (Python list semantics). *)
Definition smem (k : string) (l : list string) : bool := existsb (String.eqb k) l.

(** [list(d)] (Python dict semantics). *)
Definition dkeys {A} (d : dict A) : list string := map fst d.

Lemma smem_In : forall k l, smem k l = true <-> In k l.
Proof.
  intros k l; unfold smem; rewrite existsb_exists; split.
  - intros [x [Hi He]]; apply String.eqb_eq in He; subst; auto.
  - intros Hi; exists k; split; auto; apply String.eqb_refl.
Qed.

Lemma smem_false : forall k l, smem k l = false <-> ~ In k l.
Proof.
  intros k l; rewrite <- smem_In; destruct (smem k l); split; intros; try congruence; auto.
Qed.

Lemma dget_dset_same : forall A k (v : A) d, dget k (dset k v d) = Some v.
Proof.
  intros A k v d; induction d as [|[k' v'] r IH]; simpl.
  - now rewrite String.eqb_refl.
  - destruct (String.eqb k k') eqn:E; simpl; rewrite E; auto.
Qed.

Lemma dget_dset_other : forall A k k2 (v : A) d, k <> k2 -> dget k2 (dset k v d) = dget k2 d.
Proof.
  intros A k k2 v d H; induction d as [|[k' v'] r IH]; simpl.
  - destruct (String.eqb k2 k) eqn:E; auto. apply String.eqb_eq in E; congruence.
  - destruct (String.eqb k k') eqn:E; simpl.
    + apply String.eqb_eq in E; subst k'.
      destruct (String.eqb k2 k) eqn:E2; auto. apply String.eqb_eq in E2; congruence.
    + destruct (String.eqb k2 k'); auto.
Qed.

Lemma dget_dset : forall A k k2 (v : A) d,
  dget k2 (dset k v d) = if String.eqb k2 k then Some v else dget k2 d.
Proof.
  intros. destruct (String.eqb k2 k) eqn:E.
  - apply String.eqb_eq in E; subst; apply dget_dset_same.
  - apply dget_dset_other. intro; subst; rewrite String.eqb_refl in E; discriminate.
Qed.

Lemma dget_None_notin : forall A k (d : dict A), dget k d = None <-> ~ In k (dkeys d).
Proof.
  intros A k d; unfold dkeys; induction d as [|[k' v'] r IH]; simpl.
  - tauto.
  - destruct (String.eqb k k') eqn:E.
    + apply String.eqb_eq in E; subst; split; [discriminate | intros H; exfalso; auto].
    + rewrite IH. assert (k <> k') by (intro; subst; rewrite String.eqb_refl in E; discriminate).
      split; intros H1; [intros [H2|H2]; [congruence | auto] | intros H2; apply H1; auto].
Qed.

Lemma dget_Some_In : forall A k (v : A) d, dget k d = Some v -> In (k, v) d.
Proof.
  intros A k v d; induction d as [|[k' v'] r IH]; simpl; [discriminate|].
  destruct (String.eqb k k') eqn:E; intros H.
  - apply String.eqb_eq in E; injection H as ->; subst; auto.
  - auto.
Qed.

Lemma dget_Some_key : forall A k (v : A) d, dget k d = Some v -> In k (dkeys d).
Proof. intros; apply dget_Some_In in H; apply in_map with (f := fst) in H; exact H. Qed.

Lemma dget_In_nodup : forall A k (v : A) d,
  NoDup (dkeys d) -> In (k, v) d -> dget k d = Some v.
Proof.
  intros A k v d; unfold dkeys; induction d as [|[k' v'] r IH]; simpl; [tauto|].
  intros Hn [H|H]; inversion Hn as [|x y Hx Hy]; subst.
  - injection H as -> ->; now rewrite String.eqb_refl.
  - destruct (String.eqb k k') eqn:E; auto.
    apply String.eqb_eq in E; subst. exfalso; apply Hx.
    apply in_map with (f := fst) in H; exact H.
Qed.

Lemma dmem_In : forall A k (d : dict A), dmem k d = true <-> In k (dkeys d).
Proof.
  intros A k d; unfold dmem. destruct (dget k d) eqn:E.
  - split; auto. intros _. eapply dget_Some_key; eauto.
  - apply dget_None_notin in E. split; [discriminate | tauto].
Qed.

Lemma dmem_false : forall A k (d : dict A), dmem k d = false <-> ~ In k (dkeys d).
Proof. intros; rewrite <- dmem_In; destruct (dmem k d); split; intros; try congruence; auto. Qed.

Lemma dkeys_dset_in : forall A k (v : A) d, In k (dkeys d) -> dkeys (dset k v d) = dkeys d.
Proof.
  intros A k v d; unfold dkeys; induction d as [|[k' v'] r IH]; simpl; [tauto|].
  destruct (String.eqb k k') eqn:E; simpl; auto.
  intros [H|H]; [subst; rewrite String.eqb_refl in E; discriminate | f_equal; auto].
Qed.

Lemma dkeys_dset_notin : forall A k (v : A) d,
  ~ In k (dkeys d) -> dkeys (dset k v d) = dkeys d ++ [k].
Proof.
  intros A k v d; unfold dkeys; induction d as [|[k' v'] r IH]; simpl; auto.
  intros H; destruct (String.eqb k k') eqn:E.
  - apply String.eqb_eq in E; subst; exfalso; auto.
  - simpl; f_equal; auto.
Qed.

Lemma dset_nodup : forall A k (v : A) d, NoDup (dkeys d) -> NoDup (dkeys (dset k v d)).
Proof.
  intros A k v d H. destruct (in_dec string_dec k (dkeys d)) as [Hi|Hi].
  - now rewrite dkeys_dset_in.
  - rewrite dkeys_dset_notin by auto.
    apply NoDup_Add with (a := k) (l := dkeys d); auto.
    rewrite <- (app_nil_r (dkeys d)) at 1. apply Add_app.
Qed.

Lemma In_dkeys_dset : forall A k k2 (v : A) d,
  In k2 (dkeys (dset k v d)) <-> k2 = k \/ In k2 (dkeys d).
Proof.
  intros A k k2 v d. destruct (in_dec string_dec k (dkeys d)) as [Hi|Hi].
  - rewrite dkeys_dset_in by auto. split; auto. intros [->|]; auto.
  - rewrite dkeys_dset_notin by auto. rewrite in_app_iff; simpl; split.
    + intros [H|[H|[]]]; auto.
    + intros [H|H]; auto.
Qed.

Lemma dkeys_ddel_sub : forall A k (d : dict A) x, In x (dkeys (ddel k d)) -> In x (dkeys d).
Proof.
  intros A k d x; unfold dkeys; induction d as [|[k' v'] r IH]; simpl; auto.
  destruct (String.eqb k k'); simpl; tauto.
Qed.

Lemma ddel_nodup : forall A k (d : dict A), NoDup (dkeys d) -> NoDup (dkeys (ddel k d)).
Proof.
  intros A k d; induction d as [|[k' v'] r IH]; simpl; intros H; auto.
  inversion H; subst. destruct (String.eqb k k'); auto. simpl; constructor; auto.
  intros Hi. apply dkeys_ddel_sub in Hi. auto.
Qed.

Lemma dget_ddel : forall A k k2 (d : dict A), NoDup (dkeys d) ->
  dget k2 (ddel k d) = if String.eqb k2 k then None else dget k2 d.
Proof.
  intros A k k2 d; induction d as [|[k' v'] r IH]; simpl; intros H.
  - now destruct (String.eqb k2 k).
  - inversion H; subst. destruct (String.eqb k k') eqn:E.
    + apply String.eqb_eq in E; subst k'. destruct (String.eqb k2 k) eqn:E2; auto.
      apply String.eqb_eq in E2; subst. now apply dget_None_notin.
    + simpl. destruct (String.eqb k2 k') eqn:E2; [|auto].
      apply String.eqb_eq in E2; subst. destruct (String.eqb k' k) eqn:E3; auto.
      apply String.eqb_eq in E3; subst. rewrite String.eqb_refl in E; discriminate.
Qed.

Lemma In_ddel : forall A k (d : dict A) x,
  NoDup (dkeys d) -> (In x (ddel k d) <-> In x d /\ fst x <> k).
Proof.
  intros A k d [a b]; induction d as [|[k' v'] r IH]; simpl; intros H; [tauto|].
  inversion H as [|? ? Hx Hy]; subst. destruct (String.eqb k k') eqn:E.
  - apply String.eqb_eq in E; subst k'. split.
    + intros Hi; split; auto. intros ->. apply Hx. apply in_map with (f := fst) in Hi. exact Hi.
    + intros [[Hi|Hi] Hn]; auto. injection Hi as -> ->. congruence.
  - assert (k <> k') by (intro; subst; rewrite String.eqb_refl in E; discriminate).
    simpl; rewrite IH by auto. split.
    + intros [Hi|[Hi Hn]]; [injection Hi as -> ->; auto | auto].
    + intros [[Hi|Hi] Hn]; auto.
Qed.
