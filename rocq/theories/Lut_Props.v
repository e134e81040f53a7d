(* C88: the icon of a LUT tells its function. *)
From Coq Require Import String Ascii Bool ZArith Lia List.
From Verif Require Import Base Lut_Model.
Import ListNotations.
Local Open Scope string_scope.
Local Open Scope list_scope.

(* ---- specification ---- *)
Definition letters : list string := ["A"; "B"; "C"; "D"; "E"].
(* The inputs of the LUT. *)
Record env := mkEnv { inA : bool; inB : bool; inC : bool; inD : bool; inE : bool }.
Definition input (v : env) (l : string) : bool :=
  if String.eqb l "A" then inA v else if String.eqb l "B" then inB v else if String.eqb l "C" then inC v else if String.eqb l "D" then inD v else inE v.
(* The output: the bit of FUNC that the inputs point to, A being the highest. *)
Definition place (v : env) : Z := (16 * Z.b2z (inA v) + 8 * Z.b2z (inB v) + 4 * Z.b2z (inC v) + 2 * Z.b2z (inD v) + Z.b2z (inE v))%Z.
Definition lut (fnum : Z) (v : env) : bool := Z.testbit fnum (place v).
(* What is seen of an icon: everything but what is hidden. *)
Definition seen (hidden : list string) (x : string) : bool := negb (smem x hidden).
Definition seen_inputs (hidden : list string) : list string := filter (seen hidden) letters.
(* An input as drawn: with a circle if negated. *)
Definition literal (hidden : list string) (v : env) (l : string) : bool := xorb (seen hidden ("not" ++ l)%string) (input v l).
(* The output of the gate drawn. *)
Definition drawn (hidden : list string) (v : env) (out : bool) : Prop :=
  match filter (seen hidden) ["AND"; "OR"; "NOT"; "LUT"] with
  | [g] => if String.eqb g "AND" then out = forallb (literal hidden v) (seen_inputs hidden)
           else if String.eqb g "OR" then out = existsb (literal hidden v) (seen_inputs hidden)
           else if String.eqb g "NOT" then exists l, seen_inputs hidden = [l] /\ out = negb (input v l) /\ seen hidden ("not" ++ l)%string = false
           else seen_inputs hidden = letters /\ forall l, In l letters -> seen hidden ("not" ++ l)%string = false
  | _ => False
  end.

(* ---- proofs ---- *)
Definition envs : list env :=
  flat_map (fun a => flat_map (fun b => flat_map (fun c => flat_map (fun d => map (mkEnv a b c d) [true; false]) [true; false]) [true; false]) [true; false]) [true; false].
Lemma all_envs v : In v envs. Proof. destruct v as [[] [] [] [] []]; vm_compute; tauto. Qed.
Definition drawnb (hidden : list string) (v : env) (out : bool) : bool :=
  match filter (seen hidden) ["AND"; "OR"; "NOT"; "LUT"] with
  | [g] => if String.eqb g "AND" then Bool.eqb out (forallb (literal hidden v) (seen_inputs hidden))
           else if String.eqb g "OR" then Bool.eqb out (existsb (literal hidden v) (seen_inputs hidden))
           else if String.eqb g "NOT" then match seen_inputs hidden with [l] => Bool.eqb out (negb (input v l)) && negb (seen hidden ("not" ++ l)%string) | _ => false end
           else forallb (seen hidden) letters && forallb (fun l => negb (seen hidden ("not" ++ l)%string)) letters
  | _ => false
  end.
Lemma drawnb_spec h v o : drawnb h v o = true -> drawn h v o.
Proof.
  unfold drawnb, drawn. destruct (filter (seen h) ["AND"; "OR"; "NOT"; "LUT"]) as [|g [|]]; try discriminate.
  destruct (String.eqb g "AND"); [now intros ->%eqb_prop|]. destruct (String.eqb g "OR"); [now intros ->%eqb_prop|]. destruct (String.eqb g "NOT").
  - destruct (seen_inputs h) as [|l [|]]; try discriminate. intros [->%eqb_prop H%negb_true_iff]%andb_true_iff. eauto.
  - intros [A B]%andb_true_iff. rewrite forallb_forall in B. split; [|intros l I; apply negb_true_iff, B, I]. unfold seen_inputs. clear B. revert A. generalize letters as l. induction l as [|x l IH]; [reflexivity|]. cbn [forallb filter]. intros [-> A]%andb_true_iff. now rewrite IH.
Qed.
Lemma zget_In {A} (d : list (Z * A)) k v : zget k d = Some v -> In (k, v) d.
Proof. induction d as [|[k' v'] d IH]; cbn; [discriminate|]. destruct (Z.eqb_spec k k') as [->|]; [intros [= ->]; auto|auto]. Qed.

(* Whatever FUNC is: one gate is drawn, and if that is not the LUT (with all inputs) it is what the LUT
   does, for all inputs. *)
Theorem C88_true fnum v : drawn (get_lut_icon_elements fnum) v (lut fnum v).
Proof.
  assert (T : forallb (fun e => forallb (fun v => drawnb (snd e) v (lut (fst e) v)) envs) lut_elements = true) by (vm_compute; reflexivity).
  unfold get_lut_icon_elements. destruct (zget fnum lut_elements) as [h|] eqn:E.
  - apply zget_In in E. rewrite forallb_forall in T. specialize (T _ E). rewrite forallb_forall in T. apply drawnb_spec. exact (T v (all_envs v)).
  - unfold drawn. change (filter (seen lut_invis) _) with ["LUT"]. cbn [String.eqb Ascii.eqb Bool.eqb]. split; [reflexivity|]. intros l H. repeat (destruct H as [<-|H]; [reflexivity|]). destruct H.
Qed.
Print Assumptions C88_true.

Definition choices : list (list bool) := map (fun v => [inA v; inB v; inC v; inD v; inE v]) envs.
(* The function of a gate with the first n inputs, negated as neg says. *)
Definition gate (func : string) (n : nat) (neg : string -> bool) (v : env) : bool :=
  let lits := map (fun l => xorb (neg l) (input v l)) (firstn n letters) in
  if String.eqb func "AND" then forallb (fun b => b) lits else existsb (fun b => b) lits.
Lemma bits_eq f g : (0 <= f < 2 ^ 32)%Z -> (0 <= g < 2 ^ 32)%Z -> (forall v, lut f v = lut g v) -> f = g.
Proof.
  intros F G H. apply Z.bits_inj'. intros i Hi. destruct (Z.lt_ge_cases i 32) as [L|L].
  - assert (X : exists v, place v = i).
    { assert (T : forallb (fun n => existsb (fun v => Z.eqb (place v) (Z.of_nat n)) envs) (seq 0 32) = true) by (vm_compute; reflexivity).
      rewrite forallb_forall in T. specialize (T (Z.to_nat i)). rewrite in_seq in T. apply existsb_exists in T as (v & _ & T); [|lia]. apply Z.eqb_eq in T. exists v. lia. }
    destruct X as [v <-]. exact (H v).
  - assert (Z : forall x, (0 <= x < 2 ^ 32)%Z -> Z.testbit x i = false).
    { intros x [X1 X2]. destruct (Z.eq_dec x 0) as [->|N]; [apply Z.bits_0|]. apply Z.bits_above_log2; [lia|]. apply Z.log2_lt_pow2; [lia|]. apply Z.lt_le_trans with (2 ^ 32)%Z; [exact X2|]. apply Z.pow_le_mono_r; lia. }
    now rewrite !Z by assumption.
Qed.
(* The number of a function. *)
Definition number (f : env -> bool) : Z := fold_right (fun v acc => (acc + (if f v then 2 ^ place v else 0))%Z) 0%Z envs.
Definition neg_of (bs : list bool) (l : string) : bool :=
  match bs with [a; b; c; d; e] => input (mkEnv a b c d e) l | _ => false end.
Definition checkb (f : Z) (h : list string) (func : string) (n : nat) (bs : list bool) : bool :=
  Z.leb 0 f && Z.ltb f (2 ^ 32) && forallb (fun v => Bool.eqb (lut f v) (gate func n (neg_of bs) v)) envs
  && (if list_eq_dec string_dec (filter (seen h) ["AND"; "OR"; "NOT"; "LUT"]) [func] then true else false)
  && (if list_eq_dec string_dec (seen_inputs h) (firstn n letters) then true else false)
  && forallb (fun l => Bool.eqb (seen h ("not" ++ l)%string) (neg_of bs l)) (firstn n letters)
  && forallb (fun l => Bool.eqb (seen h ("edge" ++ l)%string) (smem l (firstn n letters))) letters.
Lemma checkb_spec f h func n bs : checkb f h func n bs = true ->
  (0 <= f < 2 ^ 32)%Z /\ (forall v, lut f v = gate func n (neg_of bs) v)
  /\ filter (seen h) ["AND"; "OR"; "NOT"; "LUT"] = [func] /\ seen_inputs h = firstn n letters
  /\ (forall l, In l (firstn n letters) -> seen h ("not" ++ l)%string = neg_of bs l)
  /\ (forall l, In l letters -> seen h ("edge" ++ l)%string = smem l (firstn n letters)).
Proof.
  unfold checkb. intros T. rewrite !andb_true_iff in T. destruct T as ((((((T1 & T2) & T3) & T4) & T5) & T6) & T7).
  split; [split; [now apply Z.leb_le|now apply Z.ltb_lt]|]. rewrite forallb_forall in T3, T6, T7. split; [intros v; apply eqb_prop, T3, all_envs|].
  destruct (list_eq_dec string_dec _ [func]) as [G|]; [|discriminate]. destruct (list_eq_dec string_dec _ (firstn n letters)) as [J|]; [|discriminate].
  split; [exact G|]. split; [exact J|]. split; intros l I; apply eqb_prop; auto.
Qed.
Definition all_checks : list (string * nat * list bool) := flat_map (fun func => flat_map (fun n => map (fun bs => (func, n, bs)) choices) [2; 3; 4; 5]) ["AND"; "OR"].
Lemma all_complete : forallb (fun c => let '(func, n, bs) := c in let f := number (gate func n (neg_of bs)) in checkb f (get_lut_icon_elements f) func n bs) all_checks = true.
Proof. vm_compute. reflexivity. Qed.
Lemma complete func n bs : In func ["AND"; "OR"] -> (2 <= n <= 5)%nat -> In bs choices -> exists f, checkb f (get_lut_icon_elements f) func n bs = true.
Proof.
  intros Hf Hn Hb. exists (number (gate func n (neg_of bs))). pose proof all_complete as T. rewrite forallb_forall in T. apply (T (func, n, bs)).
  apply in_flat_map. exists func. split; [exact Hf|]. apply in_flat_map. exists n. split; [cbn; lia|]. apply in_map_iff. eauto.
Qed.
Lemma gate_neg func n neg neg' v : (forall l, In l letters -> neg l = neg' l) -> gate func n neg v = gate func n neg' v.
Proof.
  intros H. unfold gate. replace (map (fun l => xorb (neg l) (input v l)) (firstn n letters)) with (map (fun l => xorb (neg' l) (input v l)) (firstn n letters)); [reflexivity|].
  apply map_ext_in. intros l I. rewrite H; [reflexivity|]. rewrite <- (firstn_skipn n letters). apply in_or_app. now left.
Qed.
(* Every AND or OR of the first 2, 3, 4 or 5 inputs, negated or not, is drawn as itself: no other entry of
   the table took its place (but for none at all). *)
Theorem C88_gates func n neg fnum : In func ["AND"; "OR"] -> (2 <= n <= 5)%nat -> (0 <= fnum < 2 ^ 32)%Z ->
  (forall v, lut fnum v = gate func n neg v) ->
  let h := get_lut_icon_elements fnum in
  filter (seen h) ["AND"; "OR"; "NOT"; "LUT"] = [func] /\ seen_inputs h = firstn n letters
  /\ (forall l, In l (firstn n letters) -> seen h ("not" ++ l)%string = neg l)
  /\ (forall l, In l letters -> seen h ("edge" ++ l)%string = smem l (firstn n letters)).
Proof.
  intros Hf Hn R E. assert (Ib : In (map neg letters) choices) by (apply in_map_iff; exists (mkEnv (neg "A") (neg "B") (neg "C") (neg "D") (neg "E")); split; [reflexivity|apply all_envs]).
  assert (Nb : forall l, In l letters -> neg_of (map neg letters) l = neg l) by (intros l I; repeat (destruct I as [<-|I]; [reflexivity|]); destruct I).
  remember (map neg letters) as bs eqn:Hbs. clear Hbs.
  destruct (complete func n bs Hf Hn Ib) as [f T]. apply checkb_spec in T as (T1 & T2 & T3 & T4 & T5 & T6).
  assert (Ef : fnum = f). { apply bits_eq; [exact R|exact T1|]. intros v. rewrite E, T2. apply gate_neg. intros l I. now rewrite Nb. }
  rewrite Ef. cbv zeta. split; [exact T3|]. split; [exact T4|]. split; [|exact T6]. intros l I. rewrite (T5 l I). apply Nb. rewrite <- (firstn_skipn n letters). apply in_or_app. now left.
Qed.
Print Assumptions C88_gates.
(* A single negated input is drawn as NOT. *)
Theorem C88_not l fnum : In l letters -> (0 <= fnum < 2 ^ 32)%Z -> (forall v, lut fnum v = negb (input v l)) ->
  filter (seen (get_lut_icon_elements fnum)) ["AND"; "OR"; "NOT"; "LUT"] = ["NOT"] /\ seen_inputs (get_lut_icon_elements fnum) = [l].
Proof.
  intros Il R E. assert (Ef : fnum = Z.land (Z.lnot (constant l)) ALL).
  { apply bits_eq; [exact R| |]; repeat (destruct Il as [<-|Il]; [|]); try contradiction; try (vm_compute; split; [discriminate|reflexivity]);
      intros v; rewrite E; destruct v as [[] [] [] [] []]; reflexivity. }
  rewrite Ef. repeat (destruct Il as [<-|Il]; [vm_compute; auto|]). contradiction.
Qed.
Print Assumptions C88_not.
(* A & ~B: 0x00FF0000 *)
Example C88_ex : forall v, lut 0x00FF0000 v = gate "AND" 2 (fun l => String.eqb l "B") v.
Proof. intros [[] [] [] [] []]; reflexivity. Qed.
Example C88_ex_icon : let h := get_lut_icon_elements 0x00FF0000 in seen h "AND" = true /\ seen h "notB" = true /\ seen h "notA" = false /\ seen_inputs h = ["A"; "B"].
Proof. vm_compute. auto. Qed.
Example C88_ex_not : forall v, lut 0x0F0F0F0F v = negb (input v "C"). Proof. intros [[] [] [] [] []]; reflexivity. Qed.
