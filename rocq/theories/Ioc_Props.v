(* C95: the status block of an IOC tells what it runs and whether it runs. *)
From Coq Require Import String Ascii Bool Arith Lia List.
From Verif Require Import Base Yaml_Spec Yaml_Proofs Ioc_Model.
From Verif Require Yaml_Model Savu_Model Bus_Model.
Local Infix "+++" := String.append (at level 60, right associativity).
Import ListNotations.
Local Open Scope string_scope.
Local Open Scope list_scope.

(* ==== Specification ==== *)
(* the text without its spaces *)
Fixpoint squeeze (s : string) : string :=
  match s with
  | EmptyString => ""
  | String c r => if Ascii.eqb c " " then squeeze r else String c (squeeze r)
  end.
(* a line of configure/RELEASE gives the name n the value v *)
Definition gives (l n v : string) : Prop :=
  (forall r, l <> String "#" r) /\ squeeze l = n +++ "=" +++ v /\ ~ has "="%char n /\ ~ has "="%char v.
(* the file gives n the value v: the last line that gives n a value gives this one *)
Definition file_gives (lines : list string) (n v : string) : Prop :=
  exists a l b, lines = a ++ l :: b /\ gives l n v /\ forall l' v', In l' b -> ~ gives l' n v'.
(* the names in the order of the lines that give them a value *)
Inductive names : list string -> list string -> Prop :=
| nm_nil : names [] []
| nm_gives l n v ls ns : gives l n v -> names ls ns -> names (l :: ls) (n :: ns)
| nm_not l ls ns : (forall n v, ~ gives l n v) -> names ls ns -> names (l :: ls) ns.
(* each name where it is first seen *)
Fixpoint firsts (seen ns : list string) : list string :=
  match ns with
  | [] => []
  | n :: r => if in_dec string_dec n seen then firsts seen r else n :: firsts (n :: seen) r
  end.

(* what a value stands for: each $(name) of a name with a value is what that value stands for, at
   any depth; the other text and the references to other names stay *)
Inductive stands_for (defs : string -> option (list token)) : list token -> string -> Prop :=
| sf_nil : stands_for defs [] ""
| sf_lit c r v : stands_for defs r v -> stands_for defs (Lit c :: r) (write (Lit c) +++ v)
| sf_dollar c r v : stands_for defs r v -> stands_for defs (Dollar c :: r) (write (Dollar c) +++ v)
| sf_def n ts r v w : defs n = Some ts -> stands_for defs ts v -> stands_for defs r w ->
    stands_for defs (Ref n :: r) (v +++ w)
| sf_other n r w : defs n = None -> stands_for defs r w ->
    stands_for defs (Ref n :: r) (write (Ref n) +++ w).
(* defs are the values that the file gives, with brackets that match *)
Definition values_of (lines : list string) (defs : string -> option (list token)) : Prop :=
  (forall n v, file_gives lines n v <-> exists ts, defs n = Some ts /\ v = text ts) /\
  (forall n ts, defs n = Some ts -> Forall token_ok ts /\ ~ has rparen n).

(* the last update with a good value, of each PV *)
Definition last_dir1 (es : list event) (x : string) : Prop :=
  exists a b, es = a ++ Dir1 (Some x) :: b /\ forall y, ~ In (Dir1 (Some y)) b.
Definition last_dir2 (es : list event) (x : string) : Prop :=
  exists a b, es = a ++ Dir2 (Some x) :: b /\ forall y, ~ In (Dir2 (Some y)) b.
Definition is_dir (e : event) : Prop := match e with Dir1 _ | Dir2 _ => True | _ => False end.
(* says nothing new: a status that is not good *)
Definition silent (e : event) : Prop := match e with Version _ | Status true => False | _ => True end.

(* ==== Proofs: a line ==== *)
Lemma squeeze_eq s : Yaml_Model.replace " " "" s = squeeze s.
Proof.
  unfold Yaml_Model.replace. induction s as [|c r IH]; [reflexivity|].
  cbn [Yaml_Model.replace_from squeeze]. cbn [String.prefix].
  destruct (ascii_dec " " c) as [<-|N].
  - rewrite Ascii.eqb_refl. destruct r; exact IH.
  - destruct (Ascii.eqb_spec c " ") as [->|_]; [congruence|]. now rewrite IH.
Qed.
Lemma split_none c s : ~ has c s -> Savu_Model.split c s = [s].
Proof.
  induction s as [|x r IH]; cbn [has Savu_Model.split]; intro H; [reflexivity|].
  destruct (Ascii.eqb_spec x c) as [->|_]; [tauto|]. rewrite IH by tauto. reflexivity.
Qed.
Lemma split_cons c a b : ~ has c a -> Savu_Model.split c (a +++ String c b) = a :: Savu_Model.split c b.
Proof.
  induction a as [|x r IH]; cbn [has String.append Savu_Model.split]; intro H.
  - now rewrite Ascii.eqb_refl.
  - destruct (Ascii.eqb_spec x c) as [->|_]; [tauto|]. rewrite IH by tauto. reflexivity.
Qed.
Lemma split_not_nil c s : Savu_Model.split c s <> [].
Proof. destruct s as [|x r]; cbn; [discriminate|]. destruct (Ascii.eqb x c); [discriminate|]. now destruct (Savu_Model.split c r). Qed.
Lemma split_one c s a : Savu_Model.split c s = [a] -> s = a /\ ~ has c a.
Proof.
  revert a. induction s as [|x r IH]; intros a; cbn [Savu_Model.split].
  - intro H. injection H as <-. cbn. tauto.
  - destruct (Ascii.eqb_spec x c) as [->|N].
    + intro H. injection H as _ H. now apply split_not_nil in H.
    + destruct (Savu_Model.split c r) as [|w l] eqn:E; [now apply split_not_nil in E|].
      intro H. injection H as <- ->. destruct (IH w eq_refl) as [-> F]. split; [reflexivity|]. cbn. tauto.
Qed.
Lemma split_two c s a b : Savu_Model.split c s = [a; b] -> s = a +++ String c b /\ ~ has c a /\ ~ has c b.
Proof.
  revert a. induction s as [|x r IH]; intros a; cbn [Savu_Model.split].
  - discriminate.
  - destruct (Ascii.eqb_spec x c) as [->|N].
    + intro H. injection H as <- H. destruct (split_one _ _ _ H) as [-> F]. cbn. tauto.
    + destruct (Savu_Model.split c r) as [|w l] eqn:E; [now apply split_not_nil in E|].
      intro H. injection H as <- ->. destruct (IH w eq_refl) as (-> & F & G). cbn. tauto.
Qed.
Lemma comment_spec l : comment l = false <-> forall r, l <> String "#" r.
Proof.
  unfold comment. destruct l as [|c r]; cbn [String.prefix]; [split; congruence|].
  destruct (ascii_dec "#" c) as [<-|N].
  - destruct r; split; try discriminate; intro H; exfalso; eapply H; reflexivity.
  - split; [|reflexivity]. intros _ q E. congruence.
Qed.

(* the name and value of a line *)
Definition pair_of (l : string) : option (string * string) :=
  if comment l then None
  else match Savu_Model.split "="%char (Yaml_Model.replace " " "" l) with [k; v] => Some (k, v) | _ => None end.
Lemma pair_gives l n v : pair_of l = Some (n, v) <-> gives l n v.
Proof.
  unfold pair_of, gives. rewrite <- comment_spec, squeeze_eq. split.
  - destruct (comment l); [discriminate|]. destruct (Savu_Model.split _ _) as [|a [|b [|]]] eqn:E; try discriminate.
    intro H. injection H as -> ->. destruct (split_two _ _ _ _ E) as (S & F & G). auto.
  - intros (-> & S & F & G). rewrite S. change (n +++ "=" +++ v) with (n +++ String "=" v).
    rewrite split_cons, split_none by assumption. reflexivity.
Qed.
Definition put (d : dict string) (l : string) : dict string :=
  match pair_of l with Some (n, v) => dset n v d | None => d end.
Lemma read_put lines : forall d, fold_left assign (filter (fun l => negb (comment l)) lines) d = fold_left put lines d.
Proof.
  induction lines as [|l r IH]; intros d; [reflexivity|]. cbn [filter fold_left]. unfold put at 2, pair_of.
  destruct (comment l); cbn [negb]; [apply IH|]. cbn [fold_left]. rewrite IH. unfold assign.
  now destruct (Savu_Model.split _ _) as [|? [|? [|]]].
Qed.
Lemma gives_dec l : (exists n v, gives l n v) \/ (forall n v, ~ gives l n v).
Proof.
  destruct (pair_of l) as [[n v]|] eqn:E.
  - left. exists n, v. now apply pair_gives.
  - right. intros n v H. apply pair_gives in H. congruence.
Qed.

(* the table before the references are replaced *)
Lemma put_get lines : forall d n v, dget n (fold_left put lines d) = Some v <->
  file_gives lines n v \/ ((forall l w, In l lines -> ~ gives l n w) /\ dget n d = Some v).
Proof.
  induction lines as [|l r IH]; intros d n v; cbn [fold_left].
  - split; [intro H; right; split; [intros ? ? []|exact H]|].
    intros [(a & x & b & E & _)|[_ H]]; [destruct a; discriminate|exact H].
  - rewrite IH. split.
    + intros [(a & x & b & -> & G & H)|[F H]].
      * left. exists (l :: a), x, b. auto.
      * unfold put in H. destruct (pair_of l) as [[m w]|] eqn:E.
        -- rewrite dget_dset in H. destruct (String.eqb_spec n m) as [->|N].
           ++ injection H as ->. left. exists [], l, r. split; [reflexivity|]. split; [now apply pair_gives|]. intros; now apply F.
           ++ right. split; [|exact H]. intros x y [<-|I]; [|now apply F].
              intro G. apply pair_gives in G. congruence.
        -- right. split; [|exact H]. intros x y [<-|I]; [|now apply F]. intro G. apply pair_gives in G. congruence.
    + intros [(a & x & b & E & G & H)|[F H]].
      * destruct a as [|a0 a].
        -- injection E as -> ->. right. split; [intros ? ? I; now apply H|].
           apply pair_gives in G. unfold put. rewrite G. apply dget_dset_same.
        -- injection E as -> ->. left. exists a, x, b. auto.
      * right. split; [intros ? ? I; apply F; now right|]. unfold put.
        destruct (pair_of l) as [[m w]|] eqn:E; [|exact H]. rewrite dget_dset.
        destruct (String.eqb_spec n m) as [->|N]; [|exact H]. exfalso.
        eapply (F l w); [now left|]. now apply pair_gives.
Qed.
Lemma read_get lines n v : dget n (read_release lines) = Some v <-> file_gives lines n v.
Proof.
  unfold read_release. rewrite read_put, put_get. cbn [dget]. split; [intros [H|[_ H]]; [exact H|discriminate]|auto].
Qed.
Lemma read_nodup lines : NoDup (dkeys (read_release lines)).
Proof.
  unfold read_release. rewrite read_put. assert (N : NoDup (dkeys (@nil (string * string)))) by constructor.
  revert N. generalize (@nil (string * string)) as d. induction lines as [|l r IH]; intros d N; [exact N|].
  cbn [fold_left]. apply IH. unfold put. destruct (pair_of l) as [[m w]|]; [|exact N]. now apply dset_nodup.
Qed.
Lemma read_keys lines : forall d ns seen, names lines ns -> (forall x, In x seen <-> In x (dkeys d)) ->
  dkeys (fold_left put lines d) = dkeys d ++ firsts seen ns.
Proof.
  induction lines as [|l r IH]; intros d ns seen H S.
  - inversion H; subst. cbn [fold_left firsts]. now rewrite app_nil_r.
  - cbn [fold_left]. inversion H; subst.
    + match goal with G : gives _ _ _ |- _ => apply pair_gives in G; unfold put at 2; rewrite G end.
      cbn [firsts]. destruct (in_dec string_dec n seen) as [I|I].
      * assert (J : In n (dkeys d)) by now apply S.
        rewrite (IH _ ns0 seen); [now rewrite dkeys_dset_in by exact J|assumption|].
        intro x. rewrite dkeys_dset_in by exact J. apply S.
      * rewrite (IH _ ns0 (n :: seen)); [|assumption|].
        -- rewrite dkeys_dset_notin by (intro J; apply I; now apply S). now rewrite <- app_assoc.
        -- intro x. rewrite dkeys_dset_notin by (intro J; apply I; now apply S). rewrite in_app_iff. cbn [In]. rewrite <- S. tauto.
    + unfold put at 2. destruct (pair_of l) as [[m w]|] eqn:E; [|now apply IH].
      exfalso. match goal with F : forall _ _, ~ gives _ _ _ |- _ => apply (F m w) end. now apply pair_gives.
Qed.

(* ==== Proofs: the references ==== *)
Definition fillt (k : string) (vs : list token) (t : token) : list token :=
  match t with Ref n => if String.eqb n k then vs else [t] | _ => [t] end.
Lemma replace_tokens k vs ts : ~ has rparen k -> Forall token_ok ts ->
  Yaml_Model.replace ("$(" ++ k ++ ")")%string (text vs) (text ts) = text (flat_map (fillt k vs) ts).
Proof.
  intros Hk H. change ("$(" ++ k ++ ")")%string with (mark k). rewrite replace_one by assumption. clear H.
  induction ts as [|t ts IH]; [reflexivity|]. cbn [flat_map]. rewrite !text_app, IH. f_equal.
  destruct t as [c|c|n]; try reflexivity. cbn [fill1 fillt]. destruct (String.eqb n k); [|reflexivity].
  apply text_lits.
Qed.
Lemma fillt_ok k vs ts : Forall token_ok vs -> Forall token_ok ts -> Forall token_ok (flat_map (fillt k vs) ts).
Proof.
  intros Hv H. induction H as [|t ts Ht H IH]; cbn [flat_map]; [constructor|].
  apply Forall_app. split; [|exact IH]. destruct t as [c|c|n]; cbn [fillt]; try (constructor; [exact Ht|constructor]).
  destruct (String.eqb n k); [exact Hv|constructor; [exact Ht|constructor]].
Qed.
Lemma fillt_ref k vs ts m : In (Ref m) (flat_map (fillt k vs) ts) ->
  (In (Ref m) ts /\ m <> k) \/ (In (Ref k) ts /\ In (Ref m) vs).
Proof.
  rewrite in_flat_map. intros (t & I & J). destruct t as [c|c|n]; cbn [fillt] in J.
  - destruct J as [J|[]]; discriminate.
  - destruct J as [J|[]]; discriminate.
  - destruct (String.eqb_spec n k) as [->|N]; [auto|]. destruct J as [J|[]]. injection J as ->. auto.
Qed.

(* the file with its values as tokens *)
Definition tdict := list (string * list token).
Definition texts (D : tdict) : dict string := map (fun kv => (fst kv, text (snd kv))) D.
Definition texpand1 (D : tdict) (k : string) : tdict :=
  match dget k D with
  | Some vs => map (fun kv => (fst kv, flat_map (fillt k vs) (snd kv))) D
  | None => D
  end.
Definition tok (D : tdict) : Prop := forall k ts, In (k, ts) D -> Forall token_ok ts /\ ~ has rparen k.
Lemma dget_texts D k : dget k (texts D) = match dget k D with Some ts => Some (text ts) | None => None end.
Proof. induction D as [|[m ts] D IH]; [reflexivity|]. cbn. destruct (String.eqb _ _); [reflexivity|exact IH]. Qed.
Lemma dget_mapped (f : list token -> list token) (D : tdict) k :
  dget k (map (fun kv => (fst kv, f (snd kv))) D) = match dget k D with Some ts => Some (f ts) | None => None end.
Proof. induction D as [|[m ts] D IH]; [reflexivity|]. cbn. destruct (String.eqb _ _); [reflexivity|exact IH]. Qed.
Lemma keys_texpand1 D k : dkeys (texpand1 D k) = dkeys D.
Proof. unfold texpand1. destruct (dget k D); [|reflexivity]. unfold dkeys. rewrite map_map. now apply map_ext. Qed.
Lemma expand1_texts D k : tok D -> expand1 (texts D) k = texts (texpand1 D k).
Proof.
  intro H. unfold expand1, texpand1. rewrite dget_texts. destruct (dget k D) as [vs|] eqn:E; [|reflexivity].
  unfold replace_in, texts. rewrite !map_map. apply map_ext_in. intros [m ts] I. cbn [fst snd]. f_equal.
  destruct (H _ _ (dget_Some_In _ _ E)) as [_ A]. destruct (H _ _ I) as [B _]. now apply replace_tokens.
Qed.
Lemma texpand1_tok D k : tok D -> tok (texpand1 D k).
Proof.
  intro H. unfold texpand1. destruct (dget k D) as [vs|] eqn:E; [|exact H]. intros m ts I.
  apply in_map_iff in I. destruct I as ([m' ts'] & F & I). injection F as -> <-. destruct (H _ _ I) as [A B].
  split; [|exact B]. apply fillt_ok; [|exact A]. now apply (H _ _ (dget_Some_In _ _ E)).
Qed.
Lemma fold_texts ks : forall D, tok D -> fold_left expand1 ks (texts D) = texts (fold_left texpand1 ks D).
Proof.
  induction ks as [|k ks IH]; intros D H; [reflexivity|]. cbn [fold_left].
  rewrite expand1_texts by assumption. apply IH. now apply texpand1_tok.
Qed.

(* the same with a bound on the depth *)
Inductive sfn (defs : string -> option (list token)) : nat -> list token -> string -> Prop :=
| n_nil h : sfn defs h [] ""
| n_lit h c r v : sfn defs h r v -> sfn defs h (Lit c :: r) (write (Lit c) +++ v)
| n_dollar h c r v : sfn defs h r v -> sfn defs h (Dollar c :: r) (write (Dollar c) +++ v)
| n_def h n ts r v w : defs n = Some ts -> sfn defs h ts v -> sfn defs (S h) r w ->
    sfn defs (S h) (Ref n :: r) (v +++ w)
| n_other h n r w : defs n = None -> sfn defs h r w -> sfn defs h (Ref n :: r) (write (Ref n) +++ w).

Section sfn.
  Variable defs : string -> option (list token).
  Lemma sfn_mono h ts v : sfn defs h ts v -> forall h', h <= h' -> sfn defs h' ts v.
  Proof.
    induction 1; intros h' L; try (constructor; auto; fail).
    destruct h' as [|h']; [lia|]. econstructor; eauto. apply IHsfn1. lia.
  Qed.
  Lemma sfn_ex ts v : stands_for defs ts v -> exists h, sfn defs h ts v.
  Proof.
    induction 1 as [|c r v _ [h H]|c r v _ [h H]|n ts r v w E _ [h H] _ [h' H']|n r w E _ [h H]].
    - exists 0. constructor.
    - exists h. now constructor.
    - exists h. now constructor.
    - exists (S (max h h')). econstructor; [exact E|eapply sfn_mono; [exact H|lia]|eapply sfn_mono; [exact H'|lia]].
    - exists h. now constructor.
  Qed.
  Lemma sfn_app h a v b w : sfn defs h a v -> sfn defs h b w -> sfn defs h (a ++ b) (v +++ w).
  Proof.
    intros H. revert b w. induction H; intros b w' K; cbn [app]; rewrite ?app_assoc_s; try (constructor; auto; fail).
    - exact K.
    - econstructor; eauto.
  Qed.
  (* a defined name that is referred to is less deep *)
  Lemma sfn_ref h ts v n us : sfn defs h ts v -> In (Ref n) ts -> defs n = Some us ->
    exists h' w, h = S h' /\ sfn defs h' us w.
  Proof.
    induction 1; intros I D; cbn [In] in I.
    - destruct I.
    - destruct I as [I|I]; [discriminate|auto].
    - destruct I as [I|I]; [discriminate|auto].
    - destruct I as [I|I]; [|auto]. injection I as ->. rewrite H in D. injection D as ->. eauto.
    - destruct I as [I|I]; [|auto]. injection I as ->. congruence.
  Qed.
  (* a name in a text is replaced by another text for its value *)
  Lemma sfn_fill h ts v k us vs : sfn defs h ts v -> defs k = Some us ->
    (forall h' w, sfn defs h' us w -> sfn defs h' vs w) -> sfn defs h (flat_map (fillt k vs) ts) v.
  Proof.
    intros H D K. induction H; cbn [flat_map fillt app].
    - constructor.
    - now constructor.
    - now constructor.
    - destruct (String.eqb_spec n k) as [->|N].
      + rewrite H in D. injection D as ->. apply sfn_app; [|exact IHsfn2]. eapply sfn_mono; [apply K; eassumption|lia].
      + cbn [app]. econstructor; eassumption.
    - destruct (String.eqb_spec n k) as [->|N]; [congruence|]. cbn [app]. now constructor.
  Qed.
  Lemma sfn_done h ts v : sfn defs h ts v -> (forall n, In (Ref n) ts -> defs n = None) -> text ts = v.
  Proof.
    induction 1; intros F; cbn [text]; try reflexivity; try (f_equal; apply IHsfn; intros; apply F; now right).
    rewrite (F n) in H by now left. discriminate.
  Qed.

  (* the names in P are done *)
  Definition Inv (P : list string) (D : tdict) : Prop :=
    forall n ts, defs n = Some ts -> exists ts', dget n D = Some ts' /\
      (forall h v, sfn defs h ts v -> sfn defs h ts' v) /\
      ((exists h v, sfn defs h ts v) -> forall m, In m P -> ~ In (Ref m) ts').
  Lemma not_itself P D n ts ts' : Inv P D -> defs n = Some ts -> dget n D = Some ts' ->
    forall h v, sfn defs h ts v -> ~ In (Ref n) ts'.
  Proof.
    intros I E G h. induction h as [|h IH]; intros v S R.
    - destruct (I _ _ E) as (t & G' & M & _). rewrite G in G'. injection G' as <-.
      destruct (sfn_ref _ _ _ _ _ (M _ _ S) R E) as (? & ? & X & _). discriminate.
    - destruct (I _ _ E) as (t & G' & M & _). rewrite G in G'. injection G' as <-.
      destruct (sfn_ref _ _ _ _ _ (M _ _ S) R E) as (h' & w & X & Y). injection X as <-. now apply (IH w Y).
  Qed.
  Lemma Inv_step P D k : Inv P D -> defs k <> None -> Inv (k :: P) (texpand1 D k).
  Proof.
    intros I K n ts E. destruct (defs k) as [us|] eqn:Ek; [|congruence]. clear K.
    destruct (I _ _ Ek) as (vs & Gk & Mk & Fk). destruct (I _ _ E) as (ts' & G & M & F).
    exists (flat_map (fillt k vs) ts'). split; [|split].
    - unfold texpand1. rewrite Gk, dget_mapped, G. reflexivity.
    - intros h v S. eapply sfn_fill; [apply M; exact S|exact Ek|exact Mk].
    - intros (h & v & S) m Im R. destruct (fillt_ref _ _ _ _ R) as [[A N]|[A B]].
      + destruct Im as [<-|Im]; [congruence|]. eapply F; eauto.
      + destruct (sfn_ref _ _ _ _ _ (M _ _ S) A Ek) as (h' & w & _ & Y).
        destruct Im as [<-|Im]; [eapply (not_itself P D k us vs); eauto|eapply Fk; eauto].
  Qed.
  Lemma Inv_fold ks : forall P D, Inv P D -> (forall k, In k ks -> defs k <> None) ->
    Inv (rev ks ++ P) (fold_left texpand1 ks D).
  Proof.
    induction ks as [|k ks IH]; intros P D I F; [exact I|]. cbn [fold_left rev]. rewrite <- app_assoc. cbn [app].
    apply IH; [|intros; apply F; now right]. apply Inv_step; [exact I|apply F; now left].
  Qed.
End sfn.

Lemma expand_keys d : dkeys (expand d) = dkeys d.
Proof.
  unfold expand. generalize (dkeys d) at 1 as ks. intro ks. revert d. induction ks as [|k ks IH]; intros d; [reflexivity|].
  cbn [fold_left]. rewrite IH. unfold expand1. destruct (dget k d); [|reflexivity].
  unfold replace_in, dkeys. rewrite map_map. now apply map_ext.
Qed.
Lemma tokens_of lines defs : values_of lines defs -> exists D : tdict,
  texts D = read_release lines /\ tok D /\ (forall n, dget n D = defs n).
Proof.
  intros [A B].
  exists (map (fun kv => (fst kv, match defs (fst kv) with Some ts => ts | None => [] end)) (read_release lines)).
  assert (G : forall n v, In (n, v) (read_release lines) -> exists ts, defs n = Some ts /\ v = text ts).
  { intros n v I. apply A. apply read_get. apply dget_In_nodup; [apply read_nodup|exact I]. }
  split; [|split].
  - unfold texts. rewrite map_map. rewrite <- (map_id (read_release lines)) at 2. apply map_ext_in.
    intros [n v] I. cbn [fst snd]. destruct (G n v I) as (ts & -> & ->). reflexivity.
  - intros n ts I. apply in_map_iff in I. destruct I as ([m v] & E & I). cbn [fst] in E. injection E as -> <-.
    destruct (G n v I) as (ts & E & _). rewrite E. now apply B.
  - intros n. destruct (dget n (read_release lines)) as [v|] eqn:E.
    + pose proof E as E'. apply read_get, A in E'. destruct E' as (ts & D & ->). rewrite D.
      clear A B G. induction (read_release lines) as [|[m w] l IH]; [discriminate|]. cbn in E |- *.
      destruct (String.eqb_spec n m) as [->|N]; [now rewrite D|now apply IH].
    + destruct (defs n) as [ts|] eqn:D.
      * assert (X : dget n (read_release lines) = Some (text ts)) by (apply read_get, A; eauto). congruence.
      * apply dget_None_notin. unfold dkeys. rewrite map_map. cbn [fst].
        change (map (fun x : string * string => fst x) (read_release lines)) with (dkeys (read_release lines)).
        now apply dget_None_notin.
Qed.

(* ==== The table ==== *)
(* the modules are the names of the file, each once, in the order in which they are first given a value *)
Theorem C95_modules lines ns : names lines ns -> map fst (expand (read_release lines)) = firsts [] ns.
Proof.
  intro H. change (map fst (expand (read_release lines))) with (dkeys (expand (read_release lines))).
  rewrite expand_keys. unfold read_release. rewrite read_put.
  rewrite (read_keys lines [] ns []); [reflexivity|exact H|]. intro x. cbn. tauto.
Qed.
Print Assumptions C95_modules.

(* the path of a module is what its value stands for, whatever the order of the lines and whatever
   the other lines are *)
Theorem C95_paths lines defs n ts v : values_of lines defs -> defs n = Some ts -> stands_for defs ts v ->
  forall p, In (n, p) (expand (read_release lines)) <-> p = v.
Proof.
  intros H E S. destruct (tokens_of _ _ H) as (D & T & K & G).
  assert (Y : dget n (expand (read_release lines)) = Some v).
  { unfold expand. rewrite <- T. rewrite fold_texts by exact K. rewrite dget_texts.
    assert (I0 : Inv defs [] D).
    { intros m us Em. exists us. rewrite G. split; [exact Em|]. split; [auto|]. intros _ ? []. }
    assert (KD : forall m, In m (dkeys (texts D)) <-> defs m <> None).
    { intro m. rewrite <- G. unfold dkeys, texts. rewrite map_map. cbn [fst].
      change (map (fun x : string * list token => fst x) D) with (dkeys D).
      destruct (dget m D) eqn:Em.
      - split; [discriminate|]. intros _. eapply dget_Some_key; eauto.
      - apply dget_None_notin in Em. split; [intro; contradiction|congruence]. }
    pose proof (Inv_fold defs (dkeys (texts D)) [] D I0 (fun k I => proj1 (KD k) I)) as IF.
    destruct (IF n ts E) as (ts' & G' & M & F). rewrite G'. f_equal.
    destruct (sfn_ex _ _ _ S) as (h & Sh). eapply sfn_done; [apply M; exact Sh|].
    intros m R. destruct (defs m) as [us|] eqn:Em; [|reflexivity]. exfalso.
    apply (F (ex_intro _ h (ex_intro _ v Sh)) m); [|exact R]. rewrite app_nil_r. apply in_rev. rewrite rev_involutive.
    apply KD. congruence. }
  assert (N : NoDup (dkeys (expand (read_release lines)))) by (rewrite expand_keys; apply read_nodup).
  intro p. split.
  - intro I. apply (dget_In_nodup _ _ _ N) in I. congruence.
  - intros ->. now apply dget_Some_In.
Qed.
Print Assumptions C95_paths.

(* A file in which a module refers to one that is given its value later, one is given a value twice,
   one refers to itself and one to a name without a value. *)
Definition ex_lines : list string :=
  ["# where things are"; "AREA = $(SUPPORT)/areaDetector"; "SUPPORT=$(ROOT)/support"; "CALC=/old";
   "LOOP=$(LOOP)/x"; ""; "ROOT = /dls_sw"; "CALC = $(HOME)/calc"; "A=B=C"].
Definition lits (s : string) : list token := map Lit (list_ascii_of_string s).
Definition ex_defs (n : string) : option (list token) :=
  dget n [("AREA", Ref "SUPPORT" :: lits "/areaDetector"); ("SUPPORT", Ref "ROOT" :: lits "/support");
          ("CALC", Ref "HOME" :: lits "/calc"); ("LOOP", Ref "LOOP" :: lits "/x"); ("ROOT", lits "/dls_sw")].
Lemma sf_lits defs s : stands_for defs (lits s) s.
Proof. induction s as [|c s IH]; [constructor|]. exact (sf_lit defs c _ _ IH). Qed.
Lemma ex_values : values_of ex_lines ex_defs.
Proof.
  split.
  - intros n v. rewrite <- read_get.
    assert (R : read_release ex_lines =
      [("AREA", "$(SUPPORT)/areaDetector"); ("SUPPORT", "$(ROOT)/support"); ("CALC", "$(HOME)/calc");
       ("LOOP", "$(LOOP)/x"); ("ROOT", "/dls_sw")]) by (vm_compute; reflexivity).
    rewrite R. unfold ex_defs. cbn [dget].
    repeat match goal with |- context [String.eqb n ?k] => destruct (String.eqb n k) end;
      (split; [intro E; try discriminate; injection E as <-; eexists; split; reflexivity
              |intros (ts & E & ->); try discriminate; injection E as <-; reflexivity]).
  - intros n ts H. unfold ex_defs in H. apply dget_Some_In in H. cbn [In] in H.
    repeat match goal with H : _ \/ _ |- _ => destruct H as [H|H] end; try contradiction;
      injection H as <- <-; (split; [|intro F; vm_compute in F; intuition discriminate]);
      repeat constructor; cbn [token_ok]; try discriminate; try (intro F; vm_compute in F; intuition discriminate).
Qed.
Example C95_paths_ex :
  expand (read_release ex_lines) =
    [("AREA", "/dls_sw/support/areaDetector"); ("SUPPORT", "/dls_sw/support"); ("CALC", "$(HOME)/calc");
     ("LOOP", "$(LOOP)/x/x"); ("ROOT", "/dls_sw")] /\
  values_of ex_lines ex_defs /\ stands_for ex_defs (Ref "SUPPORT" :: lits "/areaDetector") "/dls_sw/support/areaDetector".
Proof.
  split; [vm_compute; reflexivity|]. split; [exact ex_values|].
  apply (sf_def ex_defs "SUPPORT" (Ref "ROOT" :: lits "/support") _ "/dls_sw/support" "/areaDetector"); [reflexivity| |apply sf_lits].
  apply (sf_def ex_defs "ROOT" (lits "/dls_sw") _ "/dls_sw" "/support"); [reflexivity|apply sf_lits|apply sf_lits].
Qed.
Example C95_modules_ex : exists ns, names ex_lines ns /\ firsts [] ns = ["AREA"; "SUPPORT"; "CALC"; "LOOP"; "ROOT"].
Proof.
  exists ["AREA"; "SUPPORT"; "CALC"; "LOOP"; "ROOT"; "CALC"]. split; [|vm_compute; reflexivity].
  unfold ex_lines.
  repeat match goal with
  | |- names [] _ => constructor
  | |- names (?l :: _) _ =>
      first [ apply nm_not; [intros n v F; apply pair_gives in F; vm_compute in F; discriminate|]
            | eapply nm_gives; [apply pair_gives; vm_compute; reflexivity|] ]
  end.
Qed.

(* ==== The directory ==== *)
Section dirs.
  Variable release : string -> option (list string).
  Notation run := (run release).
  Notation step := (step release).
  Lemma run_snoc es e : run (es ++ [e]) = step (run es) e.
  Proof. unfold Ioc_Model.run. now rewrite fold_left_app. Qed.
  Lemma parse_dirs d p : dir1 (parse_release release d p) = dir1 p /\ dir2 (parse_release release d p) = dir2 p.
  Proof. unfold parse_release. destruct (release d) as [l|]; [destruct (filter _ l)|]; auto. Qed.
  Lemma update_dirs p : dir1 (update_dir release p) = dir1 p /\ dir2 (update_dir release p) = dir2 p.
  Proof. unfold update_dir. destruct (dir1 p) eqn:A; destruct (dir2 p) eqn:B; try (split; congruence).
    destruct (parse_dirs (s ++ s0)%string p). split; congruence. Qed.
  Lemma version_dirs v p : dir1 (version_updated v p) = dir1 p /\ dir2 (version_updated v p) = dir2 p /\
    table (version_updated v p) = table p /\ not_found (version_updated v p) = not_found p.
  Proof. destruct v; repeat split. Qed.
  Lemma status_dirs ok p : dir1 (set_procserv_state ok p) = dir1 p /\ dir2 (set_procserv_state ok p) = dir2 p /\
    table (set_procserv_state ok p) = table p /\ not_found (set_procserv_state ok p) = not_found p.
  Proof. destruct ok; [|repeat split]. unfold set_procserv_state. destruct (version_dirs (version p) (mkPart true (version p) (health p) (dir1 p) (dir2 p) (table p) (not_found p))) as (-> & -> & -> & ->). auto. Qed.

  Lemma last1_snoc es e x : last_dir1 (es ++ [e]) x <->
    match e with Dir1 (Some y) => y = x | _ => last_dir1 es x end.
  Proof.
    assert (K : (forall y, e <> Dir1 (Some y)) -> last_dir1 (es ++ [e]) x <-> last_dir1 es x).
    { intro N. split.
      - intros (a & b & E & F). destruct b as [|b0 b] using rev_ind.
        + apply app_inj_tail in E. destruct E as [_ E]. now apply N in E.
        + rewrite app_comm_cons, app_assoc in E. apply app_inj_tail in E. destruct E as [-> _].
          exists a, b. split; [reflexivity|]. intros y I. apply (F y). rewrite in_app_iff. now left.
      - intros (a & b & -> & F). exists a, (b ++ [e]). split; [now rewrite <- app_assoc|].
        intros y I. apply in_app_iff in I. destruct I as [I|[I|[]]]; [now apply F in I|now apply N in I]. }
    destruct e as [v|ok|[y|]|v]; try (apply K; discriminate). clear K. split.
    - intros (a & b & E & F). destruct b as [|b0 b] using rev_ind.
      + apply app_inj_tail in E. destruct E as [_ E]. congruence.
      + rewrite app_comm_cons, app_assoc in E. apply app_inj_tail in E. destruct E as [_ <-].
        exfalso. apply (F y). rewrite in_app_iff. right. now left.
    - intros ->. exists es, []. split; [reflexivity|]. intros ? [].
  Qed.
  Lemma last2_snoc es e x : last_dir2 (es ++ [e]) x <->
    match e with Dir2 (Some y) => y = x | _ => last_dir2 es x end.
  Proof.
    assert (K : (forall y, e <> Dir2 (Some y)) -> last_dir2 (es ++ [e]) x <-> last_dir2 es x).
    { intro N. split.
      - intros (a & b & E & F). destruct b as [|b0 b] using rev_ind.
        + apply app_inj_tail in E. destruct E as [_ E]. now apply N in E.
        + rewrite app_comm_cons, app_assoc in E. apply app_inj_tail in E. destruct E as [-> _].
          exists a, b. split; [reflexivity|]. intros y I. apply (F y). rewrite in_app_iff. now left.
      - intros (a & b & -> & F). exists a, (b ++ [e]). split; [now rewrite <- app_assoc|].
        intros y I. apply in_app_iff in I. destruct I as [I|[I|[]]]; [now apply F in I|now apply N in I]. }
    destruct e as [v|ok|v|[y|]]; try (apply K; discriminate). clear K. split.
    - intros (a & b & E & F). destruct b as [|b0 b] using rev_ind.
      + apply app_inj_tail in E. destruct E as [_ E]. congruence.
      + rewrite app_comm_cons, app_assoc in E. apply app_inj_tail in E. destruct E as [_ <-].
        exfalso. apply (F y). rewrite in_app_iff. right. now left.
    - intros ->. exists es, []. split; [reflexivity|]. intros ? [].
  Qed.
  Lemma run_dirs es : forall x, (dir1 (run es) = Some x <-> last_dir1 es x) /\ (dir2 (run es) = Some x <-> last_dir2 es x).
  Proof.
    induction es as [|e es IH] using rev_ind; intro x.
    - split; (split; [discriminate|]); intros (a & b & E & _); destruct a; discriminate.
    - rewrite run_snoc, last1_snoc, last2_snoc. destruct (IH x) as [I1 I2].
      destruct e as [v|ok|v|v]; cbn [Ioc_Model.step].
      + destruct (version_dirs v (run es)) as (-> & -> & _). auto.
      + destruct (status_dirs ok (run es)) as (-> & -> & _). auto.
      + unfold set_dir1. destruct (update_dirs (mkPart (procserv (run es)) (version (run es)) (health (run es))
           (match v with Some _ => v | None => dir1 (run es) end) (dir2 (run es)) (table (run es)) (not_found (run es)))) as (-> & ->).
        cbn [dir1 dir2]. destruct v as [y|]; (split; [|exact I2]); [split; congruence|exact I1].
      + unfold set_dir2. destruct (update_dirs (mkPart (procserv (run es)) (version (run es)) (health (run es))
           (dir1 (run es)) (match v with Some _ => v | None => dir2 (run es) end) (table (run es)) (not_found (run es)))) as (-> & ->).
        cbn [dir1 dir2]. destruct v as [y|]; (split; [exact I1|]); [split; congruence|exact I2].
  Qed.
  Lemma run_same_table es b : (forall e, In e b -> ~ is_dir e) ->
    table (run (es ++ b)) = table (run es) /\ not_found (run (es ++ b)) = not_found (run es).
  Proof.
    induction b as [|e b IH] using rev_ind; intro H; [now rewrite app_nil_r|].
    rewrite app_assoc, run_snoc.
    destruct IH as [<- <-]; [intros; apply H; rewrite in_app_iff; now left|].
    assert (N : ~ is_dir e) by (apply H; rewrite in_app_iff; right; now left).
    destruct e as [v|ok|v|v]; cbn [Ioc_Model.step is_dir] in *; try tauto.
    - destruct (version_dirs v (run (es ++ b))) as (_ & _ & -> & ->). auto.
    - destruct (status_dirs ok (run (es ++ b))) as (_ & _ & -> & ->). auto.
  Qed.

  (* the step that reads the file *)
  Definition upd (q : part) (e : event) : part :=
    mkPart (procserv q) (version q) (health q)
      (match e with Dir1 (Some x) => Some x | _ => dir1 q end)
      (match e with Dir2 (Some x) => Some x | _ => dir2 q end) (table q) (not_found q).
  Lemma step_upd q e : is_dir e -> step q e = update_dir release (upd q e).
  Proof. destruct e as [v|ok|[x|]|[x|]]; cbn [is_dir]; try tauto; reflexivity. Qed.
End dirs.

(* the table is that of the directory made of the last good values of the two PVs, as it was when one
   of the two was last updated *)
Theorem C95_directory release a e b x y :
  is_dir e -> (forall e', In e' b -> ~ is_dir e') -> last_dir1 (a ++ [e]) x -> last_dir2 (a ++ [e]) y ->
  let p := run release (a ++ e :: b) in
  match release (x +++ y) with
  | None => not_found p = true /\ table p = table (run release a)
  | Some lines => (exists l, In l lines /\ forall r, l <> String "#" r) ->
                  not_found p = false /\ table p = expand (read_release lines)
  end.
Proof.
  intros De Db L1 L2. cbv zeta.
  replace (a ++ e :: b) with ((a ++ [e]) ++ b) by (rewrite <- app_assoc; reflexivity).
  destruct (run_same_table release (a ++ [e]) b Db) as [-> ->].
  apply (run_dirs release) in L1, L2. rewrite run_snoc, step_upd in * by assumption.
  destruct (update_dirs release (upd (run release a) e)) as [E1 E2]. rewrite E1 in L1. rewrite E2 in L2.
  unfold update_dir. rewrite L1, L2. unfold parse_release.
  destruct (release (x +++ y)) as [lines|]; [|split; reflexivity].
  intros (l & I & N). destruct (filter _ lines) as [|f fs] eqn:F; [|split; reflexivity].
  exfalso. assert (K : In l (filter (fun l => negb (comment l)) lines)).
  { apply filter_In. split; [exact I|]. apply comment_spec in N. now rewrite N. }
  rewrite F in K. exact K.
Qed.
Print Assumptions C95_directory.

(* nothing is shown while one of the PVs has not had a good value *)
Theorem C95_no_directory release es :
  (forall x, ~ last_dir1 es x) \/ (forall x, ~ last_dir2 es x) ->
  table (run release es) = [] /\ not_found (run release es) = false.
Proof.
  induction es as [|e es IH] using rev_ind; intro H; [split; reflexivity|].
  assert (O : dir1 (run release (es ++ [e])) = None \/ dir2 (run release (es ++ [e])) = None).
  { destruct H as [H|H]; [left|right].
    - destruct (dir1 _) as [x|] eqn:E; [|reflexivity]. apply run_dirs in E. now apply H in E.
    - destruct (dir2 _) as [x|] eqn:E; [|reflexivity]. apply run_dirs in E. now apply H in E. }
  assert (H' : (forall x, ~ last_dir1 es x) \/ (forall x, ~ last_dir2 es x)).
  { destruct H as [H|H]; [left|right]; intros x K.
    - destruct e as [v|ok|[y|]|v]; try (apply (H x); apply last1_snoc; exact K). apply (H y). now apply last1_snoc.
    - destruct e as [v|ok|v|[y|]]; try (apply (H x); apply last2_snoc; exact K). apply (H y). now apply last2_snoc. }
  destruct (IH H') as [T N]. rewrite run_snoc in O |- *. destruct e as [v|ok|v|v].
  - cbn [step]. destruct (version_dirs v (run release es)) as (_ & _ & -> & ->). auto.
  - cbn [step]. destruct (status_dirs ok (run release es)) as (_ & _ & -> & ->). auto.
  - rewrite step_upd in O |- * by exact I. destruct (update_dirs release (upd (run release es) (Dir1 v))) as [E1 E2].
    rewrite E1, E2 in O. unfold update_dir. destruct O as [O|O]; rewrite O.
    + cbn [upd table not_found]. rewrite T, N. auto.
    + destruct (dir1 (upd _ _)); cbn [upd table not_found]; rewrite T, N; auto.
  - rewrite step_upd in O |- * by exact I. destruct (update_dirs release (upd (run release es) (Dir2 v))) as [E1 E2].
    rewrite E1, E2 in O. unfold update_dir. destruct O as [O|O]; rewrite O.
    + cbn [upd table not_found]. rewrite T, N. auto.
    + destruct (dir1 (upd _ _)); cbn [upd table not_found]; rewrite T, N; auto.
Qed.
Print Assumptions C95_no_directory.

(* Finding: if the file of the new directory has only comments, the table of the old one stays. *)
Theorem C95_directory_refuted : exists release a e x y lines l,
  is_dir e /\ last_dir1 (a ++ [e]) x /\ last_dir2 (a ++ [e]) y /\ release (x +++ y) = Some lines /\
  read_release lines = [] /\ In l (table (run release (a ++ [e]))).
Proof.
  exists (fun d => if String.eqb d "/a/ioc" then Some ["EPICS=/epics"] else Some ["# none"]).
  exists [Dir1 (Some "/a"); Dir2 (Some "/ioc")], (Dir2 (Some "/ioc2")), "/a", "/ioc2", ["# none"], ("EPICS", "/epics").
  split; [exact I|]. split.
  { exists [], [Dir2 (Some "/ioc"); Dir2 (Some "/ioc2")]. split; [reflexivity|]. intros z [H|[H|[]]]; discriminate. }
  split. { exists [Dir1 (Some "/a"); Dir2 (Some "/ioc")], []. split; [reflexivity|]. intros z []. }
  split; [reflexivity|]. split; [reflexivity|]. vm_compute. now left.
Qed.
Print Assumptions C95_directory_refuted.

Example C95_directory_ex :
  let release d := if String.eqb d "/dls_sw/prod/ioc" then Some ["BASE=/epics"; "ASYN=$(BASE)/asyn"] else None in
  let es := [Dir1 (Some "/dls_sw/prod"); Version (Some "3-1"); Dir2 (Some "/ioc"); Status true] in
  run release es = mkPart true (Some "3-1") (Some Healthy) (Some "/dls_sw/prod") (Some "/ioc")
                          [("BASE", "/epics"); ("ASYN", "/epics/asyn")] false /\
  table (run release (es ++ [Dir2 (Some "/gone"); Status false])) = [("BASE", "/epics"); ("ASYN", "/epics/asyn")] /\
  not_found (run release (es ++ [Dir2 (Some "/gone"); Status false])) = true /\
  last_dir1 (es ++ [Dir2 (Some "/gone")]) "/dls_sw/prod" /\ last_dir2 (es ++ [Dir2 (Some "/gone")]) "/gone".
Proof.
  cbv zeta. split; [vm_compute; reflexivity|]. split; [vm_compute; reflexivity|]. split; [vm_compute; reflexivity|]. split.
  - exists [], [Version (Some "3-1"); Dir2 (Some "/ioc"); Status true; Dir2 (Some "/gone")].
    split; [reflexivity|]. cbn. intros z H. intuition discriminate.
  - exists [Dir1 (Some "/dls_sw/prod"); Version (Some "3-1"); Dir2 (Some "/ioc"); Status true], [].
    split; [reflexivity|]. intros z [].
Qed.

(* ==== The health ==== *)
Definition tells (s : string) (h : option alarm) : Prop :=
  (Bus_Model.lower s = "work" \/ Bus_Model.lower s = "other" -> h = Some NonProd) /\
  (Bus_Model.lower s <> "work" -> Bus_Model.lower s <> "other" -> h = Some Healthy).
Lemma tells_version s q : tells s (health (version_updated (Some s) q)).
Proof.
  cbn [version_updated health]. unfold non_prod, tells.
  destruct (String.eqb_spec (Bus_Model.lower s) "work") as [E|N]; cbn [orb].
  - split; [reflexivity|]. intros; contradiction.
  - destruct (String.eqb_spec (Bus_Model.lower s) "other") as [E|M]; (split; [|try reflexivity; intros; try contradiction]); [reflexivity|].
    intros [E|E]; contradiction.
Qed.
Lemma update_rest release p : health (update_dir release p) = health p /\ procserv (update_dir release p) = procserv p /\
  version (update_dir release p) = version p.
Proof.
  unfold update_dir. destruct (dir1 p); [|auto]. destruct (dir2 p); [|auto]. unfold parse_release.
  destruct (release _) as [l|]; [destruct (filter _ l)|]; auto.
Qed.
Lemma step_silent release p e : silent e -> health (step release p e) = health p /\
  procserv (step release p e) = procserv p /\ version (step release p e) = version p.
Proof.
  destruct e as [v|[|]|v|v]; cbn [silent]; intro S; [destruct S|destruct S| | |].
  - split; [reflexivity|]. split; reflexivity.
  - rewrite step_upd by exact I. destruct (update_rest release (upd p (Dir1 v))) as (-> & -> & ->). auto.
  - rewrite step_upd by exact I. destruct (update_rest release (upd p (Dir2 v))) as (-> & -> & ->). auto.
Qed.
Lemma run_silent release b : forall a, Forall silent b -> health (run release (a ++ b)) = health (run release a).
Proof.
  induction b as [|e b IH] using rev_ind; intros a H; [now rewrite app_nil_r|].
  apply Forall_app in H. destruct H as [H E]. inversion E as [|? ? E' _]; subst. rewrite app_assoc, run_snoc.
  destruct (step_silent release (run release (a ++ b)) e E') as (-> & _). now apply IH.
Qed.
Lemma run_procserv release es : procserv (run release es) = true <-> In (Status true) es.
Proof.
  induction es as [|e es IH] using rev_ind; [split; [discriminate|intros []]|].
  rewrite run_snoc, in_app_iff, <- IH. cbn [In]. destruct e as [v|[|]|v|v].
  - assert (E : procserv (step release (run release es) (Version v)) = procserv (run release es)) by (destruct v; reflexivity).
    rewrite E. intuition discriminate.
  - cbn [step set_procserv_state]. destruct (version (run release es)); cbn [version_updated procserv]; intuition.
  - cbn [step set_procserv_state]. intuition discriminate.
  - destruct (step_silent release (run release es) (Dir1 v) I) as (_ & -> & _). intuition discriminate.
  - destruct (step_silent release (run release es) (Dir2 v) I) as (_ & -> & _). intuition discriminate.
Qed.
Definition last_version (es : list event) (s : string) : Prop :=
  exists a b, es = a ++ Version (Some s) :: b /\ forall t, ~ In (Version (Some t)) b.
Lemma run_version release es s : version (run release es) = Some s <-> last_version es s.
Proof.
  revert s. induction es as [|e es IH] using rev_ind; intro s.
  - split; [discriminate|]. intros (a & b & E & _). destruct a; discriminate.
  - rewrite run_snoc. assert (K : (forall y, e <> Version (Some y)) -> (last_version (es ++ [e]) s <-> last_version es s)).
    { intro N. split.
      - intros (a & b & E & F). destruct b as [|b0 b] using rev_ind.
        + apply app_inj_tail in E. destruct E as [_ E]. now apply N in E.
        + rewrite app_comm_cons, app_assoc in E. apply app_inj_tail in E. destruct E as [-> _].
          exists a, b. split; [reflexivity|]. intros y J. apply (F y). rewrite in_app_iff. now left.
      - intros (a & b & -> & F). exists a, (b ++ [e]). split; [now rewrite <- app_assoc|].
        intros y J. apply in_app_iff in J. destruct J as [J|[J|[]]]; [now apply F in J|now apply N in J]. }
    destruct e as [[t|]|[|]|v|v].
    + cbn [step version_updated version]. split.
      * intro E. injection E as ->. exists es, []. split; [reflexivity|]. intros ? [].
      * intros (a & b & E & F). destruct b as [|b0 b] using rev_ind.
        -- apply app_inj_tail in E. destruct E as [_ E]. congruence.
        -- rewrite app_comm_cons, app_assoc in E. apply app_inj_tail in E. destruct E as [_ <-].
           exfalso. apply (F t). rewrite in_app_iff. right. now left.
    + rewrite K by discriminate. apply IH.
    + rewrite K by discriminate. rewrite <- IH. cbn [step set_procserv_state].
      destruct (version (run release es)) eqn:E; cbn [version_updated version]; reflexivity.
    + rewrite K by discriminate. apply IH.
    + rewrite K by discriminate. destruct (step_silent release (run release es) (Dir1 v) I) as (_ & _ & ->). apply IH.
    + rewrite K by discriminate. destruct (step_silent release (run release es) (Dir2 v) I) as (_ & _ & ->). apply IH.
Qed.

(* after an update of the version, good or not *)
Theorem C95_version release a v b : Forall silent b ->
  let h := health (run release (a ++ Version v :: b)) in
  match v with
  | Some s => tells s h
  | None => (In (Status true) a -> h = Some NotRunning) /\ (~ In (Status true) a -> h = Some Neither)
  end.
Proof.
  intros H. cbv zeta. replace (a ++ Version v :: b) with ((a ++ [Version v]) ++ b) by (rewrite <- app_assoc; reflexivity).
  rewrite run_silent by exact H. rewrite run_snoc. cbn [step]. destruct v as [s|].
  - apply tells_version.
  - cbn [version_updated health]. rewrite <- (run_procserv release). destruct (procserv _); split; congruence.
Qed.
Print Assumptions C95_version.

(* after procServ has been seen *)
Theorem C95_status release a b : Forall silent b ->
  let h := health (run release (a ++ Status true :: b)) in
  (forall s, last_version a s -> tells s h) /\ ((forall s, ~ In (Version (Some s)) a) -> h = Some NotRunning).
Proof.
  intros H. cbv zeta. replace (a ++ Status true :: b) with ((a ++ [Status true]) ++ b) by (rewrite <- app_assoc; reflexivity).
  rewrite run_silent by exact H. rewrite run_snoc. cbn [step set_procserv_state]. split.
  - intros s L. apply (run_version release) in L. rewrite L. apply tells_version.
  - intro F. destruct (version (run release a)) as [s|] eqn:E; [|reflexivity].
    apply run_version in E. destruct E as (c & d & -> & _). exfalso. apply (F s). rewrite in_app_iff. right. now left.
Qed.
Print Assumptions C95_status.

(* Finding: an IOC that has gone is shown as running again as soon as the status of its procServ is
   updated, since the last good version is kept. *)
Theorem C95_status_refuted : forall release, exists es,
  (exists a b, es = a ++ Version None :: b /\ forall v, ~ In (Version v) b) /\
  health (run release es) = Some Healthy.
Proof.
  intro release. exists [Version (Some "3-1"); Version None; Status true]. split; [|vm_compute; reflexivity].
  exists [Version (Some "3-1")], [Status true]. split; [reflexivity|]. intros v [H|[]]. discriminate.
Qed.
Print Assumptions C95_status_refuted.

(* Finding: that procServ has gone as well is never shown once it has been seen. *)
Theorem C95_procserv_refuted : forall release, exists es,
  (exists a b, es = a ++ Status false :: b /\ ~ In (Status true) b) /\
  (exists a b, es = a ++ Version None :: b /\ forall v, ~ In (Version v) b) /\
  health (run release es) <> Some Neither.
Proof.
  intro release. exists [Status true; Status false; Version None]. split.
  - exists [Status true], [Version None]. split; [reflexivity|]. intros [H|[]]. discriminate.
  - split; [exists [Status true; Status false], []; split; [reflexivity|intros v []]|]. vm_compute. discriminate.
Qed.
Print Assumptions C95_procserv_refuted.

Example C95_version_ex :
  let release (d : string) := @None (list string) in
  map (fun es => health (run release es))
    [[]; [Version None]; [Status true]; [Status true; Version (Some "Work")]; [Version (Some "2-4"); Dir1 (Some "/a")];
     [Version (Some "2-4"); Status true; Version None; Status false]]
  = [None; Some Neither; Some NotRunning; Some NonProd; Some Healthy; Some NotRunning] /\
  Forall silent [Status false; Dir1 (Some "/a")] /\ last_version [Version (Some "2-4"); Version None] "2-4".
Proof.
  cbv zeta. split; [vm_compute; reflexivity|]. split; [repeat constructor|].
  exists [], [Version None]. split; [reflexivity|]. intros t [H|[]]. discriminate.
Qed.

(* ==== The list of IOCs ==== *)
Lemma split_concat c ns : Forall (fun n => ~ has c n) ns -> ns <> [] ->
  Savu_Model.split c (String.concat (String c "") ns) = ns.
Proof.
  induction ns as [|n ns IH]; intros H N; [congruence|]. inversion H as [|? ? A B]; subst.
  destruct ns as [|m ns]; [now apply split_none|].
  change (String.concat (String c "") (n :: m :: ns)) with (n +++ String c "" +++ String.concat (String c "") (m :: ns)).
  change (n +++ String c "" +++ String.concat (String c "") (m :: ns))
    with (n +++ String c (String.concat (String c "") (m :: ns))).
  rewrite split_cons by exact A. f_equal. apply IH; [exact B|discriminate].
Qed.
Lemma split_concat_end c ns : Forall (fun n => ~ has c n) ns -> ns <> [] ->
  Savu_Model.split c (String.concat (String c "") ns +++ String c "") = ns ++ [""].
Proof.
  induction ns as [|n ns IH]; intros H N; [congruence|]. inversion H as [|? ? A B]; subst.
  destruct ns as [|m ns]; [cbn [String.concat]; now rewrite split_cons by exact A|].
  change (String.concat (String c "") (n :: m :: ns)) with (n +++ String c "" +++ String.concat (String c "") (m :: ns)).
  rewrite !app_assoc_s. cbn [String.append]. rewrite split_cons by exact A. cbn [app]. f_equal. apply IH; [exact B|discriminate].
Qed.
Lemma last_in (l : list string) d : l <> [] -> In (last l d) l.
Proof.
  induction l as [|x l IH]; intro N; [congruence|]. destruct l as [|y l]; [now left|].
  right. apply IH. discriminate.
Qed.
(* names with one space between them, and perhaps one at the end, give a block and a part each *)
Theorem C95_iocs ns (ending : string) :
  Forall (fun n => n <> "" /\ ~ has " "%char n) ns -> ending = "" \/ (ending = " " /\ ns <> []) ->
  bl_iocs (String.concat " " ns +++ ending) = ns /\
  (forall m, In m (ioc_mris ns) <-> exists n, In n ns /\ m = n +++ ":STATUS") /\
  (forall n m, In (n, m) (ioc_parts ns) <-> In n ns /\ m = n +++ ":STATUS").
Proof.
  intros H E. split; [|split].
  - assert (A : Forall (fun n => ~ has " "%char n) ns) by (eapply Forall_impl; [|exact H]; cbn; tauto).
    unfold bl_iocs. destruct E as [->|[-> N]].
    + rewrite app_nil_s. destruct ns as [|n ns]; [reflexivity|].
      rewrite (split_concat " "%char) by (try exact A; discriminate).
      assert (L : last (n :: ns) "" <> "").
      { rewrite Forall_forall in H. apply (H (last (n :: ns) "")). apply last_in. discriminate. }
      apply String.eqb_neq in L. now rewrite L.
    + rewrite (split_concat_end " "%char) by assumption. rewrite last_last, removelast_last. reflexivity.
  - intro m. unfold ioc_mris. rewrite in_map_iff. split; intros (n & P & Q); exists n; auto.
  - intros n m. unfold ioc_parts. rewrite in_map_iff. split.
    + intros (k & P & Q). injection P as -> <-. auto.
    + intros [P ->]. exists n. auto.
Qed.
Print Assumptions C95_iocs.

(* Finding: two spaces between names make the status block of an IOC with no name. *)
Theorem C95_iocs_refuted : exists a b, a <> "" /\ b <> "" /\ ~ has " "%char a /\ ~ has " "%char b /\
  In ":STATUS" (ioc_mris (bl_iocs (a +++ "  " +++ b))).
Proof.
  exists "A", "B". split; [discriminate|]. split; [discriminate|].
  split; [cbn; intuition discriminate|]. split; [cbn; intuition discriminate|]. vm_compute. right. now left.
Qed.
Print Assumptions C95_iocs_refuted.

Example C95_iocs_ex :
  ioc_mris (bl_iocs "BL45P-MO-IOC-01 BL45P-CS-IOC-02 ") = ["BL45P-MO-IOC-01:STATUS"; "BL45P-CS-IOC-02:STATUS"] /\
  bl_iocs "" = [].
Proof. split; vm_compute; reflexivity. Qed.
