(* Lemmas on hooks. *)
From Coq Require Import Bool Arith Lia List.
From Verif Require Import Ctx_Model Ctx_Proofs Hook_Model Hook_Spec.
Import ListNotations.

Lemma finished_app a b : finished_of (a ++ b) = finished_of a ++ finished_of b.
Proof. apply flat_map_app. Qed.
Lemma stopped_app a b : stopped_of (a ++ b) = stopped_of a ++ stopped_of b.
Proof. apply flat_map_app. Qed.
Lemma vrun_snoc sp ck w ops o : vrun sp ck w (ops ++ [o]) =
  (fst (vstep sp ck (fst (vrun sp ck w ops)) o), snd (vrun sp ck w ops) ++ snd (vstep sp ck (fst (vrun sp ck w ops)) o)).
Proof.
  revert w. induction ops as [|x r IH]; intros w; cbn [app vrun fst snd].
  - destruct (vstep sp ck w o) as [w' e]. cbn [fst snd]. now rewrite app_nil_r.
  - destruct (vstep sp ck w x) as [w' e]. rewrite IH. destruct (vrun sp ck w' r) as [w'' es]. cbn [fst snd].
    now rewrite app_assoc.
Qed.
Lemma nget_app {A} k (a b : ndict A) : nget k (a ++ b) = match nget k a with Some x => Some x | None => nget k b end.
Proof. induction a as [|[k' v] r IH]; cbn [app nget]; [reflexivity|]. destruct (Nat.eqb k k'); auto. Qed.
Lemma nget_In {A} k (v : A) d : nget k d = Some v -> In (k, v) d.
Proof.
  induction d as [|[k' v'] r IH]; cbn [nget]; [discriminate|]. destruct (Nat.eqb_spec k k') as [->|N].
  - intros H. injection H as ->. now left.
  - intros H. right. auto.
Qed.
Lemma In_nget {A} k (v : A) d : NoDup (map fst d) -> In (k, v) d -> nget k d = Some v.
Proof.
  induction d as [|[k' v'] r IH]; cbn [nget map fst]; intros Hn Hi; [destruct Hi|]. inversion Hn; subst. destruct Hi as [E|Hi].
  - injection E as -> ->. now rewrite Nat.eqb_refl.
  - destruct (Nat.eqb_spec k k') as [->|N]; [|auto]. exfalso. apply H1. change k' with (fst (k', v)). now apply in_map.
Qed.
Lemma nget_key {A} k (d : ndict A) : In k (map fst d) -> exists v, nget k d = Some v.
Proof.
  induction d as [|[k' v'] r IH]; cbn [nget map fst]; intros H; [destruct H|]. destruct (Nat.eqb_spec k k') as [->|N]; [eauto|].
  destruct H as [H|H]; [congruence|auto].
Qed.

Section H.
Context (sp : list hook) (ck : bool).
Notation ids := (map h_id sp).
Context (Hid : NoDup ids) (Hnm : NoDup (map h_name sp)).

(* return_dict once the results t have been looked at *)
Definition dict_of (t : list (nat * ret)) : ndict (option ret) :=
  map (fun x => (h_name x, nget (h_id x) t)) sp.

Lemma nset_map (g : hook -> option ret) l x r : NoDup (map h_name l) -> NoDup (map h_id l) -> In x l ->
  nset (h_name x) r (map (fun y => (h_name y, g y)) l) =
  map (fun y => (h_name y, if Nat.eqb (h_id y) (h_id x) then r else g y)) l.
Proof.
  induction l as [|y l IH]; intros Hn Hi Hx; [destruct Hx|]. cbn [map nset] in *. inversion Hn; inversion Hi; subst.
  destruct (Nat.eqb_spec (h_name x) (h_name y)) as [E|E].
  - assert (x = y).
    { destruct Hx as [->|Hx]; [reflexivity|]. exfalso. apply H1. rewrite <- E. now apply in_map. }
    subst y. rewrite Nat.eqb_refl. f_equal. apply map_ext_in. intros z Hz.
    destruct (Nat.eqb_spec (h_id z) (h_id x)) as [Ez|Ez]; [|reflexivity]. exfalso. apply H5. rewrite <- Ez. now apply in_map.
  - destruct Hx as [->|Hx]; [congruence|]. destruct (Nat.eqb_spec (h_id y) (h_id x)) as [Ey|Ey].
    + exfalso. apply H5. rewrite Ey. now apply in_map.
    + f_equal. now apply IH.
Qed.
Lemma find_id x : In x sp -> find (fun h => Nat.eqb (h_id h) (h_id x)) sp = Some x.
Proof.
  revert Hid. clear Hnm. induction sp as [|y l IH]; intros Hi Hx; [destruct Hx|]. cbn [find map] in *. inversion Hi; subst.
  destruct (Nat.eqb_spec (h_id y) (h_id x)) as [E|E].
  - destruct Hx as [->|Hx]; [reflexivity|]. exfalso. apply H1. rewrite E. now apply in_map.
  - destruct Hx as [->|Hx]; [congruence|auto].
Qed.
Lemma dict_snoc t h r : In h ids -> nget h t = None ->
  nset (name_of sp h) (Some r) (dict_of t) = dict_of (t ++ [(h, r)]).
Proof.
  intros Hh Ht. apply in_map_iff in Hh as (x & <- & Hx). unfold name_of. rewrite (find_id x Hx). unfold dict_of.
  rewrite (nset_map (fun y => nget (h_id y) t) sp x (Some r) Hnm Hid Hx). apply map_ext. intros y. f_equal.
  rewrite nget_app. cbn [nget]. destruct (Nat.eqb_spec (h_id y) (h_id x)) as [->|E].
  - now rewrite Ht.
  - now destruct (nget (h_id y) t).
Qed.
Lemma dict_start : fold_left (fun d h => nset (h_name h) None d) sp [] = dict_of [].
Proof.
  unfold dict_of. cbn [nget].
  assert (G : forall l d, NoDup (map fst d ++ map h_name l) ->
     fold_left (fun d h => nset (h_name h) (@None ret) d) l d = d ++ map (fun x => (h_name x, None)) l).
  { induction l as [|y l IH]; intros d Hd; cbn [fold_left map]; [now rewrite app_nil_r|].
    assert (E : nset (h_name y) (@None ret) d = d ++ [(h_name y, None)]).
    { cbn [map] in Hd. apply NoDup_remove in Hd as [_ Hd]. assert (Hy : ~ In (h_name y) (map fst d)) by (intros H; apply Hd, in_or_app; now left).
      clear -Hy. induction d as [|[k v] r IH]; cbn [nset app]; [reflexivity|]. cbn [map fst In] in Hy.
      destruct (Nat.eqb_spec (h_name y) k) as [E|N]; [exfalso; apply Hy; left; congruence|]. f_equal. apply IH. auto. }
    rewrite E, IH.
    - now rewrite <- app_assoc.
    - rewrite map_app. cbn [map fst]. now rewrite <- app_assoc. }
  now rewrite (G sp []).
Qed.

Definition fine (r : ret) : Prop := ck = true -> exists v, r = Value v.
Definition stops (e : ret) : list nat := match e with Abort => [] | _ => ids end.
(* where the caller is, given the results t looked at so far and what came in since *)
Inductive inplace (w : waiter) (stopped : list nat) : place -> list (nat * ret) -> Prop :=
| IPget t : (forall x, In x t -> fine (snd x) /\ exited w (fst x) = true) -> v_left w <> [] -> v_dict w = dict_of t -> stopped = [] ->
    inplace w stopped Getting t
| IPjoin t h r : (forall x, In x t -> fine (snd x) /\ exited w (fst x) = true) -> v_dict w = dict_of t -> stopped = [] ->
    inplace w stopped (Joining h r) (t ++ [(h, r)])
| IPwind t h e pre todo : ck = true -> (forall x, In x t -> fine (snd x)) -> is_exn e = true -> ids = pre ++ todo ->
    (forall x, In x pre -> exited w x = true) -> stopped = stops e ->
    inplace w stopped (Winding todo e) (t ++ [(h, e)])
| IPret t : (forall x, In x t -> fine (snd x) /\ exited w (fst x) = true) -> v_left w = [] -> stopped = [] ->
    inplace w stopped (Done (Returned (dict_of t))) t
| IPraise t h e : ck = true -> (forall x, In x t -> fine (snd x)) -> is_exn e = true ->
    (forall x, In x ids -> exited w x = true) -> stopped = stops e ->
    inplace w stopped (Done (Raised e)) (t ++ [(h, e)])
| IPlate t : inplace w stopped (Done TimedOut) t.

Record vinv (w : waiter) (ev : list event) : Prop := {
  i_threads : forall h, In h ids <-> exists s, nget h (v_threads w) = Some s;
  i_work : forall h, In h ids -> (nget h (v_threads w) = Some Working <-> ~ In h (map fst (finished_of ev)));
  i_incl : forall h, In h (map fst (finished_of ev)) -> In h ids;
  i_once : NoDup (map fst (finished_of ev));
  i_place : exists taken, finished_of ev = taken ++ v_queue w /\
     (forall h, In h (v_left w) <-> In h ids /\ ~ In h (map fst taken)) /\ NoDup (v_left w) /\
     inplace w (stopped_of ev) (v_place w) taken
}.

Lemma inplace_exited w w' st p t : (forall h, exited w h = true -> exited w' h = true) ->
  v_left w' = v_left w -> v_dict w' = v_dict w -> inplace w st p t -> inplace w' st p t.
Proof.
  intros He Hl Hd H. destruct H.
  - apply IPget; auto; try congruence. intros x Hx. destruct (H x Hx). auto.
  - apply IPjoin; auto; try congruence. intros x Hx. destruct (H x Hx). auto.
  - apply (IPwind w' _ t h e pre todo); auto.
  - apply IPret; auto; try congruence. intros x Hx. destruct (H x Hx). auto.
  - apply IPraise; auto.
  - constructor.
Qed.
Lemma exited_nset_put w h s x q l d p : nget h (v_threads w) = Some Working -> s = Put ->
  exited w x = true -> exited (mkV (nset h s (v_threads w)) q l d p) x = true.
Proof.
  unfold exited. cbn [v_threads]. intros Hw -> H. destruct (Nat.eq_dec x h) as [->|N].
  - rewrite Hw in H. discriminate.
  - now rewrite nget_nset_other.
Qed.
Lemma exited_nset_exit w h x q l d p : exited w x = true -> exited (mkV (nset h Exited (v_threads w)) q l d p) x = true.
Proof.
  unfold exited. cbn [v_threads]. intros H. destruct (Nat.eq_dec x h) as [->|N].
  - now rewrite nget_nset_same.
  - now rewrite nget_nset_other.
Qed.

Lemma vinv_init : vinv (v_init sp) [].
Proof.
  constructor; cbn [v_init v_threads v_queue v_left v_dict v_place finished_of stopped_of flat_map map].
  - intros h. split.
    + intros Hh. apply nget_key. now rewrite map_map.
    + intros (s & Hs). apply nget_In in Hs. apply in_map_iff in Hs as (x & E & Hx). injection E as <- <-. now apply in_map.
  - intros h Hh. split; [intros _ []|]. intros _. apply In_nget; [now rewrite map_map|].
    apply in_map_iff in Hh as (x & <- & Hx). apply in_map_iff. now exists x.
  - intros h [].
  - constructor.
  - exists []. split; [reflexivity|]. split; [intros h; cbn; tauto|]. split; [exact Hid|].
    assert (C : {sp = []} + {sp <> []}) by (clear; destruct sp; [now left|now right]). destruct C as [E|E].
    + assert (match sp with [] => Done (Returned []) | _ :: _ => Getting end = Done (Returned (dict_of []))) as -> by (unfold dict_of; now rewrite E).
      apply IPret; [intros y []|cbn [v_left]; now rewrite E|reflexivity].
    + assert (match sp with [] => Done (Returned []) | _ :: _ => Getting end = Getting) as -> by (clear -E; destruct sp; [congruence|reflexivity]).
      apply IPget; [intros y []| |exact dict_start|reflexivity]. cbn [v_left]. clear -E. destruct sp; [congruence|discriminate].
Qed.
Lemma rem1_In h l x : NoDup l -> (In x (rem1 h l) <-> In x l /\ x <> h).
Proof.
  intros Hn. split.
  - intros H. split; [now apply (rem1_incl h l)|]. intros ->. now apply (rem1_nodup h l Hn).
  - intros [A B]. now apply rem1_other.
Qed.

Lemma vinv_step w ev o : vinv w ev -> vinv (fst (vstep sp ck w o)) (ev ++ snd (vstep sp ck w o)).
Proof.
  intros I. destruct I as [It Iw Ii Io (t & HF & Hl & Hln & Hp)].
  assert (Same : forall w', v_threads w' = v_threads w -> (exists t', finished_of ev = t' ++ v_queue w' /\
      (forall h, In h (v_left w') <-> In h ids /\ ~ In h (map fst t')) /\ NoDup (v_left w') /\
      inplace w' (stopped_of ev) (v_place w') t') -> vinv w' (ev ++ [])).
  { intros w' Ht Hx. rewrite app_nil_r. constructor; rewrite ?Ht; auto. }
  assert (Id : vinv w (ev ++ [])) by (apply Same; [reflexivity|eauto]).
  destruct o as [h r|h| |]; cbn [vstep].
  - destruct (nget h (v_threads w)) as [[| |]|] eqn:E; try exact Id. cbn [fst snd].
    assert (Hh : In h ids) by (apply It; eauto).
    assert (Hnf : ~ In h (map fst (finished_of ev))) by now apply Iw.
    constructor; cbn [v_threads v_queue v_left v_dict v_place]; rewrite ?finished_app, ?stopped_app; cbn [finished_of stopped_of flat_map app];
      fold (finished_of ev) (stopped_of ev); rewrite ?app_nil_r, ?map_app; cbn [map fst].
    + intros x. rewrite It. destruct (Nat.eq_dec x h) as [->|N].
      * rewrite nget_nset_same, E. split; eauto.
      * now rewrite nget_nset_other by exact N.
    + intros x Hx. destruct (Nat.eq_dec x h) as [->|N].
      * rewrite nget_nset_same. split; [discriminate|]. intros Hn. exfalso. apply Hn, in_or_app. right. now left.
      * rewrite nget_nset_other by exact N. rewrite (Iw x Hx), in_app_iff. cbn [In]. intuition congruence.
    + intros x Hx. apply in_app_or in Hx as [Hx|[<-|[]]]; auto.
    + now apply NoDup_snoc.
    + exists t. rewrite HF, <- app_assoc. split; [reflexivity|]. split; [exact Hl|]. split; [exact Hln|].
      apply (inplace_exited w); [|reflexivity|reflexivity|exact Hp]. intros x. now apply exited_nset_put.
  - destruct (nget h (v_threads w)) as [[| |]|] eqn:E; try exact Id. cbn [fst snd]. rewrite app_nil_r.
    constructor; cbn [v_threads v_queue v_left v_dict v_place]; auto.
    + intros x. rewrite It. destruct (Nat.eq_dec x h) as [->|N].
      * rewrite nget_nset_same, E. split; eauto.
      * now rewrite nget_nset_other by exact N.
    + intros x Hx. destruct (Nat.eq_dec x h) as [->|N].
      * rewrite nget_nset_same, <- (Iw h Hx), E. split; discriminate.
      * rewrite nget_nset_other by exact N. now apply Iw.
    + exists t. split; [exact HF|]. split; [exact Hl|]. split; [exact Hln|].
      apply (inplace_exited w); [|reflexivity|reflexivity|exact Hp]. intros x. now apply exited_nset_exit.
  - destruct (v_place w) as [|h r|[|h l] e|oc] eqn:Ep; try exact Id.
    + destruct (v_queue w) as [|[h r] q] eqn:Eq; [exact Id|]. cbn [fst snd]. apply Same; [reflexivity|].
      cbn [v_threads v_queue v_left v_dict v_place]. exists (t ++ [(h, r)]). rewrite <- app_assoc. split; [exact HF|].
      split; [|split].
      * intros x. rewrite (rem1_In _ _ _ Hln), Hl, map_app, in_app_iff. cbn [map fst In]. intuition congruence.
      * now apply rem1_nodup.
      * inversion Hp; subst. apply IPjoin; auto.
    + destruct (exited w h) eqn:Ee; [|exact Id]. unfold got.
      inversion Hp as [|t0 h0 r0 Ht Hd Hs| | | |]; subst t h0 r0.
      assert (Hh : In h ids) by (apply Ii; rewrite HF, !map_app, !in_app_iff; cbn; auto).
      assert (Hnt : nget h t0 = None).
      { apply nget_notin. rewrite HF, map_app, map_app in Io. cbn [map fst] in Io. rewrite <- app_assoc in Io. cbn [app] in Io.
        apply NoDup_remove_2 in Io. rewrite in_app_iff in Io. tauto. }
      destruct (is_exn r && ck) eqn:Ex.
      * apply andb_prop in Ex as [Ex Eck]. cbn [fst snd]. constructor; cbn [at_place v_threads v_queue v_left v_dict v_place];
          rewrite ?finished_app, ?stopped_app.
        -- exact It.
        -- intros x Hx. rewrite (Iw x Hx). rewrite map_app, in_app_iff.
           assert (finished_of (match r with Abort => [] | _ => map (fun h => Stopped (h_id h)) sp end) = []) as ->.
           { destruct r; [discriminate|reflexivity|]. clear. induction sp; cbn; auto. }
           cbn. tauto.
        -- assert (finished_of (match r with Abort => [] | _ => map (fun h => Stopped (h_id h)) sp end) = []) as ->.
           { destruct r; [discriminate|reflexivity|]. clear. induction sp; cbn; auto. }
           rewrite app_nil_r. exact Ii.
        -- assert (finished_of (match r with Abort => [] | _ => map (fun h => Stopped (h_id h)) sp end) = []) as ->.
           { destruct r; [discriminate|reflexivity|]. clear. induction sp; cbn; auto. }
           rewrite app_nil_r. exact Io.
        -- assert (finished_of (match r with Abort => [] | _ => map (fun h => Stopped (h_id h)) sp end) = []) as ->.
           { destruct r; [discriminate|reflexivity|]. clear. induction sp; cbn; auto. }
           rewrite app_nil_r. exists (t0 ++ [(h, r)]). split; [exact HF|]. split; [exact Hl|]. split; [exact Hln|].
           apply (IPwind _ _ t0 h r [] ids); auto.
           ++ intros x Hx. now destruct (Ht x Hx).
           ++ rewrite Hs. cbn [app]. destruct r; [discriminate|reflexivity|]. cbn [stops]. clear. induction sp; cbn; auto. now f_equal.
      * cbn [fst snd]. apply Same; [reflexivity|]. cbn [v_threads v_queue v_left v_dict v_place].
        exists (t0 ++ [(h, r)]). split; [exact HF|]. split; [exact Hl|]. split; [exact Hln|].
        rewrite Hd, (dict_snoc t0 h r Hh Hnt).
        assert (Hall : forall x, In x (t0 ++ [(h, r)]) -> fine (snd x) /\ exited w (fst x) = true).
        { intros x Hx. apply in_app_or in Hx as [Hx|[<-|[]]]; [auto|]. cbn [fst snd]. split; [|exact Ee]. intros Hck. rewrite Hck in Ex.
          rewrite andb_true_r in Ex. destruct r; [eauto|discriminate|discriminate]. }
        destruct (v_left w) as [|y yl] eqn:El.
        -- apply IPret; auto.
        -- apply IPget; auto. discriminate.
    + cbn [fst snd]. apply Same; [reflexivity|]. cbn [at_place v_threads v_queue v_left v_dict v_place].
      exists t. split; [exact HF|]. split; [exact Hl|]. split; [exact Hln|].
      inversion Hp; subst. apply IPraise; auto. intros x Hx. match goal with H : ids = _, K : forall y, In y pre -> _ |- _ => rewrite H, app_nil_r in Hx; now apply K end.
    + destruct (exited w h) eqn:Ee; [|exact Id]. cbn [fst snd]. apply Same; [reflexivity|]. cbn [at_place v_threads v_queue v_left v_dict v_place].
      exists t. split; [exact HF|]. split; [exact Hl|]. split; [exact Hln|].
      inversion Hp; subst. apply (IPwind _ _ t0 h0 e (pre ++ [h]) l); auto.
      * now rewrite <- app_assoc.
      * intros x Hx. change (exited w x = true). apply in_app_or in Hx as [Hx|[<-|[]]]; auto.
  - assert (L : vinv (at_place w (Done TimedOut)) (ev ++ [])).
    { apply Same; [reflexivity|]. cbn [at_place v_threads v_queue v_left v_dict v_place]. exists t. split; [exact HF|]. split; [exact Hl|]. split; [exact Hln|]. constructor. }
    destruct (v_place w) as [|h r|[|h l] e|oc] eqn:Ep; try exact Id; destruct (exited w h); (exact Id || exact L).
Qed.
Lemma vinv_run ops : vinv (fst (vrun sp ck (v_init sp) ops)) (snd (vrun sp ck (v_init sp) ops)).
Proof.
  induction ops as [|o r IH] using rev_ind; [exact vinv_init|]. rewrite vrun_snoc. cbn [fst snd]. now apply vinv_step.
Qed.

(* with all threads gone the caller gets there *)
Definition measure (w : waiter) : nat :=
  match v_place w with
  | Getting => 2 * length (v_left w) + length ids + 2
  | Joining _ _ => 2 * length (v_left w) + length ids + 3
  | Winding todo _ => length todo + 1
  | Done _ => 0
  end.
Lemma rem1_length h l : In h l -> S (length (rem1 h l)) = length l.
Proof.
  induction l as [|x l IH]; intros H; [destruct H|]. cbn [rem1]. destruct (Nat.eqb_spec h x) as [->|N]; [reflexivity|].
  destruct H as [->|H]; [congruence|]. cbn [length]. now rewrite IH.
Qed.
Lemma go_decreases w ev : vinv w ev -> (forall h, In h ids -> exited w h = true) ->
  (forall o, v_place w <> Done o) ->
  measure (fst (vstep sp ck w Go)) < measure w /\ v_threads (fst (vstep sp ck w Go)) = v_threads w.
Proof.
  intros I Hex Hnd. destruct I as [It Iw Ii Io (t & HF & Hl & Hln & Hp)]. cbn [vstep].
  destruct (v_place w) as [|h r|[|h l] e|oc] eqn:Ep; [| | | |destruct (Hnd oc eq_refl)]; unfold measure; rewrite Ep.
  - destruct (v_queue w) as [|[h r] q] eqn:Eq.
    + exfalso. inversion Hp; subst. destruct (v_left w) as [|x xl] eqn:El; [congruence|].
      destruct (proj1 (Hl x) (or_introl eq_refl)) as [Hx Hnx]. rewrite app_nil_r in HF. rewrite <- HF in Hnx.
      apply (Iw x Hx) in Hnx. pose proof (Hex x Hx) as E. unfold exited in E. rewrite Hnx in E. discriminate.
    + cbn [fst v_place v_left v_threads]. split; [|reflexivity].
      assert (In h (v_left w)).
      { apply Hl. split; [apply Ii; rewrite HF, map_app, in_app_iff; cbn; auto|].
        rewrite HF, map_app in Io. cbn [map fst] in Io. apply NoDup_remove_2 in Io. rewrite in_app_iff in Io. tauto. }
      pose proof (rem1_length h _ H). lia.
  - assert (Hh : In h ids).
    { apply Ii. inversion Hp; subst. rewrite HF, !map_app, !in_app_iff. cbn. auto. }
    rewrite (Hex h Hh). unfold got. destruct (is_exn r && ck).
    + cbn [fst at_place v_place v_threads]. rewrite map_length. split; [lia|reflexivity].
    + cbn [fst v_place v_threads v_left]. destruct (v_left w); (split; [cbn [length]; lia|reflexivity]).
  - cbn. split; [lia|reflexivity].
  - assert (Hh : In h ids) by (inversion Hp; subst; match goal with H : ids = _ |- _ => rewrite H end; apply in_or_app; right; now left).
    rewrite (Hex h Hh). cbn [fst at_place v_place v_threads length]. split; [lia|reflexivity].
Qed.
End H.
