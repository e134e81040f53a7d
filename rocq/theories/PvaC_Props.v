(* C87: a proxy block over pvAccess shows what the server holds, for any history of updates, losses of
   the connection and reconnections. *)
From Coq Require Import String Bool ZArith Lia List.
From Verif Require Import Base Notify_Model Notify_Spec Notify2_Proofs Proxy_Model Proxy_Spec Proxy_Proofs Proxy_Props Pva2_Model PvaC_Model PvaC_Spec PvaC_Proofs.
Import ListNotations.
Local Open Scope string_scope.
Local Open Scope list_scope.

(* The history as the callback gets it. *)
Definition as_event (h : happened) : event := match h with Sent v m => Value v m | Lost => Disconnected | Other => Broken end.
Definition client_after names order down (s : client) (es : list happened) : client := fold_left (callback names order down) (map as_event es) s.
Definition start (b : list (string * val)) : client := mkClient b [] 0.
Definition any_order (order : list path -> list path) : Prop := forall l k, In k (order l) <-> In k l.

Section run.
Variable names : list string -> val.
Variable order : list path -> list path.
Variable down : val * val * val.
Hypothesis Ord : any_order order.

Definition inv (cur : option val) (s : client) : Prop :=
  match cur with
  | None => shape (c_block s) /\ c_update s = []
  | Some v => exists v0 w, good v0 /\ same_shape v0 v /\ covers v0 (c_update s) /\ in_step w (c_block s) /\ forall p, vsee w p = vsee v p
  end.
Lemma covers_some v u : good v -> covers v u -> u <> [].
Proof.
  intros ((k & fs & E & _ & Hh & _) & _ & PH & _) [_ C] ->. assert (F : field v "health" <> None).
  { intros N. apply (Hh "value"); [cbn; auto|]. unfold field2. now rewrite N. }
  destruct (C "health" F) as (x & (th & hs & -> & H) & T). specialize (Hh "value" (or_introl eq_refl)). destruct (field2 v "health" "value") as [y|] eqn:D; [|congruence].
  apply (T ["value"]). rewrite terminals_model. apply below_In. exists "value", y, []. split; [reflexivity|]. split; [intros []|]. split; [rewrite H; cbn; auto|].
  rewrite (plain_terminals y (PH "value" y (or_introl eq_refl) D)). now left.
Qed.
Lemma shape_inv cur s : inv cur s -> shape (c_block s).
Proof. destruct cur as [v|]; [intros (v0 & w & _ & _ & _ & I & _); exact (st_shape _ _ I)|intros [S _]; exact S]. Qed.
Lemma down_spec b : shape b -> exists b', set_health (VObj KMap [("value", fst (fst down)); ("alarm", snd (fst down)); ("timeStamp", snd down)]) b = Some b' /\ shape b' /\
    (forall n, In n health_names -> sub2 b' "health" n = dget n [("value", fst (fst down)); ("alarm", snd (fst down)); ("timeStamp", snd down)]) /\
    (forall f, f <> "health" -> dget f b' = dget f b).
Proof. intros S. apply set_health_spec; [exact S|]. intros n [<-|[<-|[<-|[]]]]; discriminate. Qed.
Lemma inv_run es : forall cur s, inv cur s -> fair cur es -> inv (held cur es) (client_after names order down s es).
Proof.
  induction es as [|e es IH]; intros cur s I F; [exact I|]. unfold client_after in *. cbn [map fold_left]. destruct e as [v m| |]; cbn [fair held as_event] in *.
  - destruct F as [F Fr]. apply IH; [|exact Fr]. destruct cur as [v0|].
    + destruct I as (va & w & G & S & C & IS & E). pose proof (covers_some _ _ G C) as Nu. cbn [callback]. destruct (c_update s) as [|k u] eqn:U; [congruence|]. rewrite <- U in *. clear k u U.
      destruct (update_spec names order va (c_update s) v0 m v w (c_block s) Ord G C S F IS E) as (b' & w' & R & IS' & E'). rewrite R. cbn [after inv c_update c_block].
      exists va, w'. split; [exact G|]. split; [exact (shape_trans _ _ _ S (honest_shape _ _ _ F))|]. auto.
    + destruct I as [S U]. cbn [callback]. rewrite U. destruct (regen_spec names v (c_block s) S (proj1 F)) as (b' & u & R & IS & C). rewrite R. cbn [inv c_update c_block].
      exists v, v. split; [exact F|]. split; [intros p; reflexivity|]. auto.
  - apply IH; [|exact F]. pose proof (shape_inv _ _ I) as S. destruct (down_spec _ S) as (b' & A & B & _). cbn [callback inv c_block c_update]. rewrite A. auto.
  - apply IH; auto.
Qed.
End run.

(* Whatever the history, while there is a connection every place shown is as the server has it. *)
Theorem C87_follow names order down b es v : any_order order -> new_proxy b -> fair None es -> held None es = Some v ->
  forall k p, shown p -> vsee (VObj k (c_block (client_after names order down (start b) es))) p = vsee v p.
Proof.
  intros O N F H k p Sp. assert (I : inv None (start b)) by (split; [now apply new_proxy_shape|reflexivity]).
  pose proof (inv_run names order down O es None (start b) I F) as I'. rewrite H in I'. destruct I' as (v0 & w & _ & _ & _ & IS & E). rewrite (in_step_see w _ k p IS Sp). apply E.
Qed.
Print Assumptions C87_follow.

(* When the connection is lost health tells it and all else stays. *)
Theorem C87_lost names order down b es : any_order order -> new_proxy b -> fair None es ->
  let b1 := c_block (client_after names order down (start b) es) in
  let b2 := c_block (client_after names order down (start b) (es ++ [Lost])) in
  forall k, vget (VObj k b2) ["health"; "value"] = Some (fst (fst down)) /\ vget (VObj k b2) ["health"; "alarm"] = Some (snd (fst down))
    /\ vget (VObj k b2) ["health"; "timeStamp"] = Some (snd down)
    /\ forall f p, f <> "health" -> vget (VObj k b2) (f :: p) = vget (VObj k b1) (f :: p).
Proof.
  intros O N F b1 b2 k. assert (I : inv None (start b)) by (split; [now apply new_proxy_shape|reflexivity]).
  pose proof (shape_inv _ _ (inv_run names order down O es None (start b) I F)) as S. fold b1 in S. destruct (down_spec down b1 S) as (b' & A & _ & B & C).
  assert (E : b2 = b') by (unfold b2, client_after; rewrite map_app, fold_left_app; cbn [map fold_left as_event callback c_block]; fold (client_after names order down (start b) es); fold b1; now rewrite A).
  rewrite E. clearbody b1. assert (V : forall n, vget (VObj k b') ["health"; n] = sub2 b' "health" n).
  { intros n. unfold sub2. cbn [vget]. destruct (dget "health" b') as [[| |kk gs]|]; cbn [field vget]; auto. now destruct (dget n gs). }
  rewrite !V, !B by (cbn; auto). split; [reflexivity|]. split; [reflexivity|]. split; [reflexivity|]. intros f p Nf. cbn [vget]. now rewrite C.
Qed.
Print Assumptions C87_lost.

(* sync_proxy waits for a first value and no longer. *)
Theorem C87_synced names order down b es : any_order order -> new_proxy b -> fair None es ->
  (queue_get (client_after names order down (start b) es) <> None <-> exists v m, In (Sent v m) es).
Proof.
  intros O N F. assert (X : forall es cur s, inv cur s -> fair cur es -> (c_queue s = 0%nat -> cur = None) ->
     (c_queue (client_after names order down s es) = 0%nat <-> c_queue s = 0%nat /\ forall v m, ~ In (Sent v m) es)).
  { clear es F. induction es as [|e es IH]; intros cur s I F Q; [cbn; tauto|]. unfold client_after in *. cbn [map fold_left].
    pose proof (inv_run names order down O [e] cur s I) as J. unfold client_after in J. cbn [map fold_left] in J.
    destruct e as [v m| |]; cbn [fair held as_event] in *.
    - destruct F as [F Fr]. specialize (J (conj F Logic.I)). assert (Z : c_queue (callback names order down s (Value v m)) <> 0%nat).
      { destruct cur as [v0|].
        - cbn [callback]. destruct (c_update s); [destruct (regen names (c_block s) v) as [[? ?]|[? ?]]|]; cbn [c_queue]; try lia; intros X; specialize (Q X); discriminate.
        - destruct I as [S U]. cbn [callback]. rewrite U. destruct (regen_spec names v (c_block s) S (proj1 F)) as (b' & u & R & _). rewrite R. cbn [c_queue]. lia. }
      rewrite (IH (Some v) _ J Fr) by (intros X; contradiction). split; [tauto|]. intros [_ X]. exfalso. apply (X v m). now left.
    - rewrite (IH None _ (J Logic.I) F) by reflexivity. cbn [callback c_queue]. split; (intros [A B]; split; [exact A|]); intros v m; [intros [X|X]; [discriminate|now apply (B v m)]|intros X; apply (B v m); now right].
    - rewrite (IH cur _ I F Q). cbn [callback]. split; (intros [A B]; split; [exact A|]); intros v m; [intros [X|X]; [discriminate|now apply (B v m)]|intros X; apply (B v m); now right]. }
  assert (I : inv None (start b)) by (split; [now apply new_proxy_shape|reflexivity]). specialize (X es None (start b) I F (fun _ => eq_refl)).
  assert (Y : queue_get (client_after names order down (start b) es) = None <-> c_queue (client_after names order down (start b) es) = 0%nat) by (unfold queue_get; destruct (c_queue _); split; congruence).
  rewrite Y, X. cbn [start c_queue]. clear. split.
  - intros H. induction es as [|[v m| |] es IH]; [exfalso; apply H; split; [reflexivity|intros ? ? []]|exists v, m; now left| |];
      (destruct IH as (v & m & J); [intros [_ K]; apply H; split; [reflexivity|]; intros v m [X|X]; [discriminate|now apply (K v m)]|exists v, m; now right]).
  - intros (v & m & J) [_ K]. now apply (K v m).
Qed.
Print Assumptions C87_synced.

(* What waits on the queue, sync_proxy first and then each put of exports that the server broke off, takes
   its turn: it returns at once if there were more connections so far than turns, else it waits; the block
   is the same. *)
Inductive act := Ev (h : happened) | Take.
Fixpoint acts names order down (s : client) (l : list act) : option client :=
  match l with
  | [] => Some s
  | Ev h :: r => acts names order down (callback names order down s (as_event h)) r
  | Take :: r => match send_put "exports" true s with Returned s' => acts names order down s' r | _ => None end
  end.
Fixpoint events (l : list act) : list happened := match l with [] => [] | Ev h :: r => h :: events r | Take :: r => events r end.
Fixpoint takes (l : list act) : nat := match l with [] => 0 | Ev _ :: r => takes r | Take :: r => S (takes r) end.
Fixpoint connections (cur : bool) (es : list happened) : nat :=
  match es with
  | [] => 0
  | Sent _ _ :: r => (if cur then 0 else 1) + connections true r
  | Lost :: r => connections false r
  | Other :: r => connections cur r
  end.
Definition is_some (cur : option val) : bool := match cur with Some _ => true | None => false end.
Lemma takes_turns names order down l : any_order order -> forall cur s, inv cur s -> fair cur (events l) ->
  ((exists s', acts names order down s l = Some s') <-> forall l1 l2, l = l1 ++ Take :: l2 -> (takes l1 < c_queue s + connections (is_some cur) (events l1))%nat)
  /\ forall s', acts names order down s l = Some s' -> (c_queue s' + takes l = c_queue s + connections (is_some cur) (events l))%nat
       /\ c_block s' = c_block (client_after names order down s (events l)).
Proof.
  intros O. induction l as [|[h|] l IH]; intros cur s I F; cbn [acts events takes] in *.
  - split; [split; [intros _ [|? ?] l2; discriminate|eauto]|]. intros s' [=<-]. cbn. split; [lia|reflexivity].
  - set (s1 := callback names order down s (as_event h)). set (cur1 := held cur [h]).
    assert (J : inv cur1 s1) by (apply (inv_run names order down O [h] cur s I); destruct h; cbn [fair] in *; tauto).
    assert (F1 : fair cur1 (events l)) by (unfold cur1; destruct h; cbn [fair held] in *; tauto).
    assert (Q : forall es, (c_queue s1 + connections (is_some cur1) es = c_queue s + connections (is_some cur) (h :: es))%nat).
    { intros es. unfold s1, cur1. destruct h as [v m| |]; cbn [as_event callback held connections c_queue is_some]; [|lia|lia]. cbn [fair] in F. destruct F as [F _]. destruct cur as [v0|].
      - destruct I as (va & w & G & _ & C & _). pose proof (covers_some _ _ G C) as Nu. destruct (c_update s); [congruence|]. cbn [c_queue is_some]. lia.
      - destruct I as [S U]. rewrite U. destruct (regen_spec names v (c_block s) S (proj1 F)) as (b' & u & R & _). rewrite R. cbn [c_queue is_some]. lia. }
    destruct (IH cur1 s1 J F1) as [A B]. split.
    + rewrite A. split.
      * intros H [|a l1] l2 E; [discriminate|]. injection E as <- E. cbn [events takes]. rewrite <- (Q (events l1)). eauto.
      * intros H l1 l2 E. specialize (H (Ev h :: l1) l2). cbn [events takes Datatypes.app] in H. rewrite <- (Q (events l1)) in H. apply H. now rewrite E.
    + intros s' E. destruct (B s' E) as [B1 B2]. rewrite B1, Q. split; [reflexivity|]. rewrite B2. reflexivity.
  - unfold send_put. cbn [String.eqb Ascii.eqb Bool.eqb]. unfold queue_get. destruct (c_queue s) as [|n] eqn:Qs.
    + split; [|discriminate]. split; [intros (? & [=])|]. intros H. specialize (H [] l eq_refl). cbn in H. lia.
    + set (s1 := mkClient (c_block s) (c_update s) n). assert (J : inv cur s1) by (destruct cur; exact I). destruct (IH cur s1 J F) as [A B]. split.
      * cbn. fold s1. rewrite A. cbn [s1 c_queue]. split.
        -- intros H [|a l1] l2 E; [cbn; lia|]. injection E as <- E. cbn [events takes]. specialize (H l1 l2 E). lia.
        -- intros H l1 l2 E. specialize (H (Take :: l1) l2). cbn [events takes Datatypes.app] in H. rewrite E in H. specialize (H eq_refl). lia.
      * cbn. fold s1. intros s' E. destruct (B s' E) as [B1 B2]. cbn [s1 c_queue] in B1. split; [lia|]. rewrite B2. clear. unfold client_after.
        assert (X : forall es a b, c_block a = c_block b -> c_update a = c_update b -> c_block (fold_left (callback names order down) es a) = c_block (fold_left (callback names order down) es b)).
        { induction es as [|e es IHe]; intros a b Eb Eu; [exact Eb|]. cbn [fold_left]. apply IHe; destruct e; cbn [callback]; rewrite ?Eb, ?Eu; try reflexivity; try assumption; destruct (c_update b); try destruct (regen _ _ _) as [[? ?]|[? ?]]; reflexivity. }
        apply X; reflexivity.
Qed.
Theorem C87_turns names order down b l : any_order order -> new_proxy b -> fair None (events l) ->
  ((exists s, acts names order down (start b) l = Some s) <-> forall l1 l2, l = l1 ++ Take :: l2 -> (takes l1 < connections false (events l1))%nat)
  /\ forall s, acts names order down (start b) l = Some s -> c_block s = c_block (client_after names order down (start b) (events l)).
Proof.
  intros O N F. assert (I : inv None (start b)) by (split; [now apply new_proxy_shape|reflexivity]). destruct (takes_turns names order down l O None (start b) I F) as [A B]. split; [exact A|]. intros s E. now apply B.
Qed.
Print Assumptions C87_turns.

(* ---- a block with an attribute and a table, over two connections ---- *)
Definition sat (z : Z) : val :=
  VObj (KModel "epics:nt/NTScalar:1.0")
    [("value", VLeaf z); ("alarm", VObj (KPlain "alarm_t") [("severity", VLeaf 0)]); ("timeStamp", VLeaf 0);
     ("meta", VObj (KModel "malcolm:core/NumberMeta:1.0") [("tags", VLeaf 7); ("label", VLeaf 8)])].
Definition stable (a : Z) (label : Z) : val :=
  VObj (KModel "epics:nt/NTTable:1.0")
    [("value", VObj (KPlain "Table") [("a", VLeaf a); ("b", VLeaf 2)]); ("alarm", VLeaf 0); ("timeStamp", VLeaf 0);
     ("meta", VObj (KModel "malcolm:core/TableMeta:1.0")
        [("elements", VObj KMap [("a", VObj (KModel "malcolm:core/NumberArrayMeta:1.0") [("label", VLeaf label)]);
                                 ("b", VObj (KModel "malcolm:core/NumberArrayMeta:1.0") [("label", VLeaf 4)])])])].
Definition sblock (h x a label : Z) : val :=
  VObj (KPlain "structure")
    [("meta", VObj (KPlain "structure") [("description", VLeaf 1); ("tags", VLeaf 2); ("writeable", VLeaf 1); ("label", VLeaf 3); ("fields", VLeaf 5)]);
     ("health", sat h); ("x", sat x); ("t", stable a label)].
Definition history : list happened :=
  [Sent (sblock 0 5 1 3) []; Sent (sblock 0 6 1 3) [["x"; "value"]]; Lost; Sent (sblock 1 7 1 3) []; Other;
   Sent (sblock 2 7 9 3) [["t"; "value"; "a"]; ["health"; "value"]]].
Definition down0 : val * val * val := (VLeaf 100, VLeaf 101, VLeaf 102).
Definition proxied (es : list happened) : client := client_after names0 (fun l => l) down0 (start proxy0) es.
Definition shown_by (es : list happened) : val := VObj (KModel "malcolm:core/Block:1.0") (c_block (proxied es)).

Lemma good_sblock h x a l : good (sblock h x a l).
Proof.
  split; [|split; [|split]].
  - eexists _, _. split; [reflexivity|]. split; [nd|]. split; [intros n [<-|[<-|[<-|[]]]]; discriminate|]. split; [intros n [<-|[<-|[<-|[<-|[<-|[]]]]]]; discriminate|].
    intros n N1 N2 H; cbn in H. destruct H as [<-|[<-|[<-|[<-|[]]]]]; try congruence; eexists _, _; reflexivity.
  - intros p t Np S E. subst t.
    repeat (destruct p as [|? p]; [try discriminate; try congruence|];
            cbn [vsee sblock sat stable dget] in S;
            repeat match type of S with context [String.eqb ?a ?b] => is_var a; destruct (String.eqb a b); cbn [vsee dget] in S end; try discriminate).
  - intros n y [<-|[<-|[<-|[]]]] [= <-]; exact I.
  - intros n y [<-|[<-|[<-|[<-|[]]]]] [= <-]; exact I.
Qed.

Ltac walk := unfold sblock, sat, stable; repeat first
  [ reflexivity
  | match goal with |- vsee (VObj _ _) ?p = _ => destruct p; [reflexivity|]; cbn [vsee dget] end
  | match goal with |- context [String.eqb ?a ?b] => destruct (String.eqb_spec a b) as [->|?] end ].
Lemma in_dict_not v m : (forall q n s, m = q ++ n :: s -> vsee v q <> Some (SObj KMap)) -> ~ in_dict v m.
Proof. intros H (q & n & s & t & E & A & _). exact (H q n s E A). Qed.
Ltac no_dict := apply in_dict_not; let q := fresh in let E := fresh in intros q ? ? E; repeat (destruct q as [|? q]; [discriminate|]; cbn in E; try (injection E as <- E); try discriminate); try (destruct q; discriminate).
Lemma history_fair : fair None history.
Proof.
  cbn [fair history]. split; [apply good_sblock|]. split; [|split; [apply good_sblock|split; [|exact I]]].
  - split.
    + intros m [<-|[]]. split; [exact I|]. split; [no_dict|]. split; eexists; reflexivity.
    + intros p N. specialize (N _ (or_introl eq_refl)). walk; try (exfalso; apply N; eexists; reflexivity).
  - split.
    + intros m [<-|[<-|[]]].
      * split; [exact I|]. split; [no_dict|]. split; eexists; reflexivity.
      * split; [exists "value", []; cbn; auto|]. split; [no_dict|]. split; eexists; reflexivity.
    + intros p N. pose proof (N _ (or_introl eq_refl)) as N1. pose proof (N _ (or_intror (or_introl eq_refl))) as N2. clear N. walk; try (exfalso; apply N1; eexists; reflexivity); try (exfalso; apply N2; eexists; reflexivity).
Qed.
Example C87_ex : new_proxy proxy0 /\ fair None history /\ held None history = Some (sblock 2 7 9 3)
  /\ vsee (shown_by history) ["x"; "value"] = Some (SLeaf 7) /\ vsee (shown_by history) ["t"; "value"; "a"] = Some (SLeaf 9)
  /\ vsee (shown_by history) ["health"; "value"] = Some (SLeaf 2)
  /\ vsee (shown_by (firstn 2 history)) ["x"; "value"] = Some (SLeaf 6)
  /\ vsee (shown_by (firstn 3 history)) ["health"; "value"] = Some (SLeaf 100) /\ vsee (shown_by (firstn 3 history)) ["x"; "value"] = Some (SLeaf 6)
  /\ queue_get (proxied history) <> None /\ queue_get (proxied []) = None.
Proof. split; [exact new_proxy0|]. split; [exact history_fair|]. split; [reflexivity|]. repeat split; try (vm_compute; reflexivity). vm_compute. discriminate. Qed.
(* sync_proxy and one put of exports get through on two connections, a second put waits. *)
Example C87_turns_ex : let l := map Ev (firstn 2 history) ++ Take :: map Ev (skipn 2 history) ++ [Take] in
  events l = history /\ (exists s, acts names0 (fun l => l) down0 (start proxy0) l = Some s) /\ acts names0 (fun l => l) down0 (start proxy0) (l ++ [Take]) = None.
Proof. cbn zeta. split; [reflexivity|]. split; [eexists; vm_compute; reflexivity|vm_compute; reflexivity]. Qed.

(* Of a change inside the elements of a table the client makes an exception, and with it the rest of the
   update is lost: x keeps its old value, also after the next update. *)
Theorem C87_elements_refuted : exists order v v' v'' marked,
  any_order order /\ good v /\ (forall m, In m marked -> shown m /\ exists z z', vsee v m = Some (SLeaf z) /\ vsee v' m = Some (SLeaf z'))
  /\ (forall p, (forall m, In m marked -> ~ prefix m p) -> vsee v p = vsee v' p) /\ honest v' [["health"; "value"]] v''
  /\ let b := VObj KMap (c_block (client_after names0 order down0 (start proxy0) [Sent v []; Sent v' marked; Sent v'' [["health"; "value"]]])) in
     vsee b ["t"; "meta"; "elements"; "a"; "label"] <> vsee v'' ["t"; "meta"; "elements"; "a"; "label"]
     /\ vsee b ["x"; "value"] <> vsee v'' ["x"; "value"] /\ vsee b ["health"; "value"] = vsee v'' ["health"; "value"].
Proof.
  exists (@rev path), (sblock 0 5 1 3), (sblock 0 6 1 30), (sblock 1 6 1 30), [["x"; "value"]; ["t"; "meta"; "elements"; "a"; "label"]].
  split; [intros l k; now rewrite <- in_rev|]. split; [apply good_sblock|]. split; [|split; [|split; [split|]]].
  - intros m [<-|[<-|[]]]; (split; [exact I|]); eexists _, _; split; reflexivity.
  - intros p N. pose proof (N _ (or_introl eq_refl)) as N1. pose proof (N _ (or_intror (or_introl eq_refl))) as N2. clear N. walk; try (exfalso; apply N1; eexists; reflexivity); try (exfalso; apply N2; eexists; reflexivity).
  - intros m [<-|[]]. split; [exists "value", []; cbn; auto|]. split; [no_dict|]. split; eexists; reflexivity.
  - intros p N. specialize (N _ (or_introl eq_refl)). walk; try (exfalso; apply N; eexists; reflexivity).
  - vm_compute. repeat split; discriminate.
Qed.
Print Assumptions C87_elements_refuted.

(* After the connection was lost and regained once, a put to exports that the server refuses looks like one
   that it took: the reconnection before the put is taken for the one after it. *)
Theorem C87_exports_refuted : exists b es s1 s2 s3,
  new_proxy b /\ fair None es /\ s1 = client_after names0 (fun l => l) down0 (start b) (firstn 1 es) /\ queue_get s1 = Some s2
  /\ s3 = client_after names0 (fun l => l) down0 s2 (skipn 1 es) /\ held None es <> None
  /\ exists s4, send_put "exports" true s3 = Returned s4 /\ c_block s4 = c_block s3.
Proof.
  exists proxy0, (firstn 4 history). eexists _, _, _. split; [exact new_proxy0|]. split; [|split; [reflexivity|]].
  - pose proof history_fair as H. cbn [fair history firstn] in *. tauto.
  - split; [vm_compute; reflexivity|]. split; [reflexivity|]. split; [discriminate|]. eexists. split; vm_compute; reflexivity.
Qed.
Print Assumptions C87_exports_refuted.
