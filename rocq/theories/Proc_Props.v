(* C76: the list of published controllers.  C77: what stop and wait wait for. *)
From Coq Require Import String Bool Arith Lia List.
From Verif Require Import Base Proc_Model Proc_Proofs.
Import ListNotations.
Local Open Scope string_scope.
Local Open Scope list_scope.
Local Open Scope nat_scope.

(* ---- C76 ---- *)
(* Where no controller is below itself (there are ranks that go down from a controller to those that its parts
   name), and the tree is not too deep for the interpreter, the list of published controllers has each
   controller once, but for those that asked not to be; first come those that are in no other, in the order
   in which they were added. *)
Theorem C76_published : forall limit cs unpublished (r : string -> nat), 0 < limit ->
  NoDup (map fst cs) ->
  (forall m parts p, In (m, parts) cs -> In p parts -> r p < r m) -> (forall m parts, In (m, parts) cs -> r m < limit) ->
  exists first rest, publish limit cs unpublished = Some (first ++ rest) /\ NoDup (first ++ rest)
    /\ (forall m, In m (first ++ rest) <-> In m (map fst cs) /\ ~ In m unpublished)
    /\ (forall m, In m rest -> exists c parts, In (c, parts) cs /\ In m parts)
    /\ (forall m, In m first -> forall c parts, In (c, parts) cs -> ~ In m parts)
    /\ exists f, first = filter f (map fst cs).
Proof.
  intros limit cs unp r P ND R L.
  assert (R' : forall m k, In k (kids cs m) -> r k < r m).
  { intros m k K. apply kids_spec in K. destruct K as (parts & D & I & _). apply dget_Some_In in D. eauto. }
  assert (L' : forall m, In m (dkeys cs) -> r m < limit).
  { intros m I. unfold dkeys in I. apply in_map_iff in I. destruct I as ([m' parts] & <- & I). eauto. }
  destruct (published cs unp limit r ND R' L' P) as (l & rest & A & B & C & D & E).
  exists (filter (fun m => negb (smem m unp) && forallb (fun c => negb (smem m (snd c))) cs) (dkeys cs)), rest.
  rewrite <- D. split; [assumption|]. split; [assumption|]. split; [assumption|]. split; [|split].
  - intros m I. destruct (E m I) as (c & parts & X & Y). apply dget_Some_In in X. eauto.
  - intros m I c parts X Y. apply filter_In in I. destruct I as [_ I]. apply andb_prop in I. destruct I as [_ I].
    rewrite forallb_forall in I. specialize (I _ X). cbn in I. apply negb_true_iff in I. apply smem_false in I. auto.
  - eexists. reflexivity.
Qed.
Print Assumptions C76_published.

(* a beamline: a scan block with a detector and a PandA, which both know the HDF writer; a web server; a proxy *)
Definition ex_cs : controllers :=
  [("HDF", []); ("PROXY", []); ("SCAN", ["DET"; "PANDA"; "PROXY"]); ("DET", ["HDF"; "CAM"]); ("CAM", []); ("PANDA", ["HDF"; "GONE"]);
   ("WEB", [])].
Definition ex_rank (m : string) : nat :=
  if String.eqb m "SCAN" then 2 else if String.eqb m "DET" || String.eqb m "PANDA" then 1 else 0.
Example C76_ex : (forall m parts p, In (m, parts) ex_cs -> In p parts -> ex_rank p < ex_rank m)
  /\ publish 1000 ex_cs ["PROXY"] = Some ["SCAN"; "WEB"; "DET"; "PANDA"; "HDF"; "CAM"].
Proof.
  split; [|vm_compute; reflexivity].
  intros m parts p H. unfold ex_cs in H. cbn in H.
  repeat (destruct H as [H|H]; [injection H as <- <-; cbn; intros X;
    repeat (destruct X as [X|X]; [subst p; vm_compute; lia|]); destruct X|]). destruct H.
Qed.

(* Controllers that are in each other are not published, although they can be found in the process. *)
Theorem C76_cycle_refuted : exists cs, NoDup (map fst cs) /\ In "A" (map fst cs) /\ forall limit, 0 < limit -> publish limit cs [] = Some [].
Proof.
  exists [("A", ["B"]); ("B", ["A"])]. split; [repeat constructor; cbn; intuition discriminate|]. split; [cbn; auto|].
  intros [|limit] H; [lia|]. vm_compute. reflexivity.
Qed.
Print Assumptions C76_cycle_refuted.
(* If another controller has one of them, publishing fails, whatever the limit of the interpreter: start fails. *)
Theorem C76_endless_refuted : exists cs, NoDup (map fst cs) /\ forall limit, publish limit cs [] = None.
Proof.
  set (cs := [("R", ["A"]); ("A", ["B"]); ("B", ["A"])]).
  exists cs. split; [repeat constructor; cbn; intuition discriminate|].
  assert (X : forall n l, walk n cs [] [] ["A"] l = None /\ walk n cs [] [] ["B"] l = None).
  { induction n as [|n IH]; intros l; [split; reflexivity|]. split.
    - transitivity (walk n cs [] [] ["B"] (if smem "A" l || false then l else l ++ ["A"])); [reflexivity|]. apply IH.
    - transitivity (walk n cs [] [] ["A"] (if smem "B" l || false then l else l ++ ["B"])); [reflexivity|]. apply IH. }
  intros [|limit]; [reflexivity|].
  transitivity (walk limit cs [] [] ["A"] ["R"]); [reflexivity|]. apply X.
Qed.
Print Assumptions C76_endless_refuted.

(* -- in the course of a process -- *)
Section History.
Context (limit : nat) (Pl : 0 < limit) (r : string -> nat).
(* the controllers that are added have ranks as above *)
Definition ranked (l : list (string * list string)) : Prop :=
  forall m parts, In (m, parts) l -> r m < limit /\ forall p, In p parts -> r p < r m.
Definition all_ranked (es : list pev) : Prop := forall l silent, In (Add l silent) es -> ranked l.

Definition pinv (p : proc) : Prop :=
  NoDup (dkeys (p_cs p)) /\ ranked (p_cs p) /\ incl (p_unpub p) (dkeys (p_cs p)) /\
  match p_state p with
  | Stopped => p_unpub p = [] /\ p_hooked p = [] /\ p_ran p = [] /\ p_told p = []
  | Starting => NoDup (p_hooked p) /\ p_told p = [] /\ forall m, In m (dkeys (p_cs p)) <-> In m (p_hooked p) \/ In m (p_ran p)
  | Started => p_hooked p = [] /\ (forall m, In m (dkeys (p_cs p)) <-> In m (p_ran p)) /\ NoDup (p_told p)
               /\ forall m, In m (p_told p) <-> In m (dkeys (p_cs p)) /\ ~ In m (p_unpub p)
  | Stopping => False
  end.

Lemma publish_ok cs unp : NoDup (dkeys cs) -> ranked cs ->
  exists l, publish limit cs unp = Some l /\ NoDup l /\ forall m, In m l <-> In m (dkeys cs) /\ ~ In m unp.
Proof.
  intros N R. destruct (C76_published limit cs unp r Pl N) as (a & b & A & B & C & _).
  - intros m parts p X Y. destruct (R m parts X) as [_ Z]. auto.
  - intros m parts X. now destruct (R m parts X).
  - eauto.
Qed.
Lemma register_spec : forall l cs cs' b, register cs l = (cs', b) -> NoDup (dkeys cs) ->
  NoDup (dkeys cs') /\ (b = false -> (forall m, In m (dkeys cs') <-> In m (dkeys cs) \/ In m (map fst l))
    /\ forall x, In x cs' -> In x cs \/ In x l).
Proof.
  induction l as [|[m parts] l IH]; intros cs cs' b H N; cbn in H.
  - injection H as <- <-. split; [assumption|]. intros _. cbn. split; tauto.
  - destruct (dmem m cs) eqn:D; [injection H as <- <-; split; [assumption|discriminate]|].
    destruct (IH _ _ _ H (dset_nodup _ _ _ N)) as [A B]. split; [assumption|]. intros Eb. destruct (B Eb) as [B1 B2].
    apply dmem_false in D. split.
    + intros x. rewrite B1, In_dkeys_dset. cbn. intuition congruence.
    + intros x X. destruct (B2 x X) as [Y|Y]; [|cbn; auto]. clear - D Y.
      induction cs as [|[k v] cs IH]; cbn in *; [intuition|].
      destruct (String.eqb m k) eqn:E; [apply String.eqb_eq in E; subst; tauto|].
      destruct Y as [Y|Y]; [auto|]. destruct IH; auto.
Qed.
Lemma register_raises : forall l cs, NoDup (dkeys cs) ->
  (snd (register cs l) = true <-> ~ (NoDup (map fst l) /\ forall m, In m (map fst l) -> ~ In m (dkeys cs))).
Proof.
  induction l as [|[m parts] l IH]; intros cs N; cbn.
  - split; [discriminate|]. intros X. exfalso. apply X. split; [constructor|tauto].
  - destruct (dmem m cs) eqn:D.
    + cbn. split; [|reflexivity]. intros _ [_ X]. apply dmem_In in D. apply (X m); auto.
    + apply dmem_false in D. rewrite IH by (now apply dset_nodup).
      assert (X : forall P Q : Prop, (P <-> Q) -> (~ P <-> ~ Q)) by tauto. apply X. clear X.
      rewrite NoDup_cons_iff. split.
      * intros [A B]. split; [split; [|assumption]|].
        -- intros I. apply (B m I). apply In_dkeys_dset. auto.
        -- intros x [<-|I]; [assumption|]. intros Y. apply (B x I). apply In_dkeys_dset. auto.
      * intros [[A B] C]. split; [assumption|]. intros x I Y. apply In_dkeys_dset in Y. destruct Y as [->|Y]; [auto|]. apply (C x); auto.
Qed.

Lemma filter_full {A} (f : A -> bool) l : length l <= length (filter f l) -> forall x, In x l -> f x = true.
Proof.
  assert (B : forall l, length (filter f l) <= length l).
  { induction l0 as [|a l0 IH0]; cbn; [lia|]. destruct (f a); cbn; lia. }
  induction l as [|a l IH]; intros H x I; [destruct I|]. cbn in H. pose proof (B l).
  destruct (f a) eqn:F; cbn in H; [|lia]. destruct I as [<-|I]; [assumption|]. apply IH; [lia|assumption].
Qed.

(* The exact cases in which a call is refused; publishing does not fail. *)
Definition refused (e : pev) (p : proc) : Prop :=
  match e with
  | StartBegin => p_state p <> Stopped
  | StartEnd _ => p_state p <> Starting
  | Add l _ => ~ (NoDup (map fst l) /\ forall m, In m (map fst l) -> ~ In m (map fst (p_cs p)))
  | StopAll => p_state p <> Started
  end.

Lemma pstep_ok e p : pinv p -> (forall l silent, e = Add l silent -> ranked l) ->
  (snd (pstep limit e p) = true <-> refused e p) /\ (snd (pstep limit e p) = false -> pinv (fst (pstep limit e p))).
Proof.
  intros I Re. destruct p as [st cs unp hk rn td]. destruct I as (I1 & I2 & I3 & I4). cbn in I1, I2, I3, I4.
  destruct e as [|silent|l silent|]; cbn [pstep p_state p_cs p_unpub p_hooked p_ran p_told refused].
  - destruct st; cbn; (split; [split; congruence|]); try discriminate. intros _. unfold pinv; cbn.
    destruct I4 as (-> & -> & -> & ->). split; [assumption|]. split; [assumption|]. split; [assumption|]. split; [assumption|]. split; [reflexivity|]. intros m. cbn. tauto.
  - destruct st; cbn [fst snd]; try (split; [split; [intros _; discriminate|reflexivity]|discriminate]).
    destruct I4 as (N & -> & K). set (new := filter silent hk).
    assert (Inc : incl (unp ++ new) (dkeys cs)).
    { intros x X. apply in_app_iff in X. destruct X as [X|X]; [auto|]. apply filter_In in X. apply K. tauto. }
    destruct (Nat.ltb (length new) (length cs)) eqn:LT.
    + unfold do_publish. cbn [p_cs p_unpub p_state p_hooked p_ran].
      destruct (publish_ok cs (unp ++ new) I1 I2) as (lst & E1 & E2 & E3). rewrite E1. cbn.
      split; [split; [discriminate|congruence]|]. intros _. unfold pinv; cbn.
      split; [assumption|]. split; [assumption|]. split; [assumption|]. split; [reflexivity|].
      split; [|split; assumption]. intros m. rewrite K, in_app_iff. tauto.
    + cbn. split; [split; [discriminate|congruence]|]. intros _. unfold pinv; cbn.
      split; [assumption|]. split; [assumption|]. split; [assumption|]. split; [reflexivity|].
      split; [intros m; rewrite K, in_app_iff; tauto|]. split; [constructor|].
      intros m. split; [intros []|]. intros [M1 M2]. exfalso. apply M2. apply in_app_iff. right.
      apply Nat.ltb_ge in LT.
      assert (Full : incl (dkeys cs) new).
      { apply NoDup_length_incl; [now apply NoDup_filter| |].
        - unfold dkeys. rewrite map_length. assumption.
        - intros x X. apply Inc. apply in_app_iff. auto. }
      auto.
  - destruct (register cs l) as [cs' b] eqn:Rg.
    pose proof (register_raises l cs I1) as RR. rewrite Rg in RR. cbn in RR.
    destruct (register_spec l cs cs' b Rg I1) as [N' S'].
    destruct b.
    + cbn. split; [exact RR|]. discriminate.
    + destruct (S' eq_refl) as [S1 S2].
      assert (I2' : ranked cs').
      { intros m parts X. destruct (S2 _ X) as [Y|Y]; [now apply I2|]. now apply (Re l silent). }
      assert (I3' : incl unp (dkeys cs')) by (intros x X; apply S1; auto).
      set (new := filter silent (map fst l)).
      assert (I3'' : incl (unp ++ new) (dkeys cs')).
      { intros x X. apply in_app_iff in X. destruct X as [X|X]; [auto|]. apply filter_In in X. apply S1. tauto. }
      destruct st; cbn [fst snd].
      * split; [exact RR|]. intros _. unfold pinv; cbn. tauto.
      * split; [exact RR|]. intros _. unfold pinv; cbn. destruct I4 as (A & B & C).
        split; [assumption|]. split; [assumption|]. split; [assumption|]. split; [assumption|]. split; [assumption|].
        intros m. rewrite S1, C, in_app_iff. tauto.
      * destruct I4 as (A & B & C & D). destruct (Nat.ltb (length new) (length l)) eqn:LT.
        -- unfold do_publish. cbn [p_cs p_unpub p_state p_hooked p_ran].
           destruct (publish_ok cs' (unp ++ new) N' I2') as (lst & E1 & E2 & E3). rewrite E1. cbn.
           split; [exact RR|]. intros _. unfold pinv; cbn.
           split; [assumption|]. split; [assumption|]. split; [assumption|]. split; [assumption|].
           split; [|split; assumption]. intros m. rewrite S1, B, in_app_iff. tauto.
        -- cbn. split; [exact RR|]. intros _. unfold pinv; cbn.
           split; [assumption|]. split; [assumption|]. split; [assumption|]. split; [assumption|].
           split; [intros m; rewrite S1, B, in_app_iff; tauto|]. split; [assumption|].
           apply Nat.ltb_ge in LT. 
           assert (F : forall x, In x (map fst l) -> silent x = true) by (apply filter_full; unfold new in LT; rewrite map_length; exact LT).
           intros m. rewrite D, S1, in_app_iff. split.
           ++ intros [X Y]. split; [auto|]. intros [Z|Z]; [auto|].
              (* m is in the process already, so it is not a new one *)
              apply filter_In in Z. destruct Z as [Z _].
              assert (NR : ~ ~ (NoDup (map fst l) /\ forall x, In x (map fst l) -> ~ In x (dkeys cs))) by (intros W; apply RR in W; discriminate).
              apply NR. intros [_ W]. exact (W m Z X).
           ++ intros [[X|X] Y]; [split; [assumption|]; tauto|]. exfalso. apply Y. right. apply filter_In. auto.
      * destruct I4.
  - destruct st; cbn; (split; [split; congruence|]); try discriminate. intros _. unfold pinv; cbn.
    split; [constructor|]. split; [intros m parts []|]. split; [intros x []|]. auto.
Qed.
Lemma pinv_steps : forall es p p', psteps limit es p = Some p' -> pinv p -> all_ranked es -> pinv p'.
Proof.
  induction es as [|e es IH]; intros p p' H I R; cbn in H; [congruence|].
  destruct (pstep limit e p) as [p1 b] eqn:E. destruct b; [discriminate|].
  destruct (pstep_ok e p I) as [_ X]; [intros l silent ->; apply (R l silent); now left|]. rewrite E in X.
  apply (IH p1 p' H (X eq_refl)). intros l silent Y. apply (R l silent). now right.
Qed.
Lemma pinv0 : pinv proc0.
Proof. unfold pinv; cbn. split; [constructor|]. split; [intros m parts []|]. split; [intros x []|]. auto. Qed.

(* After any calls of start, add_controllers and stop that were not refused, when the process is started each
   of its controllers has been started, and the last list that was published has all of them, once, but for
   those that asked not to be published. *)
Theorem C76_told : forall es p, psteps limit es proc0 = Some p -> all_ranked es -> p_state p = Started ->
  (forall m, In m (p_ran p) <-> In m (map fst (p_cs p))) /\ NoDup (p_told p)
  /\ forall m, In m (p_told p) <-> In m (map fst (p_cs p)) /\ ~ In m (p_unpub p).
Proof.
  intros es p H R S. destruct (pinv_steps es proc0 p H pinv0 R) as (_ & _ & _ & I). rewrite S in I.
  destruct I as (_ & A & B & C). split; [|auto]. intros m. symmetry. apply A.
Qed.
(* And a call is refused exactly if it is start when running, stop when not, or would add a name twice. *)
Theorem C76_refused : forall es p e, psteps limit es proc0 = Some p -> all_ranked (es ++ [e]) ->
  (snd (pstep limit e p) = true <-> refused e p).
Proof.
  intros es p e H R. apply pstep_ok.
  - apply (pinv_steps es proc0 p H pinv0). intros l silent X. apply (R l silent). apply in_app_iff. auto.
  - intros l silent ->. apply (R l silent). apply in_app_iff. cbn. auto.
Qed.
End History.
Print Assumptions C76_told.
Print Assumptions C76_refused.

(* a PandA adds its blocks while the process starts; a proxy is added later, and another block *)
Definition ex_es : list pev :=
  [Add [("PANDA", ["PANDA:PCAP"])] (fun _ => false); StartBegin; Add [("PANDA:PCAP", []); ("PANDA:SEQ", [])] (fun _ => false);
   StartEnd (fun _ => false); Add [("PROXY", [])] (fun _ => true); Add [("WEB", [])] (fun _ => false)].
Example C76_ex_history : exists p, psteps 1000 ex_es proc0 = Some p /\ p_state p = Started
  /\ p_told p = ["PANDA"; "PANDA:SEQ"; "WEB"; "PANDA:PCAP"] /\ p_unpub p = ["PROXY"]
  /\ all_ranked 1000 (fun m => if String.eqb m "PANDA" then 1 else 0) ex_es.
Proof.
  eexists. split; [vm_compute; reflexivity|]. split; [reflexivity|]. split; [reflexivity|]. split; [reflexivity|].
  intros l silent H m parts I. cbn in H.
  destruct H as [H|[H|[H|[H|[H|[H|[]]]]]]]; try discriminate H; injection H as <- <-; cbn in I;
    intuition; subst; try (injection H as <- <-); try (injection H0 as <- <-); cbn in *;
    try (apply Nat.ltb_lt; vm_compute; reflexivity); intuition; subst; cbn; lia.
Qed.

(* If one of several controllers that are added is there already, those before it are left in the process: they
   are not started nor published, and can not be added again. *)
Theorem C76_half_added_refuted : exists es e p p', psteps 1000 es proc0 = Some p /\ p_state p = Started
  /\ pstep 1000 e p = (p', true) /\ In "A" (map fst (p_cs p')) /\ ~ In "A" (p_ran p') /\ ~ In "A" (p_told p')
  /\ snd (pstep 1000 (Add [("A", [])] (fun _ => false)) p') = true.
Proof.
  exists [Add [("B", [])] (fun _ => false); StartBegin; StartEnd (fun _ => false)], (Add [("A", []); ("B", [])] (fun _ => false)).
  eexists. eexists. split; [vm_compute; reflexivity|]. split; [reflexivity|]. split; [vm_compute; reflexivity|].
  split; [cbn; auto|]. split; [cbn; intuition discriminate|]. split; [cbn; intuition discriminate|]. vm_compute. reflexivity.
Qed.
Print Assumptions C76_half_added_refuted.

(* ---- C77 ---- *)
(* No call of spawn is the 1001st since the list was last cleared while stop is in its loop. *)
Fixpoint calm (count : nat) (loop : bool) (es : list tev) : bool :=
  match es with
  | [] => true
  | TSpawn :: r => if Nat.ltb 1000 (count + 1) then negb loop && calm 0 loop r else calm (count + 1) loop r
  | TLoop :: r => calm count true r
  | TTimeout :: r => calm count false r
  | TStopEnd :: r => calm count false r
  | _ :: r => calm count loop r
  end.
Definition looping (t : tasks) : bool := match t_phase t with InLoop _ _ _ => true | _ => false end.
Definition tinv (t : tasks) : Prop :=
  (forall n, n < length (t_done t) -> ready (t_done t) n = false -> In n (t_list t))
  /\ (forall n, In n (t_list t) -> n < length (t_done t))
  /\ (t_phase t = Idle \/ t_state t = Stopping)
  /\ match t_phase t with
     | InLoop l i same => same = true /\ l = t_list t /\ i <= length l
                          /\ forall j n, j < i -> nth_error l j = Some n -> ready (t_done t) n = true
     | _ => True
     end.

Lemma set_done_spec n : forall l k, ready (set_done n l) k = true <-> (k = n /\ n < length l) \/ ready l k = true.
Proof.
  unfold ready. induction n as [|n IH]; intros [|b l] k; cbn.
  - split; [|intros [[_ X]|X]; [lia|assumption]]. auto.
  - destruct k; cbn; [split; [intros _; left; lia|reflexivity]|]. split; [auto|]. intros [[X _]|X]; [lia|assumption].
  - split; [auto|]. intros [[_ X]|X]; [lia|assumption].
  - destruct k; cbn.
    + split; [auto|]. intros [[X _]|X]; [lia|assumption].
    + rewrite IH. split; [intros [[-> X]|X]; [left; split; [reflexivity|lia]|auto]|].
      intros [[X Y]|X]; [left; lia|auto].
Qed.
Lemma set_done_len n : forall l, length (set_done n l) = length l.
Proof. induction n as [|n IH]; intros [|b l]; cbn; auto. Qed.
Lemma ready_app l k : ready (l ++ [false]) k = ready l k.
Proof.
  unfold ready. destruct (Nat.lt_ge_cases k (length l)).
  - now rewrite app_nth1.
  - rewrite app_nth2 by assumption. rewrite (nth_overflow l) by assumption.
    destruct (k - length l) as [|[|m]]; reflexivity.
Qed.

Lemma tinv_step e t t' r : tstep e t = Some t' -> tinv t -> calm (t_count t) (looping t) (e :: r) = true ->
  tinv t' /\ calm (t_count t') (looping t') r = true.
Proof.
  intros H (I1 & I2 & I0 & I3) C. destruct t as [st d l c ph]. cbn [t_state t_done t_list t_count t_phase] in *.
  destruct e as [| |n| | | | |]; unfold tstep in H; cbn [t_state t_done t_list t_count t_phase] in H.
  - destruct st; try discriminate. injection H as <-. split; [unfold tinv; cbn; destruct I0 as [->|I0]; [auto|discriminate I0]|exact C].
  - unfold spawn in H. cbn [t_state t_done t_list t_count t_phase] in H.
    assert (Done : forall n, n < length (d ++ [false]) -> ready (d ++ [false]) n = false -> In n (l ++ [length d])).
    { intros n L R. rewrite app_length in L. cbn in L. rewrite ready_app in R. apply in_app_iff. cbn.
      destruct (Nat.eq_dec n (length d)); [auto|]. left. apply I1; [lia|assumption]. }
    assert (Bound : forall n, In n (l ++ [length d]) -> n < length (d ++ [false])).
    { intros n X. rewrite app_length. cbn. apply in_app_iff in X. cbn in X. destruct X as [X|[<-|[]]]; [apply I2 in X|]; lia. }
    assert (H' : (if Nat.ltb SPAWN_CLEAR_COUNT (c + 1)
      then Some (mkT st (d ++ [false]) (filter (fun k => negb (ready (d ++ [false]) k)) (l ++ [length d])) 0
                   (match match ph with InLoop l0 i true => InLoop (l0 ++ [length d]) i true | x => x end with InLoop l0 i _ => InLoop l0 i false | x => x end))
      else Some (mkT st (d ++ [false]) (l ++ [length d]) (c + 1) (match ph with InLoop l0 i true => InLoop (l0 ++ [length d]) i true | x => x end))) = Some t').
    { destruct st; [discriminate|..]; destruct ph as [| |? ? [|]]; exact H. } clear H.
    cbn [calm t_count looping t_phase] in C. change SPAWN_CLEAR_COUNT with 1000 in H'.
    destruct (Nat.ltb 1000 (c + 1)).
    + apply andb_prop in C. destruct C as [C1 C2]. injection H' as <-.
      destruct ph as [| |l0 i same]; cbn in C1; [..|discriminate].
      * split; [|exact C2]. unfold tinv; cbn [t_state t_done t_list t_count t_phase]. split; [|split; [|split; auto]].
        -- intros n L R. apply filter_In. rewrite R. auto.
        -- intros n X. apply filter_In in X. apply Bound. tauto.
      * split; [|exact C2]. unfold tinv; cbn [t_state t_done t_list t_count t_phase]. split; [|split; [|split; auto]].
        -- intros n L R. apply filter_In. rewrite R. auto.
        -- intros n X. apply filter_In in X. apply Bound. tauto.
    + injection H' as <-. destruct ph as [| |l0 i same]; (split; [|cbn in *]).
      * unfold tinv; cbn [t_state t_done t_list t_count t_phase]. auto.
      * exact C.
      * unfold tinv; cbn [t_state t_done t_list t_count t_phase]. auto.
      * exact C.
      * destruct I3 as (-> & -> & Il & I3). unfold tinv; cbn [t_state t_done t_list t_count t_phase].
        destruct I0 as [I0|I0]; [discriminate I0|].
        split; [assumption|]. split; [assumption|]. split; [auto|]. split; [reflexivity|]. split; [reflexivity|].
        split; [rewrite app_length; lia|].
        intros j n J X. rewrite ready_app. rewrite nth_error_app1 in X by lia. eauto.
      * destruct same; exact C.
  - injection H as <-. split; [|exact C]. unfold tinv; cbn [t_state t_done t_list t_count t_phase].
    rewrite set_done_len.
    assert (Mono : forall k, ready d k = true -> ready (set_done n d) k = true) by (intros k K; apply set_done_spec; auto).
    split; [|split; [assumption|split; [assumption|]]].
    + intros k L R. apply I1; [assumption|]. destruct (ready d k) eqn:E; [|reflexivity]. rewrite Mono in R by assumption. discriminate.
    + destruct ph as [| |l0 i same]; auto. destruct I3 as (A & B & D & E). repeat split; auto. intros j m J X. apply Mono. eauto.
  - destruct st; try discriminate. injection H as <-. split; [unfold tinv; cbn; auto|].
    cbn in *. destruct I0 as [->|I0]; [exact C|discriminate I0].
  - destruct ph as [| |l0 i same]; try discriminate. injection H as <-. split; [|exact C].
    unfold tinv; cbn. split; [assumption|]. split; [assumption|]. destruct I0 as [I0|I0]; [discriminate I0|].
    split; [auto|]. split; [reflexivity|]. split; [reflexivity|]. split; [lia|]. intros j n J. lia.
  - destruct ph as [| |l0 i same]; try discriminate. destruct (nth_error l0 i) as [n|] eqn:E; [|discriminate].
    destruct (ready d n) eqn:R; [|discriminate]. injection H as <-. split; [|exact C]. destruct I3 as (A & B & D & F).
    unfold tinv; cbn. split; [assumption|]. split; [assumption|]. destruct I0 as [I0|I0]; [discriminate I0|].
    split; [auto|]. split; [assumption|]. split; [assumption|]. split.
    + assert (i < length l0) by (apply nth_error_Some; congruence). lia.
    + intros j m J X. destruct (Nat.eq_dec j i) as [->|]; [rewrite E in X; injection X as <-; exact R|]. apply (F j); [lia|assumption].
  - destruct ph as [| |l0 i same]; try discriminate. destruct (nth_error l0 i) as [n|] eqn:E; [|discriminate].
    destruct (ready d n) eqn:R; [discriminate|]. injection H as <-. split; [unfold tinv; cbn; auto|exact C].
  - destruct ph as [| |l0 i same]; try discriminate. destruct (Nat.leb (length l0) i) eqn:E; [|discriminate].
    injection H as <-. split; [|exact C]. destruct I3 as (A & B & D & F). apply Nat.leb_le in E.
    unfold tinv; cbn. split; [|split; [tauto|auto]].
    intros n L R. specialize (I1 n L R). subst l0. apply In_nth_error in I1. destruct I1 as [j J].
    assert (j < length l) by (apply nth_error_Some; congruence). assert (ready d n = true) by (apply (F j n); [lia|assumption]); unfold ready in *; congruence.
Qed.
Lemma tinv_steps : forall es t t', tsteps es t = Some t' -> tinv t -> calm (t_count t) (looping t) es = true -> tinv t'.
Proof.
  induction es as [|e es IH]; intros t t' H I C; cbn [tsteps] in H; [congruence|].
  destruct (tstep e t) as [t1|] eqn:E; [|discriminate]. destruct (tinv_step e t t1 es E I C) as [A B]. eauto.
Qed.
Lemma tinv0 : tinv tasks0.
Proof. unfold tinv; cbn. split; [intros n X; lia|]. split; [tauto|auto]. Qed.

(* When stop returns, all functions that were ever spawned have ended. *)
Theorem C77_all_ended : forall es t, tsteps (es ++ [TStopEnd]) tasks0 = Some t -> calm 0 false (es ++ [TStopEnd]) = true ->
  t_state t = Stopped /\ forall n, n < length (t_done t) -> ready (t_done t) n = true.
Proof.
  intros es t H C. assert (I : tinv t) by (eapply tinv_steps; [exact H|exact tinv0|exact C]).
  assert (L : t_list t = [] /\ t_state t = Stopped).
  { clear - H. revert H. generalize tasks0. induction es as [|e es IH]; intros t0 H; cbn [tsteps app] in H.
    - unfold tstep in H. destruct (t_phase t0) as [| |l i same]; try discriminate.
      destruct (Nat.leb (length l) i); [|discriminate]. injection H as <-. auto.
    - destruct (tstep e t0); [eauto|discriminate]. }
  destruct L as [L ->]. split; [reflexivity|]. intros n N. destruct (ready (t_done t) n) eqn:R; [reflexivity|].
  destruct I as (I & _). specialize (I n N R). rewrite L in I. destruct I.
Qed.
Print Assumptions C77_all_ended.
(* And it does return if they have. *)
Theorem C77_returns : forall es t l i same, tsteps es tasks0 = Some t -> calm 0 false es = true -> t_phase t = InLoop l i same ->
  (forall n, n < length (t_done t) -> ready (t_done t) n = true) ->
  exists k t', tsteps (repeat TNext k ++ [TStopEnd]) t = Some t'.
Proof.
  intros es t l i same H C P D. assert (I : tinv t) by (eapply tinv_steps; [exact H|exact tinv0|exact C]).
  destruct I as (_ & B & _ & I). rewrite P in I. destruct I as (_ & -> & L & _). exists (length (t_list t) - i).
  remember (length (t_list t) - i) as k eqn:K. clear H C. revert t i P D B L K. 
  induction k as [|k IH]; intros t i P D B L K; cbn [repeat app tsteps].
  - unfold tstep. rewrite P. replace (Nat.leb (length (t_list t)) i) with true by (symmetry; apply Nat.leb_le; lia). eauto.
  - unfold tstep at 1. rewrite P. destruct (nth_error (t_list t) i) as [n|] eqn:E.
    2:{ apply nth_error_None in E. lia. }
    rewrite D by (apply B; eapply nth_error_In; eauto).
    apply (IH _ (S i)); cbn; auto; lia.
Qed.
Print Assumptions C77_returns.

Definition ex_run : list tev := [TStart; TSpawn; TSpawn; TEnd 1; TStop; TSpawn; TLoop; TEnd 0; TNext; TSpawn; TNext; TEnd 2; TNext; TEnd 3; TNext].
Example C77_ex : calm 0 false (ex_run ++ [TStopEnd]) = true
  /\ tsteps (ex_run ++ [TStopEnd]) tasks0 = Some (mkT Stopped [true; true; true; true] [] 4 Idle)
  /\ tsteps (removelast ex_run ++ [TStopEnd]) tasks0 = None.
Proof. repeat split; vm_compute; reflexivity. Qed.

(* Where the list is cleared meanwhile, stop returns while a function that was spawned before is running. *)
Theorem C77_cleared_refuted : exists es t n, tsteps (es ++ [TStopEnd]) tasks0 = Some t
  /\ n < length (t_done t) /\ ready (t_done t) n = false /\ In TSpawn es.
Proof.
  exists ([TStart] ++ repeat TSpawn 1000 ++ [TStop; TLoop; TSpawn; TSpawn] ++ map TEnd (seq 0 1001) ++ repeat TNext 1001).
  eexists. exists 1001. split; [vm_compute; reflexivity|]. split; [|split].
  - apply Nat.ltb_lt. vm_compute. reflexivity.
  - vm_compute. reflexivity.
  - apply in_app_iff. right. apply in_app_iff. left. now left.
Qed.
Print Assumptions C77_cleared_refuted.
(* If stop times out the process can never again be stopped or started. *)
Theorem C77_stuck_refuted : exists es t, tsteps es tasks0 = Some t /\
  forall es' t', tsteps es' t = Some t' -> t_state t' = Stopping /\ tstep TStart t' = None /\ tstep TStop t' = None.
Proof.
  exists [TStart; TSpawn; TStop; TLoop; TTimeout]. eexists. split; [vm_compute; reflexivity|].
  assert (G : forall es' t t', t_state t = Stopping -> t_phase t = Idle -> tsteps es' t = Some t' ->
    t_state t' = Stopping /\ t_phase t' = Idle).
  { induction es' as [|e es' IH]; intros t t' S P H; cbn [tsteps] in H; [injection H as <-; auto|].
    destruct (tstep e t) as [t1|] eqn:E; [|discriminate].
    assert (X : t_state t1 = Stopping /\ t_phase t1 = Idle).
    { unfold tstep in E. rewrite S, P in E. destruct e; try discriminate.
      - unfold spawn in E. rewrite S, P in E. destruct (Nat.ltb _ _); injection E as <-; auto.
      - injection E as <-. auto. }
    destruct X. eauto. }
  intros es' t' H. apply G in H; [|reflexivity|reflexivity]. destruct H as [A B]. split; [assumption|].
  unfold tstep. rewrite A. auto.
Qed.
Print Assumptions C77_stuck_refuted.

(* -- one function -- *)
(* wait returns only when there is a result. *)
Theorem C77_wait_result : forall es s, wsteps es sp0 = Some s -> w_back s <> [] -> w_result s = true.
Proof.
  assert (G : forall es s s', (w_back s <> [] -> w_result s = true) -> (w_result s = false -> w_items s = 0) -> wsteps es s = Some s' ->
    w_back s' <> [] -> w_result s' = true).
  { induction es as [|e es IH]; intros s s' I J H; cbn [wsteps] in H; [injection H as <-; assumption|].
    destruct (wstep e s) as [s1|] eqn:E; [|discriminate].
    apply (IH s1 s'); [..|assumption]; destruct s as [re pu it wa ba]; cbn in *.
    - destruct e as [| |i|i]; unfold wstep in E; cbn in E.
      + destruct re; [discriminate|]. injection E as <-. reflexivity.
      + destruct re; [|discriminate]. destruct pu; [discriminate|]. destruct wa; injection E as <-; reflexivity.
      + destruct (existsb _ _); [discriminate|]. destruct re; [injection E as <-; reflexivity|]. rewrite (J eq_refl) in E.
        injection E as <-. cbn. exact I.
      + destruct (existsb _ _); [|discriminate]. injection E as <-. exact I.
    - destruct e as [| |i|i]; unfold wstep in E; cbn in E.
      + destruct re; [discriminate|]. injection E as <-. discriminate.
      + destruct re; [|discriminate]. destruct pu; [discriminate|]. destruct wa; injection E as <-; discriminate.
      + destruct (existsb _ _); [discriminate|]. destruct re; [injection E as <-; discriminate|]. rewrite (J eq_refl) in E.
        injection E as <-. reflexivity.
      + destruct (existsb _ _); [|discriminate]. injection E as <-. exact J. }
  intros es s H. apply (G es sp0 s); cbn; tauto.
Qed.
Print Assumptions C77_wait_result.
(* Where one thread at a time waits, none is waiting any more when the function has ended. *)
Theorem C77_wait_ends : forall es s, wsteps es sp0 = Some s -> w_put s = true ->
  (forall es1 es2 s1, es = es1 ++ es2 -> wsteps es1 sp0 = Some s1 -> length (w_waiting s1) <= 1) ->
  w_waiting s = [].
Proof.
  assert (APP : forall l1 l2 a b, wsteps l1 a = Some b -> wsteps (l1 ++ l2) a = wsteps l2 b).
  { induction l1 as [|e l1 IH]; intros l2 a b X; cbn in *; [congruence|]. destruct (wstep e a); [|discriminate]. now apply IH. }
  assert (G : forall todo done s s', wsteps done sp0 = Some s -> wsteps todo s = Some s' ->
    (forall es1 es2 s1, done ++ todo = es1 ++ es2 -> wsteps es1 sp0 = Some s1 -> length (w_waiting s1) <= 1) ->
    (w_put s = true -> w_result s = true /\ w_waiting s = []) -> w_put s' = true -> w_waiting s' = []).
  { induction todo as [|e todo IH]; intros done s s' D H L I P; cbn [wsteps] in H; [injection H as <-; now apply I|].
    destruct (wstep e s) as [s1|] eqn:E; [|discriminate].
    apply (IH (done ++ [e]) s1 s'); auto.
    - rewrite (APP _ _ _ _ D). cbn. now rewrite E.
    - intros es1 es2 s2 X. apply L with (es2 := es2). rewrite <- X, <- app_assoc. reflexivity.
    - assert (Ls : length (w_waiting s) <= 1) by (apply (L done (e :: todo)); auto).
      destruct s as [re pu it wa ba]; cbn in *. destruct e as [| |i|i]; unfold wstep in E; cbn in E.
      + destruct re; [discriminate|]. injection E as <-. cbn. intros X. destruct (I X). discriminate.
      + destruct re; [|discriminate]. destruct pu; [discriminate|]. destruct wa as [|x wa]; injection E as <-; cbn; [auto|].
        cbn in Ls. destruct wa; [auto|cbn in Ls; lia].
      + destruct (existsb _ _); [discriminate|]. destruct re.
        * injection E as <-. cbn. exact I.
        * destruct it; injection E as <-; cbn; intros X; destruct (I X); discriminate.
      + destruct (existsb _ _) eqn:Ex; [|discriminate]. injection E as <-. cbn. intros X. destruct (I X) as [-> ->]. auto. }
  intros es s H P L. apply (G es [] sp0 s); auto.
Qed.
Print Assumptions C77_wait_ends.
Example C77_ex_wait : wsteps [WWait 1; WTimeout 1; WWait 2; WResult; WPut; WWait 3] sp0 = Some (mkS true true 0 [] [2; 3]).
Proof. vm_compute. reflexivity. Qed.
(* With two of them one is left waiting, and can only time out: so stop raises if another thread waits for the same
   function. *)
Theorem C77_two_waiters_refuted : exists es s, wsteps es sp0 = Some s /\ w_put s = true /\ In 2 (w_waiting s) /\
  forall es' s', wsteps es' s = Some s' -> ~ In (WTimeout 2) es' -> In 2 (w_waiting s').
Proof.
  exists [WWait 1; WWait 2; WResult; WPut]. eexists. split; [vm_compute; reflexivity|]. split; [reflexivity|]. split; [cbn; auto|].
  assert (G : forall es' s s', w_result s = true -> w_put s = true -> In 2 (w_waiting s) -> wsteps es' s = Some s' ->
    ~ In (WTimeout 2) es' -> In 2 (w_waiting s')).
  { induction es' as [|e es' IH]; intros s s' R P I H N; cbn [wsteps] in H; [injection H as <-; assumption|].
    destruct (wstep e s) as [s1|] eqn:E; [|discriminate].
    assert (X : w_result s1 = true /\ w_put s1 = true /\ In 2 (w_waiting s1)).
    { unfold wstep in E. rewrite R, P in E. destruct e as [| |i|i]; cbn in E; try discriminate.
      - destruct (existsb _ _); [discriminate|]. injection E as <-. auto.
      - destruct (existsb _ _); [|discriminate]. injection E as <-. cbn. split; [reflexivity|]. split; [reflexivity|].
        apply filter_In. split; [assumption|]. apply negb_true_iff. apply Nat.eqb_neq. intros <-. apply N. now left. }
    destruct X as (X1 & X2 & X3). apply (IH s1 s'); auto. intros Y. apply N. now right. }
  intros es' s' H N. eapply (G es' _ s'); [| | |exact H|exact N]; cbn; auto.
Qed.
Print Assumptions C77_two_waiters_refuted.
