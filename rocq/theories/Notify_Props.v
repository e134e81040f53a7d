(* C06-C09: what subscribers of a block are told. *)
From Coq Require Import String Bool ZArith Lia List.
From Verif Require Import Base Notify_Model Notify_Spec Notify_Proofs Notify2_Proofs Notify3_Proofs
  Notify4_Proofs Notify5_Proofs.
Import ListNotations.
Local Open Scope string_scope.
Local Open Scope list_scope.
Local Open Scope nat_scope.

(* ---- a block used in the examples ---- *)
(* attribute x with a value, an alarm and a time stamp; attribute y; meta with its fields *)
Definition attr (i : nat) (z : Z) : tree :=
  TObj i (KModel "NTScalar") [("value", TLeaf z);
    ("alarm", TObj (i + 1) (KPlain "alarm_t") [("severity", TLeaf 0); ("message", TLeaf 0)]);
    ("meta", TObj (i + 2) (KModel "NumberMeta") [("writeable", TLeaf 1)])].
Definition blk : tree :=
  TObj 0 (KModel "Block") [("meta", TObj 1 (KModel "BlockMeta") [("fields", TLeaf 2)]);
                           ("x", attr 10 5); ("y", attr 20 7)].
Definition limbo0 : list tree := [attr 30 9; TObj 40 (KPlain "alarm_t") [("severity", TLeaf 2); ("message", TLeaf 1)]].
Definition subA := mkSub (1, 1) ["x"] true.
Definition subB := mkSub (1, 2) ["x"; "value"] false.
Definition subC := mkSub (2, 1) [] true.
Definition subD := mkSub (2, 2) ["z"; "value"] false.
Definition hist : list op :=
  [Subscribe subA; Subscribe subB; Subscribe subC; Subscribe subD;
   Enter; Mut (MSet ["x"] "value" (NewLeaf 6)); Enter; Mut (MSet ["x"] "alarm" (NewObj 40)); Exit;
   Subscribe subA; Exit;
   Enter; Mut (MSet [] "z" (NewObj 30)); Mut (MSet ["z"] "value" (NewLeaf 11)); Exit;
   Enter; Mut (MDel [] "x"); Exit].

(* ---------------- C06 ---------------- *)
(* After any history, with no group of changes open, what a live delta subscriber gets by
   replaying its Deltas is the value of the block at its path.  Partial changes of a table
   (MPart) are excluded, and so are paths that go through a dict: see the refutations *)
Theorem C06_replay_is_current root limbo os st outs s :
  unique root limbo -> Forall whole os -> distinct os 0 [] ->
  run (init root limbo) os = (st, outs) -> n_count st = 0 ->
  In s (live os 0 []) -> s_delta s = true -> clear (w_root (n_w st)) (s_path s) ->
  is_value (copy_of (s_key s) outs) (w_root (n_w st)) (s_path s).
Proof.
  intros Hu Hw Hd Hr Hc Hs Hds Hcl. destruct (reach root limbo os Hu Hw Hd) as (t0 & Hi & Hcp).
  rewrite Hr in *. cbn [fst snd] in *. destruct (i_zero _ _ _ Hi Hc) as [-> _]. now apply Hcp.
Qed.
Print Assumptions C06_replay_is_current.

Ltac dst := vm_compute; repeat (split; [intuition discriminate|]); exact I.
Ltac inn := repeat (first [left; reflexivity | right]).
Lemma clear_nil t : clear t [].
Proof. intros [|a q] n r H; discriminate. Qed.
Example C06_ex :
  unique blk limbo0 /\ Forall whole hist /\ distinct hist 0 [] /\
  n_count (fst (run (init blk limbo0) hist)) = 0 /\
  In subC (live hist 0 []) /\ s_delta subC = true /\
  clear (w_root (n_w (fst (run (init blk limbo0) hist)))) (s_path subC) /\
  vsee (copy_of (2, 1) (snd (run (init blk limbo0) hist))) ["z"; "value"] = Some (SLeaf 11) /\
  vsee (copy_of (2, 1) (snd (run (init blk limbo0) hist))) ["x"] = None.
Proof.
  split; [unfold unique; apply nodup_b_spec; vm_compute; reflexivity|].
  split; [repeat constructor|].
  split; [dst|].
  split; [reflexivity|].
  split; [inn|]. split; [reflexivity|]. split; [apply clear_nil|].
  split; vm_compute; reflexivity.
Qed.

(* ---------------- C07 ---------------- *)
(* When a group of changes closes, a live subscriber without delta gets one Update exactly if
   the group changed something at, above or below its path or it is subscribed to the whole
   block; the value is that of the block at that moment *)
Theorem C07_update_is_current root limbo os body s :
  unique root limbo -> Forall whole (os ++ Enter :: body) -> distinct os 0 [] ->
  n_count (fst (run (init root limbo) os)) = 0 -> inside body 1 ->
  In s (live os 0 []) -> s_delta s = false ->
  let st0 := fst (run (init root limbo) os) in
  let st1 := fst (run st0 (Enter :: body ++ [Exit])) in
  let got := to_key (s_key s) (snd (run st0 (Enter :: body ++ [Exit]))) in
  ((s_path s = [] \/ exists q, In q (changed st0 (Enter :: body) []) /\ related q (s_path s)) ->
   exists v, got = [Update v] /\
             (clear (w_root (n_w st1)) (s_path s) -> is_value v (w_root (n_w st1)) (s_path s))) /\
  (~ (s_path s = [] \/ exists q, In q (changed st0 (Enter :: body) []) /\ related q (s_path s)) ->
   got = []).
Proof.
  intros Hu Hw Hd H0 Hin Hs Hds st0 st1 got.
  destruct (group_inv root limbo os body Hu Hw Hd H0 Hin) as (t0 & Hi & Hc & Hch & _ & Hr).
  fold st0 in Hi, Hc, Hch, Hr. set (sx := fst (run st0 (Enter :: body))) in *.
  pose proof (step_sends sx _ t0 Exit s Hi Hs I) as Hse. unfold sends in Hse. rewrite Hc in Hse.
  destruct Hse as (d & Hse & Hd'). unfold got, st1. rewrite Hr, Hse, Hds.
  assert (Hw1 : n_w (fst (step sx Exit)) = n_w sx) by apply (step_frame sx Exit).
  rewrite Hw1, <- Hch. pose proof (called_spec (n_w sx) (s_path s) (n_changes sx)) as Hcs. split.
  - intros Hyes. apply Hcs in Hyes. rewrite Hyes. eexists. split; [reflexivity|].
    intros Hcl. rewrite (Hd' Hcl). apply freeze_ref. apply (i_wf _ _ _ Hi).
  - intros Hno. destruct (is_nil _ || _) eqn:E; [|reflexivity]. exfalso. apply Hno. now apply Hcs.
Qed.
Print Assumptions C07_update_is_current.

Definition os7 := [Subscribe subA; Subscribe subB; Subscribe subD].
Definition body7 := [Mut (MSet [] "z" (NewObj 30)); Enter; Mut (MSet ["z"] "value" (NewLeaf 11)); Exit;
                     Mut (MDel ["nowhere"] "n")].
Example C07_ex :
  n_count (fst (run (init blk limbo0) os7)) = 0 /\ inside body7 1 /\
  changed (fst (run (init blk limbo0) os7)) (Enter :: body7) [] = [["z"]; ["z"; "value"]] /\
  snd (run (fst (run (init blk limbo0) os7)) (Enter :: body7 ++ [Exit])) = [((2, 2), Update (VLeaf 11))].
Proof. vm_compute. repeat split. Qed.

(* Subscribing gives the current value straight away *)
Theorem C07_first_is_current root limbo os s :
  unique root limbo -> Forall whole os -> distinct (os ++ [Subscribe s]) 0 [] ->
  n_count (fst (run (init root limbo) os)) = 0 ->
  let st0 := fst (run (init root limbo) os) in
  exists v, snd (step st0 (Subscribe s))
            = [(s_key s, if s_delta s then Delta [([], Some v)] else Update v)] /\
            (clear (w_root (n_w st0)) (s_path s) -> is_value v (w_root (n_w st0)) (s_path s)).
Proof.
  intros Hu Hw Hd H0 st0.
  assert (Hsplit : forall a open L, distinct (a ++ [Subscribe s]) open L ->
    distinct a open L /\ (n_count st0 = 0 -> forall st, n_count st = open -> n_count (fst (run st a)) = 0 ->
                          ~ In (s_key s) (map s_key (live a open L)))).
  { induction a as [|o a IH]; intros open L H; cbn [app] in H.
    - split; [exact I|]. intros _ st Hst Hz. cbn [run fst] in Hz. subst open. rewrite Hz in H.
      cbn [distinct live] in *. tauto.
    - apply distinct_cons in H as [A B]. apply IH in B as [B1 B2]. split; [apply distinct_cons; auto|].
      intros Z st Hst Hz. rewrite live_cons. rewrite run_cons in Hz. cbn [fst] in Hz.
      apply (B2 Z (fst (step st o))); [rewrite step_count; now rewrite Hst|exact Hz]. }
  destruct (Hsplit os 0 [] Hd) as [Hd1 Hd2]. specialize (Hd2 H0 (init root limbo) eq_refl H0).
  destruct (reach root limbo os Hu Hw Hd1) as (t0 & Hi & _). fold st0 in Hi.
  destruct (i_zero _ _ _ Hi H0) as [-> _].
  assert (Hns : ~ In s (live os 0 [])) by (intros Hx; apply Hd2; now apply in_map).
  destruct (subscribe_at_ok (n_w st0) _ s (s_path s) (n_tree st0) [] (i_wf _ _ _ Hi) eq_refl Hns
              (i_tree _ _ _ Hi)) as (_ & _ & r & Hr & Hcr).
  exists (freeze (n_w st0) r). cbn [step]. fold st0 in H0. rewrite H0.
  destruct (subscribe_at _ _ _ _). cbn [snd] in *. split; [now rewrite Hr|].
  intros Hcl. rewrite (Hcr Hcl). apply freeze_ref. apply (i_wf _ _ _ Hi).
Qed.
Print Assumptions C07_first_is_current.

Example C07_first_ex :
  distinct (os7 ++ [Subscribe subC]) 0 [] /\ n_count (fst (run (init blk limbo0) os7)) = 0 /\
  snd (step (fst (run (init blk limbo0) os7)) (Subscribe (mkSub (9, 9) ["y"; "value"] false)))
  = [((9, 9), Update (VLeaf 7))].
Proof.
  split; [dst|].
  split; reflexivity.
Qed.

(* ---------------- C08 ---------------- *)
(* No subscriber is called while a group is open, however groups nest *)
Theorem C08_quiet_while_open st body : n_count st = 0 -> inside body 1 ->
  snd (run st (Enter :: body)) = [].
Proof.
  intros H0 Hin. rewrite run_cons. cbn [step fst snd app].
  destruct (quiet body (mkN (n_w st) (n_tree st) (S (n_count st)) (n_changes st) (n_keys st)) 0) as (Q & _);
    cbn [n_count]; auto.
Qed.
Print Assumptions C08_quiet_while_open.

(* When the outermost group closes each live subscriber is called at most once; a Delta has
   one entry for each change of the group that can be seen at its path, in the order in which
   they were made, none lost and none twice; the others are told nothing *)
Theorem C08_all_at_once root limbo os body k :
  unique root limbo -> Forall whole (os ++ Enter :: body) -> distinct os 0 [] ->
  n_count (fst (run (init root limbo) os)) = 0 -> inside body 1 ->
  let st0 := fst (run (init root limbo) os) in
  let st1 := fst (run st0 (Enter :: body ++ [Exit])) in
  let got := to_key k (snd (run st0 (Enter :: body ++ [Exit]))) in
  n_count st1 = 0 /\
  (forall s, In s (live os 0 []) -> s_key s = k -> s_delta s = true ->
     match flat_map (residual (s_path s)) (changed st0 (Enter :: body) []), s_path s with
     | [], _ :: _ => got = []
     | l, _ => exists ds, got = [Delta ds] /\ map fst ds = l
     end) /\
  (forall s, In s (live os 0 []) -> s_key s = k -> s_delta s = false -> length got <= 1) /\
  (~ In k (map s_key (live os 0 [])) -> got = []).
Proof.
  intros Hu Hw Hd H0 Hin st0 st1 got.
  destruct (group_inv root limbo os body Hu Hw Hd H0 Hin) as (t0 & Hi & Hc & Hch & _ & Hr).
  fold st0 in Hi, Hc, Hch, Hr. set (sx := fst (run st0 (Enter :: body))) in *.
  unfold got, st1. rewrite Hr, step_count, Hc. cbn [open1 pred]. split; [reflexivity|]. split; [|split].
  - intros s Hs <- Hds. pose proof (step_sends sx _ t0 Exit s Hi Hs I) as Hse. unfold sends in Hse.
    rewrite Hc in Hse. destruct Hse as (d & Hse & _). rewrite Hse, Hds, <- Hch.
    rewrite <- (residual_view (n_w sx)).
    destruct (view (n_w sx) (s_path s) (n_changes sx)) as [|c v]; cbn [map is_nil negb].
    + destruct (s_path s); cbn [is_nil orb]; [eexists; split; reflexivity|reflexivity].
    + rewrite orb_true_r. eexists. split; [reflexivity|]. cbn [map]. f_equal. rewrite map_map. reflexivity.
  - intros s Hs <- Hds. pose proof (step_sends sx _ t0 Exit s Hi Hs I) as Hse. unfold sends in Hse.
    rewrite Hc in Hse. destruct Hse as (d & Hse & _). rewrite Hse. destruct (_ || _); cbn; lia.
  - intros Hk. now apply (step_silent sx _ t0 Exit k Hi Hk).
Qed.
Print Assumptions C08_all_at_once.

Example C08_ex :
  let st0 := fst (run (init blk limbo0) [Subscribe subA]) in
  let body := [Mut (MSet ["x"] "value" (NewLeaf 6)); Enter; Mut (MSet ["y"] "value" (NewLeaf 6));
               Mut (MSet ["x"] "alarm" (NewObj 40)); Exit; Mut (MSet [] "x" (NewObj 30))] in
  inside body 1 /\
  map (fun m => match m with Delta ds => map fst ds | _ => [] end)
      (to_key (1, 1) (snd (run st0 (Enter :: body ++ [Exit])))) = [[["value"]; ["alarm"]; []]] /\
  to_key (1, 1) (snd (run (fst (run st0 (Enter :: body ++ [Exit]))) [Enter; Exit])) = [].
Proof. vm_compute. repeat split. Qed.

(* ---------------- C09 ---------------- *)
(* Unsubscribing a live subscription: one Return, and it is over *)
Theorem C09_unsubscribe_returns root limbo os s :
  unique root limbo -> Forall whole os -> distinct os 0 [] ->
  n_count (fst (run (init root limbo) os)) = 0 -> In s (live os 0 []) ->
  let st0 := fst (run (init root limbo) os) in
  snd (step st0 (Unsubscribe (s_key s))) = [(s_key s, Return)] /\
  ~ In (s_key s) (map s_key (live (os ++ [Unsubscribe (s_key s)]) 0 [])).
Proof.
  intros Hu Hw Hd H0 Hs st0. destruct (reach root limbo os Hu Hw Hd) as (t0 & Hi & _). fold st0 in Hi, H0.
  split.
  - cbn [step]. rewrite H0, (i_keys _ _ _ Hi), kget_keyed.
    pose proof (find_sub (s_key s) (live os 0 [])) as Hf. destruct (List.find _ _) as [x|].
    + destruct Hf as [Hx Hk].
      destruct (unsubscribe_at_ok t0 _ x (s_path x) (i_nodup _ _ _ Hi) Hx (n_tree st0) [] eq_refl
                  (i_tree _ _ _ Hi)) as (nd & Hn & _). now rewrite Hn.
    + exfalso. apply Hf. now apply in_map.
  - assert (Hl : forall a open L st, n_count st = open -> n_count (fst (run st a)) = 0 ->
      live (a ++ [Unsubscribe (s_key s)]) open L
      = filter (fun x => negb (key_eqb (s_key s) (s_key x))) (live a open L)).
    { induction a as [|o a IH]; intros open L st Hst Hz; cbn [app].
      - cbn [run fst] in Hz. subst open. rewrite Hz. reflexivity.
      - rewrite !live_cons. rewrite run_cons in Hz. cbn [fst] in Hz.
        apply (IH _ _ (fst (step st o))); [rewrite step_count; now rewrite Hst|exact Hz]. }
    rewrite (Hl os 0 [] (init root limbo) eq_refl H0). intros Hx.
    apply in_map_iff in Hx as (x & Hk & Hx). apply filter_In in Hx as [_ Hx].
    rewrite Hk, key_eqb_refl in Hx. discriminate.
Qed.
Print Assumptions C09_unsubscribe_returns.

(* A key that is not subscribed, so one that was unsubscribed, never gets anything as long as
   no request with that key is made *)
Theorem C09_silent_afterwards root limbo os1 os2 k :
  unique root limbo -> Forall whole (os1 ++ os2) -> distinct (os1 ++ os2) 0 [] ->
  ~ In k (map s_key (live os1 0 [])) ->
  (forall s, In (Subscribe s) os2 -> s_key s <> k) -> ~ In (Unsubscribe k) os2 ->
  to_key k (snd (run (fst (run (init root limbo) os1)) os2)) = [].
Proof.
  intros Hu Hw Hd Hk Hs Hun. apply Forall_app in Hw as [Hw1 Hw2].
  assert (Hsplit : forall a b open L st, n_count st = open -> distinct (a ++ b) open L ->
    distinct a open L /\ distinct b (n_count (fst (run st a))) (live a open L)).
  { induction a as [|o a IH]; intros b open L st Hst H; cbn [app] in H.
    - split; [exact I|]. cbn [run fst live]. now rewrite Hst.
    - apply distinct_cons in H as [A B]. rewrite live_cons, run_cons. cbn [fst].
      apply (IH b _ _ (fst (step st o))) in B; [|rewrite step_count; now rewrite Hst].
      destruct B. split; [apply distinct_cons; auto|assumption]. }
  destruct (Hsplit os1 os2 0 [] (init root limbo) eq_refl Hd) as [Hd1 Hd2].
  destruct (reach root limbo os1 Hu Hw1 Hd1) as (t0 & Hi & _).
  revert t0 Hi Hk Hs Hun Hw2 Hd2. generalize (live os1 0 []) as L, (fst (run (init root limbo) os1)) as st.
  clear. induction os2 as [|o r IH]; intros L st t0 Hi Hk Hs Hun Hw Hd; [reflexivity|].
  inversion Hw as [|x y Hw1 Hw2]; subst. apply distinct_cons in Hd as [Hd1 Hd2].
  assert (Ho : other o (n_count st) k).
  { destruct o as [| |m|s|k'], (n_count st); cbn [other]; auto.
    - apply Hs. now left.
    - intros ->. apply Hun. now left. }
  rewrite run_cons. cbn [snd]. rewrite to_key_app, (step_silent _ _ _ _ _ Hi Hk Ho). cbn [app].
  destruct (inv_step _ _ _ o Hi Hw1 Hd1) as (t1 & Hi1 & _). rewrite <- step_count in Hd2.
  apply (IH _ _ t1 Hi1); auto.
  - intros Hx. apply in_map_iff in Hx as (x & Hxk & Hx).
    destruct o as [| |m|s|k'], (n_count st); cbn [live1 other] in *;
      try (apply Hk; rewrite <- Hxk; now apply in_map).
    + apply in_app_or in Hx as [Hx|[<-|[]]]; [apply Hk; rewrite <- Hxk; now apply in_map|auto].
    + apply filter_In in Hx as [Hx _]. apply Hk. rewrite <- Hxk. now apply in_map.
  - intros s Hx. apply Hs. now right.
  - intros Hx. apply Hun. now right.
Qed.
Print Assumptions C09_silent_afterwards.

(* Unsubscribing something that is not subscribed: an Error, and nothing changes *)
Theorem C09_unknown_is_error root limbo os k :
  unique root limbo -> Forall whole os -> distinct os 0 [] ->
  n_count (fst (run (init root limbo) os)) = 0 -> ~ In k (map s_key (live os 0 [])) ->
  let st0 := fst (run (init root limbo) os) in
  step st0 (Unsubscribe k) = (st0, [(k, Error)]).
Proof.
  intros Hu Hw Hd H0 Hk st0. destruct (reach root limbo os Hu Hw Hd) as (t0 & Hi & _). fold st0 in Hi, H0.
  cbn [step]. rewrite H0, (i_keys _ _ _ Hi), kget_keyed.
  pose proof (find_sub k (live os 0 [])) as Hf. destruct (List.find _ _) as [x|]; [|reflexivity].
  destruct Hf as [Hx <-]. exfalso. apply Hk. now apply in_map.
Qed.
Print Assumptions C09_unknown_is_error.

(* The others go on receiving exactly what they would have *)
Theorem C09_others_unaffected root limbo os1 s os2 k :
  unique root limbo -> Forall whole (os1 ++ os2) -> distinct os1 0 [] ->
  n_count (fst (run (init root limbo) os1)) = 0 -> In s (live os1 0 []) -> k <> s_key s ->
  distinct os2 0 (live os1 0 []) ->
  let st0 := fst (run (init root limbo) os1) in
  clear_along st0 os2 (live os1 0 []) k ->
  to_key k (snd (run (fst (step st0 (Unsubscribe (s_key s)))) os2)) = to_key k (snd (run st0 os2)).
Proof.
  intros Hu Hw Hd H0 Hs Hk Hd2 st0 Hcl. apply Forall_app in Hw as [Hw1 Hw2].
  destruct (reach root limbo os1 Hu Hw1 Hd) as (t0 & Hi & _). fold st0 in Hi, H0.
  destruct (inv_step st0 _ t0 (Unsubscribe (s_key s)) Hi I I) as (t1 & Hi1 & _).
  rewrite H0 in Hi1. cbn [live1] in Hi1. symmetry.
  eapply (alike_run os2 k st0 _ (live os1 0 []) _ t0 t1); try eassumption.
  - constructor.
    + symmetry. apply (step_frame st0 (Unsubscribe (s_key s))).
    + rewrite step_count. reflexivity.
    + symmetry. apply (step_frame st0 (Unsubscribe (s_key s))).
    + intros x Hx. rewrite filter_In. split; [intros A; split; [exact A|]|tauto].
      rewrite key_eqb_neq; [reflexivity|congruence].
  - now rewrite H0.
  - rewrite step_count. cbn [open1]. rewrite H0. apply (distinct_incl _ _ _ _ Hd2).
    intros x Hx. now apply filter_In in Hx.
Qed.
Print Assumptions C09_others_unaffected.

(* When every subscription is gone nothing is left of the bookkeeping *)
Theorem C09_no_residue root limbo os :
  unique root limbo -> Forall whole os -> distinct os 0 [] -> live os 0 [] = [] ->
  let st0 := fst (run (init root limbo) os) in
  n_keys st0 = [] /\ exists d, n_tree st0 = NN d [] [] [].
Proof.
  intros Hu Hw Hd Hl st0. destruct (reach root limbo os Hu Hw Hd) as (t0 & Hi & _). fold st0 in Hi.
  rewrite Hl in Hi. split; [apply (i_keys _ _ _ Hi)|]. apply (okt_none t0). apply (i_tree _ _ _ Hi).
Qed.
Print Assumptions C09_no_residue.

Definition os9 := [Subscribe subA; Subscribe subB; Subscribe subD; Unsubscribe (7, 7)].
Definition os9b := [Enter; Mut (MSet ["x"] "value" (NewLeaf 6)); Exit; Unsubscribe (1, 2); Unsubscribe (2, 2)].
Example C09_ex :
  distinct (os9 ++ Unsubscribe (1, 1) :: os9b) 0 [] /\ In subA (live os9 0 []) /\
  n_count (fst (run (init blk limbo0) os9)) = 0 /\
  distinct os9b 0 (live os9 0 []) /\
  snd (run (fst (run (init blk limbo0) os9)) (Unsubscribe (1, 1) :: os9b))
  = [((1, 1), Return); ((1, 2), Update (VLeaf 6)); ((1, 2), Return); ((2, 2), Return)] /\
  live (os9 ++ Unsubscribe (1, 1) :: os9b) 0 [] = [].
Proof.
  split; [dst|].
  split; [inn|]. split; [reflexivity|].
  split; [vm_compute; repeat split|]. split; vm_compute; reflexivity.
Qed.
Example C09_clear_ex :
  let os1 := [Subscribe subA; Subscribe subC] in
  let os2 := [Enter; Mut (MSet ["x"] "value" (NewLeaf 6)); Exit] in
  clear_along (fst (run (init blk limbo0) os1)) os2 (live os1 0 []) (2, 1) /\
  length (to_key (2, 1) (snd (run (fst (run (init blk limbo0) os1)) os2))) = 1.
Proof.
  intros os1 os2. split; [|reflexivity]. intros a b s He Hi Hk.
  assert (Hp : s_path s = []); [|rewrite Hp; apply clear_nil].
  assert (Hl : live a 0 [subA; subC] = [subA; subC]).
  { destruct a as [|? a]; [reflexivity|]. injection He as <- He.
    destruct a as [|? a]; [reflexivity|]. injection He as <- He.
    destruct a as [|? a]; [reflexivity|]. injection He as <- He.
    destruct a; [reflexivity|discriminate]. }
  change (In s (live a 0 [subA; subC])) in Hi. rewrite Hl in Hi.
  destruct Hi as [<-|[<-|[]]]; [discriminate|reflexivity].
Qed.

(* ---------------- where the claims fail ---------------- *)
(* A table of which only some columns change: the change recorded is that of the column, so
   the node of the table goes on holding the old table, and an Update subscriber of
   attr.value gets the old one (notifier.py 142-175 with models.py 388-407) *)
Definition table (i : nat) (a b : Z) : tree :=
  TObj i (KPlain "Table") [("a", TLeaf a); ("b", TLeaf b)].
Definition tblk : tree :=
  TObj 0 (KModel "Block") [("t", TObj 1 (KModel "NTTable") [("value", table 2 1 1)])].
Definition subV := mkSub (1, 1) ["t"; "value"] false.
Definition subW := mkSub (1, 2) ["t"; "value"] true.
Definition part_group := [Enter; Mut (MPart ["t"] "value" (NewObj 5) ["b"]); Exit].
Theorem C07_partial_table_refuted : exists root limbo os body s v,
  unique root limbo /\ distinct os 0 [] /\ In s (live os 0 []) /\ s_delta s = false /\ inside body 1 /\
  n_count (fst (run (init root limbo) os)) = 0 /\
  to_key (s_key s) (snd (run (fst (run (init root limbo) os)) (Enter :: body ++ [Exit]))) = [Update v] /\
  vsee v ["b"] = Some (SLeaf 1) /\
  tsee (w_root (n_w (fst (run (fst (run (init root limbo) os)) (Enter :: body ++ [Exit])))))
       (s_path s ++ ["b"]) = Some (SLeaf 2).
Proof.
  exists tblk, [table 5 1 2], [Subscribe subV], [Mut (MPart ["t"] "value" (NewObj 5) ["b"])], subV.
  eexists. split; [unfold unique; apply nodup_b_spec; reflexivity|].
  split; [dst|]. split; [inn|].
  repeat split; vm_compute; reflexivity.
Qed.
Print Assumptions C07_partial_table_refuted.
(* and so does a client that subscribes, with or without delta, while another one has
   subscribed before *)
Theorem C06_partial_table_refuted : exists root limbo os s,
  unique root limbo /\ distinct os 0 [] /\ In s (live os 0 []) /\ s_delta s = true /\
  n_count (fst (run (init root limbo) os)) = 0 /\
  vsee (copy_of (s_key s) (snd (run (init root limbo) os))) ["b"] = Some (SLeaf 1) /\
  tsee (w_root (n_w (fst (run (init root limbo) os)))) (s_path s ++ ["b"]) = Some (SLeaf 2).
Proof.
  exists tblk, [table 5 1 2], (Subscribe subV :: part_group ++ [Subscribe subW]), subW.
  split; [unfold unique; apply nodup_b_spec; reflexivity|].
  split; [dst|].
  split; [inn|].
  repeat split; vm_compute; reflexivity.
Qed.
Print Assumptions C06_partial_table_refuted.

(* A path through a dict (the elements of a TableMeta, the takes of a MethodMeta): getattr of
   a dict finds nothing, so the subscriber is told None although Get finds a value *)
Definition mblk : tree :=
  TObj 0 (KModel "Block") [("t", TObj 1 (KModel "TableMeta")
    [("elements", TObj 2 KMap [("a", TObj 3 (KModel "NumberMeta") [("label", TLeaf 4)])])])].
Theorem C07_through_dict_refuted : exists root os s v,
  unique root [] /\ distinct os 0 [] /\ In s (live os 0 []) /\
  to_key (s_key s) (snd (run (init root []) os)) = [Update v] /\
  v = VNone /\ tsee root (s_path s) = Some (SLeaf 4).
Proof.
  exists mblk, [Subscribe (mkSub (1, 1) ["t"; "elements"; "a"; "label"] false)],
    (mkSub (1, 1) ["t"; "elements"; "a"; "label"] false). eexists.
  split; [unfold unique; apply nodup_b_spec; reflexivity|].
  split; [dst|]. split; [inn|].
  repeat split; vm_compute; reflexivity.
Qed.
Print Assumptions C07_through_dict_refuted.

(* A subscriber of the whole block is called even when the group changed nothing *)
Theorem C07_empty_group_refuted : exists root os s,
  unique root [] /\ distinct os 0 [] /\ In s (live os 0 []) /\
  changed (fst (run (init root []) os)) [Enter] [] = [] /\
  to_key (s_key s) (snd (run (fst (run (init root []) os)) [Enter; Exit])) <> [].
Proof.
  exists blk, [Subscribe (mkSub (1, 1) [] false)], (mkSub (1, 1) [] false).
  split; [unfold unique; apply nodup_b_spec; reflexivity|].
  split; [dst|]. split; [inn|].
  split; vm_compute; [reflexivity|discriminate].
Qed.
Print Assumptions C07_empty_group_refuted.

(* One callback that raises keeps the rest of the group from every subscriber after it *)
Theorem C08_raising_callback_refuted : exists root os s raises,
  unique root [] /\ distinct os 0 [] /\ In s (live os 0 []) /\
  let outs := snd (run (fst (run (init root []) os)) (set_endpoint ["y"] "value" (NewLeaf 8))) in
  (forall m, raises (s_key s) m = false) /\
  length (to_key (s_key s) outs) = 1 /\ to_key (s_key s) (deliver raises outs) = [].
Proof.
  exists blk, [Subscribe (mkSub (1, 1) ["y"] false); Subscribe (mkSub (2, 1) ["y"; "value"] false)],
    (mkSub (2, 1) ["y"; "value"] false), (fun k _ => key_eqb k (1, 1)).
  split; [unfold unique; apply nodup_b_spec; reflexivity|].
  split; [dst|].
  split; [inn|].
  vm_compute. repeat split.
Qed.
Print Assumptions C08_raising_callback_refuted.

(* The same callback and id subscribed twice: unsubscribing ends only the second one; the
   first goes on being called and can not be ended any more *)
Theorem C09_same_key_refuted : exists root os k,
  unique root [] /\ n_count (fst (run (init root []) os)) = 0 /\
  (exists a b, os = a ++ [Unsubscribe k] /\ b = snd (step (fst (run (init root []) a)) (Unsubscribe k)) /\ b = [(k, Return)]) /\
  to_key k (snd (run (fst (run (init root []) os)) (set_endpoint ["y"] "value" (NewLeaf 8)))) <> [] /\
  snd (step (fst (run (init root []) os)) (Unsubscribe k)) = [(k, Error)].
Proof.
  exists blk, [Subscribe (mkSub (1, 1) ["y"] false); Subscribe (mkSub (1, 1) ["x"] false); Unsubscribe (1, 1)], (1, 1).
  split; [unfold unique; apply nodup_b_spec; reflexivity|]. split; [reflexivity|].
  split; [eexists _, _; split; [apply (app_assoc [_] [_] [_])|split; reflexivity]|].
  split; vm_compute; [discriminate|reflexivity].
Qed.
Print Assumptions C09_same_key_refuted.
