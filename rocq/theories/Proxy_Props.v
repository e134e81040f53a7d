(* C62: a proxy block shows what the remote block holds.  C63: an exported field follows the
   field it was made from. *)
From Coq Require Import String Bool ZArith Lia List.
From Verif Require Import Base Notify_Model Notify_Spec Notify_Proofs Notify2_Proofs Notify_Props
  Proxy_Model Proxy_Spec Proxy_Proofs.
Import ListNotations.
Local Open Scope string_scope.
Local Open Scope list_scope.
Local Open Scope nat_scope.

(* ---------------- C62 ---------------- *)
(* As long as every change sent is one of the whole block or inside an existing field, the
   proxy looks like the remote block, after any history of it: every field of the remote block,
   the value, alarm and time of health, and meta (but for the list of fields) *)
Theorem C62_in_step names b root limbo os st outs s :
  unique root limbo -> Forall whole os -> distinct os 0 [] ->
  run (init root limbo) os = (st, outs) -> n_count st = 0 ->
  In s (live os 0 []) -> s_delta s = true -> s_path s = [] ->
  new_proxy b -> starts (to_key (s_key s) outs) ->
  msgs_followed VNone (to_key (s_key s) outs) ->
  forall k p, shown p ->
    vsee (VObj k (proxy_after names b (to_key (s_key s) outs))) p = tsee (w_root (n_w st)) p.
Proof.
  intros Hu Hw Hd Hr Hc Hs Hds Hp Hb H1 H2 k p Hsh.
  assert (Hcl : clear (w_root (n_w st)) (s_path s)) by (rewrite Hp; apply clear_nil).
  pose proof (C06_replay_is_current root limbo os st outs s Hu Hw Hd Hr Hc Hs Hds Hcl) as V.
  rewrite Hp in V. specialize (V p). cbn [app] in V. rewrite <- V.
  apply in_step_see; [|exact Hsh]. now apply proxy_in_step.
Qed.
Print Assumptions C62_in_step.

(* a remote block with two attributes, one of them a table *)
Definition pmeta (i : nat) : tree :=
  TObj i (KModel "malcolm:core/BlockMeta:1.0")
    [("description", TLeaf 0); ("tags", TLeaf 0); ("writeable", TLeaf 0); ("label", TLeaf 0);
     ("fields", TLeaf 0)].
Definition pattr (i : nat) (z : Z) : tree :=
  TObj i (KModel "epics:nt/NTScalar:1.0")
    [("value", TLeaf z); ("alarm", TLeaf 0); ("timeStamp", TLeaf 0);
     ("meta", TObj (i + 1) (KModel "malcolm:core/NumberMeta:1.0")
        [("tags", TLeaf 7); ("label", TLeaf 8); ("writeable", TLeaf 0)])].
Definition ptable (i : nat) : tree :=
  TObj i (KModel "epics:nt/NTTable:1.0")
    [("value", TObj (i + 1) (KPlain "Table") [("a", TLeaf 1); ("b", TLeaf 2)]);
     ("alarm", TLeaf 0); ("timeStamp", TLeaf 0)].
Definition remote : tree :=
  TObj 0 (KModel "malcolm:core/Block:1.0")
    [("meta", pmeta 1); ("health", pattr 2 0); ("x", pattr 4 5); ("t", ptable 6)].
Definition spare : list tree :=
  [pattr 10 1; TObj 12 (KPlain "Table") [("a", TLeaf 1); ("b", TLeaf 3)]].
Definition proxy_sub := mkSub (1, 1) [] true.
Definition names0 (l : list string) : val := VLeaf (Z.of_nat (length l)).
Definition proxy0 : list (string * val) :=
  [("meta", VObj (KModel "malcolm:core/BlockMeta:1.0")
     [("description", VLeaf 0); ("tags", VLeaf 0); ("writeable", VLeaf 0); ("label", VLeaf 0);
      ("fields", VLeaf 0)]);
   ("health", VObj (KModel "epics:nt/NTScalar:1.0")
     [("value", VLeaf 9); ("alarm", VLeaf 9); ("timeStamp", VLeaf 9); ("meta", VLeaf 9)])].
(* all that is sent to the client for a history of the remote block, and what the proxy is
   then *)
Definition sent (os : list op) : list msg :=
  to_key (1, 1) (snd (run (init remote spare) (Subscribe proxy_sub :: os))).
Definition proxy (os : list op) : val :=
  VObj (KModel "malcolm:core/Block:1.0") (proxy_after names0 proxy0 (sent os)).
Definition server (os : list op) : tree :=
  w_root (n_w (fst (run (init remote spare) (Subscribe proxy_sub :: os)))).

Definition phist : list op :=
  set_endpoint ["x"] "value" (NewLeaf 6)
  ++ set_endpoint ["x"; "meta"] "writeable" (NewLeaf 1)
  ++ set_value_alarm_ts ["health"] (NewLeaf 1) (NewLeaf 2) (NewLeaf 3)
  ++ set_endpoint ["meta"] "label" (NewLeaf 4).

Ltac nd := cbn; repeat (constructor; [cbn; intuition discriminate|]); constructor.
Ltac prefixes := let E := fresh "E" in let H := fresh in
  intros [|? [|? [|? ?]]] ? E H; cbn in E; try discriminate; try (injection E; intros); subst;
  first [congruence
        |discriminate
        |eexists; split; [vm_compute; reflexivity|discriminate]].
Lemma new_proxy0 : new_proxy proxy0.
Proof.
  eexists _, _, _, _. split; [reflexivity|]. split; [discriminate|]. split; [discriminate|].
  split; [nd|]. split; [intros n; cbn; tauto|].
  intros n; cbn; tauto.
Qed.
Ltac names_in := let n := fresh in let H := fresh in
  intros n H; cbn in H; repeat (destruct H as [<-|H]; [vm_compute; discriminate|]); destruct H.
Example C62_ex :
  unique remote spare /\ new_proxy proxy0 /\ starts (sent phist) /\
  msgs_followed VNone (sent phist) /\
  vsee (proxy phist) ["x"; "value"] = Some (SLeaf 6) /\
  vsee (proxy phist) ["x"; "meta"; "writeable"] = Some (SLeaf 1) /\
  vsee (proxy phist) ["health"; "alarm"] = Some (SLeaf 2) /\
  vsee (proxy phist) ["meta"; "label"] = Some (SLeaf 4) /\
  vsee (proxy phist) ["t"; "value"; "b"] = Some (SLeaf 2).
Proof.
  split; [unfold unique; apply nodup_b_spec; vm_compute; reflexivity|].
  split; [apply new_proxy0|].
  split; [eexists _, _, _; vm_compute; reflexivity|].
  split; [|vm_compute; tauto].
  let v := eval vm_compute in (sent phist) in change (sent phist) with v.
  cbn [msgs_followed all_followed fst snd].
  repeat match goal with |- _ /\ _ => split end; try exact I.
  - cbn [followed]. eexists _, _. split; [reflexivity|]. split; [nd|].
    split; [names_in|]. split; [names_in|].
    intros n N1 N2 H; cbn in H.
    destruct H as [<-|[<-|[<-|[<-|[]]]]]; try congruence; eexists _, _; vm_compute; reflexivity.
  - cbn -[settable replay vapply]. eexists. split; [vm_compute; reflexivity|].
    split; [discriminate|]. split; [vm_compute; discriminate|]. prefixes.
  - cbn -[settable replay vapply]. eexists. split; [vm_compute; reflexivity|].
    split; [discriminate|]. split; [vm_compute; discriminate|]. prefixes.
  - eexists; split; [reflexivity|cbn; tauto].
  - eexists; split; [reflexivity|cbn; tauto].
  - eexists; split; [reflexivity|cbn; tauto].
  - eexists; split; [reflexivity|cbn; tauto].
Qed.

(* A field added to the remote block never gets to the proxy: the code looks at path[1] of a
   path of length 1.  Its later values raise as well *)
Definition hist_add : list op :=
  block_set "z" (NewObj 10) (NewLeaf 3) ++ set_endpoint ["z"] "value" (NewLeaf 2).
Theorem C62_added_refuted : exists os, Forall whole os /\
  shown ["z"; "value"] /\
  tsee (server os) ["z"; "value"] = Some (SLeaf 2) /\ vsee (proxy os) ["z"; "value"] = None.
Proof.
  exists hist_add. split; [repeat constructor|]. vm_compute. auto.
Qed.
Print Assumptions C62_added_refuted.

(* A field removed from the remote block stays in the proxy *)
Theorem C62_removed_refuted : exists os, Forall whole os /\
  tsee (server os) ["x"] = None /\ vsee (proxy os) ["x"; "value"] = Some (SLeaf 5).
Proof.
  exists (block_remove "x" (NewLeaf 1)). split; [repeat constructor|]. vm_compute. auto.
Qed.
Print Assumptions C62_removed_refuted.

(* A table changed in one column stays as it was in the proxy *)
Theorem C62_column_refuted : exists os,
  tsee (server os) ["t"; "value"; "b"] = Some (SLeaf 3) /\
  vsee (proxy os) ["t"; "value"; "b"] = Some (SLeaf 2).
Proof.
  exists [Enter; Mut (MPart ["t"] "value" (NewObj 12) ["b"]); Exit]. vm_compute. auto.
Qed.
Print Assumptions C62_column_refuted.

(* What comes after such a change in the same Delta is lost too, even for other fields *)
Theorem C62_rest_lost_refuted : exists os, Forall whole os /\
  tsee (server os) ["x"; "value"] = Some (SLeaf 6) /\
  vsee (proxy os) ["x"; "value"] = Some (SLeaf 5).
Proof.
  exists ([Enter] ++ block_set "z" (NewObj 10) (NewLeaf 3)
          ++ set_endpoint ["x"] "value" (NewLeaf 6) ++ [Exit]).
  split; [repeat constructor|]. vm_compute. auto.
Qed.
Print Assumptions C62_rest_lost_refuted.

(* Whatever was missed or lost before, a Delta that starts with the whole block brings the
   proxy back in step *)
Theorem C62_whole_recovers names b ms v cs :
  new_proxy b -> block_like v -> all_followed v cs ->
  forall k p, shown p ->
    vsee (VObj k (proxy_after names b (ms ++ [Delta (([], Some v) :: cs)]))) p
    = vsee (replay v (Delta cs)) p.
Proof.
  intros Hb Hv Hc k p Hp. unfold proxy_after. rewrite fold_left_app. cbn [fold_left].
  fold (proxy_after names b ms).
  assert (Hs : shape (proxy_after names b ms)) by (apply shape_any, new_proxy_shape, Hb).
  destruct (regenerate_spec names v _ Hs Hv) as (b1 & R & I1).
  destruct (changes_spec names cs v b1 I1 Hc) as (b2 & E & I2).
  cbn [handle_response loop handle_change]. rewrite R, E. cbn [after].
  now apply in_step_see.
Qed.
Print Assumptions C62_whole_recovers.
Example C62_ex_recovers :
  block_like (freeze_tree remote) /\
  vsee (VObj KMap (proxy_after names0 proxy0
    (sent hist_add ++ [Delta [([], Some (freeze_tree remote))]]))) ["x"; "value"] = Some (SLeaf 5).
Proof.
  split; [|vm_compute; reflexivity].
  let v := eval vm_compute in (freeze_tree remote) in change (freeze_tree remote) with v.
  eexists _, _. split; [reflexivity|]. split; [nd|].
  split; [names_in|]. split; [names_in|].
  intros n N1 N2 H; cbn in H.
  destruct H as [<-|[<-|[<-|[<-|[]]]]]; try congruence; eexists _, _; vm_compute; reflexivity.
Qed.

(* ---------------- C63 ---------------- *)
(* As long as every later change is inside the source field and leaves its tags and label
   alone, the exported field looks like the source everywhere else, its tags are those it had
   at first without the ones that are not exported, and its label is the one made from the
   export name *)
Theorem C63_in_step strip label root limbo os st outs s n ms v t fs tg lb :
  unique root limbo -> Forall whole os -> distinct os 0 [] ->
  run (init root limbo) os = (st, outs) -> n_count st = 0 ->
  In s (live os 0 []) -> s_delta s = true -> s_path s = [n] ->
  clear (w_root (n_w st)) [n] ->
  to_key (s_key s) outs = Delta [([], Some v)] :: ms -> msgs_exportable v ms ->
  v = VObj (KModel t) fs ->
  field2 v "meta" "tags" = Some tg -> field2 v "meta" "label" = Some lb ->
  exists e, export_after strip label (to_key (s_key s) outs) = Some e /\
    (forall p, ~ prefix ["meta"; "tags"] p -> ~ prefix ["meta"; "label"] p ->
       vsee e p = tsee (w_root (n_w st)) (n :: p)) /\
    (forall p, vsee e ("meta" :: "tags" :: p)
               = vsee (if String.eqb t "malcolm:core/Method:1.1" then tg else strip tg) p) /\
    (forall p, vsee e ("meta" :: "label" :: p) = vsee label p).
Proof.
  intros Hu Hw Hd Hr Hc Hs Hds Hp Hcl Hm He Hv Ht Hl.
  rewrite <- Hp in Hcl.
  pose proof (C06_replay_is_current root limbo os st outs s Hu Hw Hd Hr Hc Hs Hds Hcl) as V.
  unfold copy_of in V. rewrite Hm in *. cbn [fold_left replay fst snd vapply] in V.
  unfold export_after. cbn [fold_left update_field].
  destruct (new_export_spec strip label v t fs tg lb Hv Ht Hl) as (A & M).
  destruct (export_msgs strip label ms _ _ v _ A M He) as (e & E & A' & [M1 M2]).
  exists e. split; [exact E|]. split; [|split; [exact M1|exact M2]].
  intros p P1 P2. rewrite <- A' by assumption. rewrite V, Hp. reflexivity.
Qed.
Print Assumptions C63_in_step.

Definition export_sub := mkSub (1, 1) ["x"] true.
Definition esent (os : list op) : list msg :=
  to_key (1, 1) (snd (run (init remote spare) (Subscribe export_sub :: os))).
Definition strip0 (v : val) : val := match v with VLeaf 7 => VLeaf 70 | _ => v end.
Definition exported (os : list op) : option val := export_after strip0 (VLeaf 80) (esent os).
Definition eserver (os : list op) : tree :=
  w_root (n_w (fst (run (init remote spare) (Subscribe export_sub :: os)))).
Definition esee (os : list op) (p : path) : option seen :=
  match exported os with Some e => vsee e p | None => None end.
Definition ehist : list op :=
  set_value_alarm_ts ["x"] (NewLeaf 6) (NewLeaf 2) (NewLeaf 3)
  ++ set_endpoint ["x"; "meta"] "writeable" (NewLeaf 1).
Lemma not_prefix2 (a b : string) p :
  match p with
  | x :: y :: _ => String.eqb a x && String.eqb b y = false
  | _ => True
  end -> ~ prefix [a; b] p.
Proof. intros H (r & ->). cbn in H. now rewrite !String.eqb_refl in H. Qed.
Example C63_ex :
  (exists v ms, esent ehist = Delta [([], Some v)] :: ms /\ msgs_exportable v ms) /\
  esee ehist ["value"] = Some (SLeaf 6) /\ esee ehist ["meta"; "writeable"] = Some (SLeaf 1) /\
  esee ehist ["meta"; "tags"] = Some (SLeaf 70) /\ esee ehist ["meta"; "label"] = Some (SLeaf 80).
Proof.
  split; [|vm_compute; auto].
  let v := eval vm_compute in (esent ehist) in change (esent ehist) with v.
  eexists _, _. split; [reflexivity|].
  cbn [msgs_exportable all_exportable exportable fst snd].
  repeat match goal with |- _ /\ _ => split end; try exact I;
    unfold settable, apart;
    repeat match goal with |- _ /\ _ => split end; try discriminate;
    try (vm_compute; discriminate); try (apply not_prefix2; reflexivity);
    try (intros (? & E); cbn in E; congruence); prefixes.
Qed.

(* If the tags of the source change the config tags are back in the export *)
Theorem C63_tags_refuted : exists os, Forall whole os /\
  esee [] ["meta"; "tags"] = Some (SLeaf 70) /\ esee os ["meta"; "tags"] = Some (SLeaf 7).
Proof.
  exists (set_endpoint ["x"; "meta"] "tags" (NewLeaf 7)). split; [repeat constructor|].
  vm_compute. auto.
Qed.
Print Assumptions C63_tags_refuted.

(* If the source field is replaced the export stays as it was *)
Theorem C63_replaced_refuted : exists os, Forall whole os /\
  tsee (eserver os) ["x"; "value"] = Some (SLeaf 1) /\ esee os ["value"] = Some (SLeaf 5).
Proof.
  exists (block_set "x" (NewObj 10) (NewLeaf 0)). split; [repeat constructor|].
  vm_compute. auto.
Qed.
Print Assumptions C63_replaced_refuted.

(* If a column of a source table changes the export stays as it was *)
Definition table_sub := mkSub (1, 1) ["t"] true.
Theorem C63_column_refuted : exists os,
  let r := run (init remote spare) (Subscribe table_sub :: os) in
  tsee (w_root (n_w (fst r))) ["t"; "value"; "b"] = Some (SLeaf 3) /\
  match export_after strip0 (VLeaf 80) (to_key (1, 1) (snd r)) with
  | Some e => vsee e ["value"; "b"] = Some (SLeaf 2)
  | None => False
  end.
Proof.
  exists [Enter; Mut (MPart ["t"] "value" (NewObj 12) ["b"]); Exit]. vm_compute. auto.
Qed.
Print Assumptions C63_column_refuted.
