(* C64: references in a YAML file are replaced by their values.  C65: what the blocks of a YAML
   file are made of. *)
From Coq Require Import String Ascii Bool ZArith Lia List Permutation.
From Verif Require Import Base Yaml_Model Yaml_Spec Yaml_Proofs.
Import ListNotations.
Local Open Scope string_scope.
Local Open Scope list_scope.
Local Open Scope nat_scope.

(* ---------------- C64 ---------------- *)
(* All references are replaced at once, whatever the order of the substitutions, and nothing
   else is touched, for values that contain no $ *)
Theorem C64_filled subs ts : plain_subs subs -> Forall token_ok ts ->
  replace_str subs (text ts) = filled subs ts.
Proof. apply replace_filled. Qed.
Print Assumptions C64_filled.

(* So the order does not matter *)
Theorem C64_order subs subs' ts : plain_subs subs -> plain_subs subs' -> Forall token_ok ts ->
  (forall n, dget n subs = dget n subs') -> replace_str subs (text ts) = replace_str subs' (text ts).
Proof.
  intros H1 H2 Ht E. rewrite !replace_filled by assumption. clear Ht.
  induction ts as [|t ts IH]; [reflexivity|]. cbn [filled]. rewrite IH.
  destruct t; [reflexivity|reflexivity|now rewrite E].
Qed.
Print Assumptions C64_order.

(* Every text without $ stays, whatever the substitutions *)
Theorem C64_untouched subs s : ~ has dollar s -> replace_str subs s = s.
Proof. apply replace_none. Qed.
Print Assumptions C64_untouched.

(* In a list, at any depth, every string is replaced, in its place *)
Theorem C64_lists subs v : forall s, in_lists (YStr s) v ->
  in_lists (YStr (replace_str subs s)) (replace_substitutions subs v).
Proof.
  intros s H. remember (YStr s) as x eqn:E. induction H as [w|w u l I H IH]; subst.
  - constructor.
  - cbn [replace_substitutions]. apply il_in with (w := replace_substitutions subs u).
    + now apply in_map.
    + now apply IH.
Qed.
Print Assumptions C64_lists.
Theorem C64_places subs l i : 
  match replace_substitutions subs (YSeq l) with
  | YSeq l' => length l' = length l /\
               nth_error l' i = option_map (replace_substitutions subs) (nth_error l i)
  | _ => False
  end.
Proof.
  cbn [replace_substitutions]. split; [apply map_length|]. revert i.
  induction l as [|x l IH]; intros [|i]; cbn; auto.
Qed.
Print Assumptions C64_places.

Definition subs_ex : dict string := [("mri", "BL-ML"); ("n", "3"); ("mri_n", "X")].
Definition toks_ex : list token :=
  [Ref "mri"; Lit ":"; Dollar "H"; Ref "n"; Ref "other"; Ref "mri_n"].
Example C64_ex : plain_subs subs_ex /\ Forall token_ok toks_ex /\
  text toks_ex = "$(mri):$H$(n)$(other)$(mri_n)" /\
  replace_str subs_ex (text toks_ex) = "BL-ML:$H3$(other)X" /\
  replace_substitutions subs_ex (YSeq [YStr "$(n)"; YOther 4; YSeq [YStr "$(n)0"]])
    = YSeq [YStr "3"; YOther 4; YSeq [YStr "30"]].
Proof.
  split.
  { intros n v H. cbn in H. destruct H as [H|[H|[H|[]]]]; injection H as <- <-; cbn;
      (split; intros X; repeat (destruct X as [X|X]; [discriminate|]); exact X). }
  split; [|vm_compute; auto].
  repeat constructor; cbn; try discriminate;
    intros X; repeat (destruct X as [X|X]; [discriminate|]); exact X.
Qed.

(* With a value that contains a reference the result depends on the order, and a reference in a
   mapping is not replaced *)
Theorem C64_nested_refuted : exists subs subs' s,
  (forall n, dget n subs = dget n subs') /\ replace_str subs s <> replace_str subs' s.
Proof.
  exists [("a", "$(b)"); ("b", "x")], [("b", "x"); ("a", "$(b)")], "$(a)".
  split; [|vm_compute; discriminate]. intros n. cbn [dget].
  destruct (String.eqb n "a") eqn:A, (String.eqb n "b") eqn:B; try reflexivity.
  apply String.eqb_eq in A, B. congruence.
Qed.
Print Assumptions C64_nested_refuted.
Theorem C64_mapping_refuted : exists subs d, In ("host", YStr "$(ip)") d /\
  dget "ip" subs = Some "127.0.0.1" /\ replace_substitutions subs (YMap d) = YMap d.
Proof. exists [("ip", "127.0.0.1")], [("host", YStr "$(ip)")]. cbn. auto. Qed.
Print Assumptions C64_mapping_refuted.

(* ---------------- C65 ---------------- *)
(* A name that the file does not define itself is the argument that was given, or else the
   default, or else one of the three that every file has *)
Theorem C65_argument file yn yd given kw n :
  NoDup (map fst (takes_arguments file)) -> call_args file given = Some kw ->
  ~ defines_of file n ->
  (forall d, In (SParam n d) file ->
     dget n (create_defines file yn yd kw) = match dget n given with Some v => Some v | None => d end) /\
  ((forall d, ~ In (SParam n d) file) ->
     dget n (create_defines file yn yd kw)
     = dget n [("yamlname", yn); ("yamldir", yd); ("docstring", "")]).
Proof.
  intros N H D. unfold call_args in H. destruct (forallb _ _); [|discriminate].
  pose proof (bind_keys _ _ _ H) as K.
  assert (NK : NoDup (dkeys kw)) by (rewrite K; exact N).
  unfold create_defines. rewrite fold_defines_get by exact D. rewrite dget_dupdate by exact NK. split.
  - intros d I. apply takes_in in I. pose proof (bind_get _ _ _ _ _ N H I) as G.
    destruct (dget n kw) eqn:E; [exact G|]. exfalso. apply dget_None_notin in E. apply E. rewrite K.
    change n with (fst (n, d)). now apply in_map.
  - intros I. assert (E : dget n kw = None).
    { apply dget_None_notin. rewrite K. intros X. apply in_map_iff in X. destruct X as ([m d] & M & X).
      cbn in M. subst m. apply takes_in in X. exact (I d X). }
    rewrite E. apply fold_params_get. intros v X. exact (I _ X).
Qed.
Print Assumptions C65_argument.

(* The last define of a name in the file wins over everything, with what comes before it in the
   file and the parameters filled in *)
Theorem C65_define a b yn yd kw n v : ~ defines_of b n ->
  dget n (create_defines (a ++ SDefine n v :: b) yn yd kw)
  = Some (replace_str (create_defines (a ++ filter is_param b) yn yd kw) v).
Proof.
  intros D. unfold create_defines. rewrite !fold_left_app. cbn [fold_left].
  rewrite fold_defines_get by exact D. rewrite dget_dset_same. f_equal. f_equal.
  set (F := fun d s => match s with SDefine n v => dset n (replace_str d v) d | _ => d end).
  set (G := fun d s => match s with SParam n (Some v) => dset n (replace_str d v) d | _ => d end).
  assert (X : forall l d, fold_left F (filter is_param l) d = d).
  { induction l as [|s l IH]; intros d; [reflexivity|]. cbn [filter]. destruct s; cbn [is_param fold_left]; apply IH. }
  assert (Y : forall l d, fold_left G (filter is_param l) d = fold_left G l d).
  { induction l as [|s l IH]; intros d; [reflexivity|]. cbn [filter]. destruct s; cbn [is_param fold_left]; apply IH. }
  change (fold_left _ (filter is_param b)
            (fold_left F a (dupdate (fold_left G (filter is_param b) (fold_left G a
               [("yamlname", yn); ("yamldir", yd); ("docstring", "")])) kw)))
    with (fold_left F (filter is_param b)
            (fold_left F a (dupdate (fold_left G (filter is_param b) (fold_left G a
               [("yamlname", yn); ("yamldir", yd); ("docstring", "")])) kw))).
  rewrite X, Y. reflexivity.
Qed.
Print Assumptions C65_define.

(* A file can be used exactly if every argument is one of its parameters and every parameter
   without default is given *)
Theorem C65_arguments_checked file given :
  (exists kw, call_args file given = Some kw) <->
  (forall k, In k (dkeys given) -> exists d, In (SParam k d) file) /\
  (forall n, In (SParam n None) file -> In n (dkeys given)).
Proof.
  unfold call_args. destruct (forallb _ _) eqn:F.
  - assert (A : forall k, In k (dkeys given) -> exists d, In (SParam k d) file).
    { intros k I. rewrite forallb_forall in F. specialize (F k I). apply smem_In in F.
      apply in_map_iff in F. destruct F as ([m d] & M & F). cbn in M. subst. exists d. now apply takes_in. }
    split.
    + intros (kw & H). split; [exact A|]. intros n I. apply takes_in in I.
      revert kw H I. generalize (takes_arguments file).
      induction l as [|[m d] l IH]; intros kw H I; [destruct I|]. cbn [bind_args] in H.
      destruct (dget m given) as [v|] eqn:G.
      * destruct (bind_args l given) as [l'|] eqn:B; [|discriminate].
        destruct I as [I|I]; [injection I as -> ->; eapply dget_Some_key; eauto|eauto].
      * destruct d as [v|]; [|discriminate]. destruct (bind_args l given) as [l'|] eqn:B; [|discriminate].
        destruct I as [I|I]; [discriminate|eauto].
    + intros [_ R]. assert (R' : forall n, In (n, None) (takes_arguments file) -> In n (dkeys given))
        by (intros n I; apply R; now apply takes_in).
      revert R'. generalize (takes_arguments file).
      induction l as [|[m d] l IH]; intros R'; [now exists []|]. cbn [bind_args].
      destruct IH as (l' & E); [intros n I; apply R'; now right|]. rewrite E.
      destruct (dget m given) as [v|] eqn:G; [eexists; reflexivity|].
      destruct d as [v|]; [eexists; reflexivity|]. exfalso. apply dget_None_notin in G. apply G.
      apply R'. now left.
  - split; [intros (kw & H); discriminate|]. intros [A _]. exfalso.
    assert (F' : forallb (fun k => smem k (map fst (takes_arguments file))) (dkeys given) = true).
    { apply forallb_forall. intros k I. apply smem_In. destruct (A k I) as (d & J). apply takes_in in J.
      change k with (fst (k, d)). now apply in_map. }
    congruence.
Qed.
Print Assumptions C65_arguments_checked.

(* Every block written in the files becomes one controller and every part goes into one of
   them *)
Theorem C65_once file yn yd given cs : block_creator file yn yd given = Some cs ->
  length cs = S (list_sum (map n_blocks file)) /\
  list_sum (map (fun c => length (c_parts c)) cs) = list_sum (map n_parts file).
Proof.
  unfold block_creator. destruct (make _ _) as [[c p]|] eqn:E; [|discriminate]. intros H. injection H as <-.
  destruct (make_counts _ _ _ _ E) as [A B].
  rewrite (make_block_parts _ _ _ _ _ _ _ E) in B.
  split; [exact A|]. exact B.
Qed.
Print Assumptions C65_once.

(* The parameters that a file takes: those that it has, each once, those without default first;
   and filling in values leaves the names of the arguments alone *)
Theorem C65_signature file :
  Permutation (map (fun nd => SParam (fst nd) (snd nd)) (takes_arguments file)) (filter is_param file) /\
  (exists l l', takes_arguments file = l ++ l' /\ Forall (fun nd => snd nd = None) l /\
                Forall (fun nd => snd nd <> None) l') /\
  forall subs args, dkeys (substitute_params subs args) = dkeys args.
Proof.
  split; [|split].
  - unfold takes_arguments. assert (P : forall l : list (string * option string),
      Permutation (filter (fun nd => match snd nd with None => true | _ => false end) l
        ++ filter (fun nd => match snd nd with None => false | _ => true end) l) l).
    { induction l as [|[n [d|]] l IH]; cbn; [constructor| |now constructor].
      apply Permutation_sym, Permutation_cons_app, Permutation_sym, IH. }
    rewrite P. apply Permutation_refl'. unfold params. induction file as [|[] file IH]; cbn; congruence.
  - unfold takes_arguments. eexists _, _. split; [reflexivity|].
    split; apply Forall_forall; intros [n [d|]] I; apply filter_In in I; destruct I as [_ I]; cbn in *; congruence.
  - intros subs args. unfold substitute_params, dkeys. rewrite map_map. reflexivity.
Qed.
Print Assumptions C65_signature.

Lemma controllers_filter file : filter is_controller file = map SController (controllers file).
Proof. induction file as [|s file IH]; [reflexivity|]. destruct s; cbn; try exact IH. unfold controllers in *. cbn. now rewrite IH. Qed.
(* Which they are: the controllers are those of the blocks reached, each with the arguments
   filled in with the values of its own file, and with the parts of its own file and of the files
   included from there, filled in with the values of the file that they are written in *)
Theorem C65_made file yn yd given cs : block_creator file yn yd given = Some cs ->
  forall c, In c cs <-> exists env args yn' yd' file' kw a,
    reached [] (SBlock given yn yd file) env (SBlock args yn' yd' file') /\
    call_args file' (substitute_params env args) = Some kw /\
    filter is_controller file' = [SController a] /\
    c_args c = substitute_params (create_defines file' yn' yd' kw) a /\
    exists cs', make_all file' (create_defines file' yn' yd' kw) = Some (cs', c_parts c).
Proof.
  unfold block_creator. destruct (make _ _) as [[cs' p]|] eqn:E; [|discriminate].
  intros H. injection H as <-. intros c. rewrite (make_ctrls _ _ _ _ E). split.
  - intros (e & a & yn' & yd' & f & R & (kw & a' & cs & B1 & B2 & B3 & B4)).
    exists e, a, yn', yd', f, kw, a'. rewrite (controllers_filter f), B2. cbn. eauto 8.
  - intros (e & a & yn' & yd' & f & kw & a' & R & B1 & B2 & B3 & cs & B4).
    exists e, a, yn', yd', f. split; [exact R|]. exists kw, a', cs.
    rewrite (controllers_filter f) in B2. destruct (controllers f) as [|x [|]]; try discriminate.
    injection B2 as ->. auto.
Qed.
Print Assumptions C65_made.
Theorem C65_parts file defs cs ps : make_all file defs = Some (cs, ps) ->
  forall p, In p ps <-> exists s env args, In s file /\ included defs s env (SPart args) /\
                                           p = substitute_params env args.
Proof.
  intros H p. rewrite (proj1 (make_all_in _ _ _ _ H)). split.
  - intros (s & c & p' & I & E & J). apply (make_parts _ _ _ _ E) in J. destruct J as (e & a & J & ->). eauto 6.
  - intros (s & e & a & I & J & ->). destruct (make_all_each _ _ _ H s I) as (c & p' & E).
    exists s, c, p'. split; [exact I|]. split; [exact E|]. apply (make_parts _ _ _ _ E). eauto.
Qed.
Print Assumptions C65_parts.

(* The controller of a block comes after those of the blocks in it: a parent can look for its
   children when it is added *)
Theorem C65_children_first a b args yn' yd' file' yn yd given cs :
  block_creator (a ++ SBlock args yn' yd' file' :: b) yn yd given = Some cs ->
  exists kw x y child parent,
    cs = x ++ child ++ y ++ [parent] /\
    call_args (a ++ SBlock args yn' yd' file' :: b) given = Some kw /\
    make (SBlock args yn' yd' file')
      (create_defines (a ++ SBlock args yn' yd' file' :: b) yn yd kw) = Some (child, []).
Proof.
  unfold block_creator. rewrite make_block_eq.
  assert (E0 : substitute_params [] given = given).
  { unfold substitute_params. induction given as [|[k v] g IH]; [reflexivity|]. cbn [map fst snd].
    rewrite IH. reflexivity. }
  rewrite E0. destruct (call_args _ given) as [kw|] eqn:C; [|discriminate]. cbv zeta.
  set (defs := create_defines _ yn yd kw).
  assert (SP : forall u v, make_all (u ++ v) defs = match make_all u defs, make_all v defs with
     | Some (c, p), Some (c', p') => Some (c ++ c', p ++ p') | _, _ => None end).
  { induction u as [|s u IH]; intros v.
    - cbn [app make_all]. destruct (make_all v defs) as [[? ?]|]; reflexivity.
    - cbn [app make_all]. rewrite IH. destruct (make s defs) as [[? ?]|]; [|reflexivity].
      destruct (make_all u defs) as [[? ?]|]; [|reflexivity].
      destruct (make_all v defs) as [[? ?]|]; [|reflexivity]. now rewrite !app_assoc. }
  rewrite SP. cbn [make_all].
  destruct (make_all a defs) as [[x px]|]; [|discriminate].
  destruct (make (SBlock args yn' yd' file') defs) as [[ch pch]|] eqn:M; [|discriminate].
  destruct (make_all b defs) as [[y py]|]; [|discriminate].
  destruct (controllers _) as [|a1 [|]]; try discriminate. intros H. injection H as <-.
  assert (pch = []) as -> by (eapply make_block_parts; exact M).
  exists kw, x, y, ch, (mkC (substitute_params defs a1) (px ++ [] ++ py)).
  split; [now rewrite <- !app_assoc|]. split; [first [exact C | reflexivity]|exact M].
Qed.
Print Assumptions C65_children_first.

Definition inc_ex : list section :=
  [SParam "name" None; SPart [("name", "$(name)"); ("mri", "$(name):$(yamlname)")]].
Definition child_ex : list section :=
  [SParam "mri" None; SController [("mri", "$(mri)")]; SPart [("name", "p")]].
Definition top_ex : list section :=
  [SParam "mri_prefix" None; SParam "n" (Some "1"); SDefine "mri" "$(mri_prefix):TOP$(n)";
   SController [("mri", "$(mri)")]; SBlock [("mri", "$(mri):CHILD")] "child" "/d" child_ex;
   SInclude [("name", "x$(n)")] "inc" "/d" inc_ex; SPart [("name", "own")]].
Example C65_ex : block_creator top_ex "top" "/d" [("mri_prefix", "BL")] =
  Some [mkC [("mri", "BL:TOP1:CHILD")] [[("name", "p")]];
        mkC [("mri", "BL:TOP1")] [[("name", "x1"); ("mri", "x1:inc")]; [("name", "own")]]] /\
  NoDup (map fst (takes_arguments top_ex)) /\
  block_creator top_ex "top" "/d" [("n", "2")] = None /\
  block_creator top_ex "top" "/d" [("mri_prefix", "BL"); ("m", "2")] = None.
Proof.
  split; [vm_compute; reflexivity|]. split; [|vm_compute; auto].
  vm_compute. repeat (constructor; [cbn; intuition discriminate|]). constructor.
Qed.

(* The default of a parameter is filled in when the defines are made, but that is overwritten by
   the one of the signature, so a reference in it is never replaced *)
Definition default_ex : list section :=
  [SParam "path" (Some "$(yamldir)/f"); SController [("file", "$(path)")]].
Theorem C65_default_refuted : exists file cs c, block_creator file "top" "/d" [] = Some cs /\
  In (SParam "path" (Some "$(yamldir)/f")) file /\ In (SController [("file", "$(path)")]) file /\
  In c cs /\ c_args c = [("file", "$(yamldir)/f")].
Proof.
  exists default_ex. eexists _, _. split; [vm_compute; reflexivity|]. cbn. auto.
Qed.
Print Assumptions C65_default_refuted.
