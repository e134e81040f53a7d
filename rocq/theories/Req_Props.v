(* C04, C05: requests to a block. *)
From Coq Require Import String Bool Lia List Permutation ZArith.
From Verif Require Import Base Meta_Model Meta_Spec Meta_Proofs Req_Model Req_Spec.
Import ListNotations.
Local Open Scope list_scope.

(* ---------------- C04 ---------------- *)
(* A Put that is not allowed: no field of that name, not an attribute, not writeable, or a value
   that its meta rejects.  One Error, nothing run, nothing changed *)
Theorem C04_put_refused read s k p v get :
  (forall n, hd_error p = Some n -> ~ may_put s n v) ->
  exists e, step read s (Handle (Put k p v get)) = (s, [Answer k (Error e)]).
Proof.
  intros H. cbn [step]. destruct (put_check s p v) as [[n x]|e] eqn:E; [|eauto]. exfalso.
  destruct p as [|m r]; cbn [put_check] in E; [discriminate|].
  destruct (dget m (r_block s)) as [f|] eqn:Ef; [|discriminate].
  destruct f as [w va y|o w a b c d e| ]; try discriminate. destruct w; [|discriminate].
  destruct (smem m (r_funcs s)) eqn:Em; [|discriminate]. apply smem_In in Em. destruct (va v) as [y'|] eqn:Ev; [|discriminate].
  apply (H m eq_refl). exists va, y, y'. auto.
Qed.
Print Assumptions C04_put_refused.
Theorem C04_post_refused read s k p ps :
  (forall n, hd_error p = Some n -> ~ may_post s n ps) ->
  exists e, step read s (Handle (Post k p ps)) = (s, [Answer k (Error e)]).
Proof.
  intros H. cbn [step]. destruct (post_check s p ps) as [[[n x] f0]|e] eqn:E; [|eauto]. exfalso.
  destruct p as [|m r]; cbn [post_check] in E; [discriminate|].
  destruct (dget m (r_block s)) as [f|] eqn:Ef; [|discriminate].
  destruct f as [w va y|o w a b c d e| ]; try discriminate. destruct w; [|discriminate].
  destruct (smem m (r_funcs s)) eqn:Em; [|discriminate]. apply smem_In in Em. destruct (validate_map a ps false) as [y'|] eqn:Ev; [|discriminate].
  apply (H m eq_refl). exists o, a, b, c, d, e, y'. auto.
Qed.
Print Assumptions C04_post_refused.
(* and one that is allowed is not refused: the function starts, nothing is answered yet *)
Theorem C04_put_allowed read s k n p v get : may_put s n v ->
  exists y, snd (step read s (Handle (Put k (n :: p) v get))) = [Ran n [("value"%string, y)]].
Proof.
  intros (va & x & y & H1 & H2 & H3). exists y. cbn [step put_check]. rewrite H1. apply smem_In in H2. now rewrite H2, H3.
Qed.
Print Assumptions C04_put_allowed.
Theorem C04_post_allowed read s k n p ps : may_post s n ps ->
  exists y, snd (step read s (Handle (Post k (n :: p) ps))) = [Ran n y].
Proof.
  intros (o & ta & r & u & a & c & y & H1 & H2 & H3). exists y. cbn [step post_check]. rewrite H1. apply smem_In in H2. now rewrite H2, H3.
Qed.
Print Assumptions C04_post_allowed.
(* A function is only run by a Put or Post to its own field, when that is writeable, and gets
   what the meta makes of the value *)
Theorem C04_only_validated read s o n args : In (Ran n args) (snd (step read s o)) ->
  (exists k p v get validate x y, o = Handle (Put k (n :: p) v get) /\ dget n (r_block s) = Some (FAttr true validate x) /\
     validate v = Ok y /\ args = [("value"%string, y)]) \/
  (exists k p ps oid takes r u a c, o = Handle (Post k (n :: p) ps) /\ dget n (r_block s) = Some (FMeth oid true takes r u a c) /\
     validate_map takes ps false = Ok args).
Proof.
  destruct o as [[k p|k p v get|k p ps|k p d|k]|i e|b fs]; cbn [step]; intros H.
  - destruct H as [H|[]]. discriminate.
  - destruct (put_check s p v) as [[m x]|e] eqn:E; [|destruct H as [H|[]]; discriminate].
    destruct H as [H|[]]. injection H as -> <-. left.
    destruct p as [|m' r]; cbn [put_check] in E; [discriminate|].
    destruct (dget m' (r_block s)) as [[w va y|oi w a b c d e|]|] eqn:Ef; try discriminate. destruct w; [|discriminate].
    destruct (smem m' (r_funcs s)); [|discriminate]. destruct (va v) as [y'|] eqn:Ev; [|discriminate].
    injection E as -> ->. exists k, r, v, get, va, y, x. auto.
  - destruct (post_check s p ps) as [[[m x] f0]|e] eqn:E; [|destruct H as [H|[]]; discriminate].
    destruct H as [H|[]]. injection H as -> <-. right.
    destruct p as [|m' r]; cbn [post_check] in E; [discriminate|].
    destruct (dget m' (r_block s)) as [[w va y|oi w a b c d e|]|] eqn:Ef; try discriminate. destruct w; [|discriminate].
    destruct (smem m' (r_funcs s)); [|discriminate]. destruct (validate_map a ps false) as [y'|] eqn:Ev; [|discriminate].
    injection E as -> -> _. exists k, r, ps, oi, a, b, c, d, e. auto.
  - destruct H as [H|[]]. discriminate.
  - destruct (existsb (key_eqb k) (r_subs s)); destruct H as [H|[]]; discriminate.
  - destruct (nth_error (r_jobs s) i) as [[k m g|k m t f0]|]; [destruct H as [H|[]]; discriminate| |destruct H].
    destruct (post_done s m t f0 e). destruct H as [H|[]]. discriminate.
  - destruct H.
Qed.
Print Assumptions C04_only_validated.
(* Handling any request changes no field.  Ending one changes at most the logs of the method
   that ended *)
Theorem C04_handle_changes_nothing read s r : r_block (fst (step read s (Handle r))) = r_block s.
Proof.
  destruct r as [k p|k p v get|k p ps|k p d|k]; cbn [step]; try reflexivity.
  - destruct (put_check s p v) as [[m x]|e]; reflexivity.
  - destruct (post_check s p ps) as [[[m x] f0]|e]; reflexivity.
  - destruct (existsb (key_eqb k) (r_subs s)); reflexivity.
Qed.
Print Assumptions C04_handle_changes_nothing.
Theorem C04_end_changes_logs read s i e n : match dget n (r_block (fst (step read s (End i e)))), dget n (r_block s) with
  | Some (FMeth o w t r u _ _), Some (FMeth o' w' t' r' u' _ _) => o = o' /\ w = w' /\ t = t' /\ r = r' /\ u = u'
  | x, y => x = y
  end.
Proof.
  cbn [step]. destruct (nth_error (r_jobs s) i) as [[k m g|k m t f0]|]; cbn [fst r_block];
    [destruct (dget n (r_block s)) as [[]|]; auto| |destruct (dget n (r_block s)) as [[]|]; auto].
  unfold post_done.
  assert (Z : match dget n (r_block s) with
    | Some (FMeth o w t0 r u _ _) => match dget n (r_block s) with
       | Some (FMeth o' w' t' r' u' _ _) => o = o' /\ w = w' /\ t0 = t' /\ r = r' /\ u = u'
       | _ => dget n (r_block s) = dget n (r_block s) end
    | _ => dget n (r_block s) = dget n (r_block s) end) by (destruct (dget n (r_block s)) as [[]|]; auto).
  destruct (dget m (r_block s)) as [f|] eqn:Ef; [destruct (same_object f0 f)|].
  - destruct (update_logs f t e) as [f' x] eqn:Eu. cbn [fst r_block].
    destruct (String.eqb_spec n m) as [->|N].
    + rewrite dget_dset_same, Ef. destruct f as [w va y|o w a b c d l|].
      * injection Eu as <- _. reflexivity.
      * cbn [update_logs] in Eu. destruct (validate_map a t true) as [tv|z]; [|injection Eu as <- _; auto].
        destruct (returned_of c e) as [dd|]; [|injection Eu as <- _; repeat split].
        destruct (validate_map b dd true) as [rv|z]; injection Eu as <- _; repeat split.
      * injection Eu as <- _. reflexivity.
    + rewrite dget_dset_other by (intros ->; now apply N). destruct (dget n (r_block s)) as [[]|]; auto.
  - destruct (update_logs f0 t e). cbn [fst r_block]. destruct (dget n (r_block s)) as [[]|]; auto.
  - destruct (update_logs f0 t e). cbn [fst r_block]. destruct (dget n (r_block s)) as [[]|]; auto.
Qed.
Print Assumptions C04_end_changes_logs.

(* ---------------- C05 ---------------- *)
Lemma run_app read s a b : run read s (a ++ b) =
  (fst (run read (fst (run read s a)) b), snd (run read s a) ++ snd (run read (fst (run read s a)) b)).
Proof.
  revert s. induction a as [|o r IH]; intros s; cbn [app run fst snd].
  - now destruct (run read s b).
  - destruct (step read s o) as [s' e]. rewrite IH. destruct (run read s' r) as [s'' es]. cbn [fst snd]. now rewrite app_assoc.
Qed.
Lemma nth_split' {A} (l : list A) i x : nth_error l i = Some x -> l = firstn i l ++ x :: skipn (S i) l.
Proof.
  revert i. induction l as [|y l IH]; intros [|i] H; try discriminate.
  - injection H as ->. reflexivity.
  - cbn [firstn skipn app]. f_equal. now apply IH.
Qed.
Lemma step_counts read s o :
  Permutation (answered (snd (step read s o)) ++ map job_key (r_jobs (fst (step read s o))))
              (asked [o] ++ map job_key (r_jobs s)) /\
  updated (snd (step read s o)) = subscribed [o].
Proof.
  destruct o as [[k p|k p v get|k p ps|k p d|k]|i e|b fs]; cbn [step].
  - destruct (read (r_block s) p); split; reflexivity.
  - destruct (put_check s p v) as [[m x]|e]; cbn [fst snd r_jobs]; [|split; reflexivity]. split; [|reflexivity].
    rewrite map_app. cbn. apply Permutation_sym, Permutation_cons_append.
  - destruct (post_check s p ps) as [[[m x] f0]|e]; cbn [fst snd r_jobs]; [|split; reflexivity]. split; [|reflexivity].
    rewrite map_app. cbn. apply Permutation_sym, Permutation_cons_append.
  - destruct d; split; reflexivity.
  - destruct (existsb (key_eqb k) (r_subs s)); split; reflexivity.
  - destruct (nth_error (r_jobs s) i) as [j|] eqn:E; [|split; reflexivity].
    pose proof (nth_split' _ _ _ E) as Hs.
    assert (G : Permutation ([job_key j] ++ map job_key (without i (r_jobs s))) (map job_key (r_jobs s))).
    { rewrite Hs at 2. unfold without. rewrite !map_app. cbn [map app]. apply Permutation_middle. }
    destruct j as [k m g|k m t f0].
    + cbn [fst snd r_jobs]. assert (answered [Answer k (put_done s m g e)] = [k] /\ updated [Answer k (put_done s m g e)] = []) as [-> ->].
      { unfold put_done. destruct e as [[v|]|x]; destruct g; cbn; auto. destruct (dget m (r_block s)) as [[]|]; auto. }
      split; [exact G|reflexivity].
    + destruct (post_done s m t f0 e) as [b r] eqn:Ep. cbn [fst snd r_jobs].
      assert (answered [Answer k r] = [k] /\ updated [Answer k r] = []) as [-> ->].
      { unfold post_done in Ep. destruct (update_logs _ t e) as [f' [x|]]; injection Ep as _ <-; [auto|]; destruct e; auto. }
      split; [exact G|reflexivity].
  - split; reflexivity.
Qed.

(* Of all the Get, Put, Post and Unsubscribe requests of a history, each has had exactly one
   Return or Error, with its id, to its callback, or its function is still running; each
   Subscribe has had its Update or Delta at once *)
Theorem C05_one_answer read b fs os : let s := fst (run read (mkS b fs [] []) os) in let ev := snd (run read (mkS b fs [] []) os) in
  Permutation (asked os) (answered ev ++ map job_key (r_jobs s)) /\ updated ev = subscribed os.
Proof.
  induction os as [|o r IH] using rev_ind; [split; [constructor|reflexivity]|].
  cbn zeta in *. destruct IH as [I1 I2]. rewrite run_app. cbn [run].
  destruct (step_counts read (fst (run read (mkS b fs [] []) r)) o) as [A B].
  destruct (step read (fst (run read (mkS b fs [] []) r)) o) as [s' e]. cbn [fst snd] in *. rewrite app_nil_r.
  unfold asked, answered, updated, subscribed in *. rewrite !flat_map_app. split.
  - rewrite <- app_assoc. rewrite A. rewrite I1. rewrite <- !app_assoc. apply Permutation_app_head. apply Permutation_app_comm.
  - now rewrite I2, B.
Qed.
Print Assumptions C05_one_answer.
(* so when nothing is running every request has been answered *)
Theorem C05_all_answered read b fs os : r_jobs (fst (run read (mkS b fs [] []) os)) = [] ->
  Permutation (asked os) (answered (snd (run read (mkS b fs [] []) os))).
Proof. intros H. destruct (C05_one_answer read b fs os) as [A _]. rewrite H, app_nil_r in A. exact A. Qed.
Print Assumptions C05_all_answered.
(* A subscription gets a Return only when it is ended: a step that gives a Return or Error is the
   handling of a request with that id and callback, or the end of its function *)
Theorem C05_own_answer read b fs os o k r : let s := fst (run read (mkS b fs [] []) os) in
  In (Answer k r) (snd (step read s o)) ->
  match r with
  | Update | Delta => exists p d, o = Handle (Subscribe k p d) /\ r = (if d then Delta else Update)
  | _ => (exists q, o = Handle q /\ asked [o] = [k]) \/ (exists i e, o = End i e /\ In k (asked os))
  end.
Proof.
  intros s H.
  assert (J : forall j, In j (r_jobs s) -> In (job_key j) (asked os)).
  { intros j Hj. destruct (C05_one_answer read b fs os) as [A _]. fold s in A.
    apply (Permutation_in _ (Permutation_sym A)). apply in_or_app. right. now apply in_map. }
  destruct o as [[k' p|k' p v get|k' p ps|k' p d|k']|i e|b' fs']; cbn [step] in H.
  - destruct H as [H|[]]. injection H as <- <-. destruct (read (r_block s) p); left; eauto.
  - destruct (put_check s p v) as [[m x]|e]; [destruct H as [H|[]]; discriminate|]. destruct H as [H|[]]. injection H as <- <-. left; eauto.
  - destruct (post_check s p ps) as [[[m x] f0]|e]; [destruct H as [H|[]]; discriminate|]. destruct H as [H|[]]. injection H as <- <-. left; eauto.
  - destruct H as [H|[]]. injection H as <- <-. destruct d; eauto.
  - destruct (existsb (key_eqb k') (r_subs s)); destruct H as [H|[]]; injection H as <- <-; left; eauto.
  - destruct (nth_error (r_jobs s) i) as [j|] eqn:E; [|destruct H]. apply nth_error_In, J in E. destruct j as [k' m g|k' m t f0].
    + destruct H as [H|[]]. injection H as <- <-.
      assert (X : exists i0 e0, End i e = End i0 e0 /\ In k' (asked os)) by eauto.
      unfold put_done. destruct e as [[v|]|x]; destruct g; auto. destruct (dget m (r_block s)) as [[]|]; auto.
    + destruct (post_done s m t f0 e) as [b2 r2] eqn:Ep. destruct H as [H|[]]. injection H as <- <-.
      assert (X : exists i0 e0, End i e = End i0 e0 /\ In k' (asked os)) by eauto.
      unfold post_done in Ep. destruct (update_logs _ t e) as [f' [x|]]; injection Ep as _ <-; auto; destruct e; auto.
  - destruct H.
Qed.
Print Assumptions C05_own_answer.

(* A Put that asked for it gets the current value back, a Post what its function returned *)
Theorem C05_put_gets_value read s i k n e : nth_error (r_jobs s) i = Some (JPut k n true) ->
  snd (step read s (End i e)) = [Answer k (match e with
    | FReturn (Some v) => Return (Some v)
    | FReturn None => match dget n (r_block s) with Some (FAttr _ _ x) => Return (Some x) | Some _ => Error WrongKind | None => Error KeyErr end
    | FRaise x => Error (Raised x) end)].
Proof. intros H. cbn [step]. rewrite H. cbn [snd]. unfold put_done. destruct e as [[v|]|x]; reflexivity. Qed.
Print Assumptions C05_put_gets_value.

(* A Post whose function raised is answered with an Error; one whose function returned, and
   returned what the method says, is answered with that *)
Theorem C05_post_answer read s i k n took f e : nth_error (r_jobs s) i = Some (JPost k n took f) ->
  exists r, snd (step read s (End i e)) = [Answer k r] /\
  match e with
  | FRaise _ => exists x, r = Error x
  | FReturn v => r = Return v \/ exists x, r = Error x
  end.
Proof.
  intros H. cbn [step]. rewrite H. unfold post_done. destruct (update_logs _ took e) as [f' [x|]]; cbn [snd]; eexists; (split; [reflexivity|]);
    destruct e; eauto.
Qed.
Print Assumptions C05_post_answer.
(* The logs of a method, when its function ends, show the parameters of that call and what it
   returned, with an alarm exactly if it raised; and then the answer is that return or error *)
Theorem C45_logs read s i k n took f e o w takes returns u tk rt tv d rv :
  nth_error (r_jobs s) i = Some (JPost k n took f) ->
  dget n (r_block s) = Some (FMeth o w takes returns u tk rt) -> same_object f (FMeth o w takes returns u tk rt) = true ->
  validate_map takes took true = Ok tv ->
  match e with
  | FRaise _ => d = []
  | FReturn (Some v) => if u then d = [("return"%string, v)] else v = PDict d
  | FReturn None => if u then d = [("return"%string, PNone)] else d = []
  end ->
  validate_map returns d true = Ok rv ->
  dget n (r_block (fst (step read s (End i e)))) =
    Some (FMeth o w takes returns u (mkLog tv true) (mkLog rv (match e with FRaise _ => false | _ => true end))) /\
  snd (step read s (End i e)) = [Answer k (match e with FRaise x => Error (Raised x) | FReturn v => Return v end)].
Proof.
  intros Hj Hb Hs Ht Hd Hr. cbn [step]. rewrite Hj. unfold post_done. rewrite Hb, Hs.
  assert (X : returned_of u e = Some d).
  { destruct e as [[v|]|x]; cbn; [destruct u; [now rewrite Hd|now rewrite Hd]|destruct u; now rewrite Hd|now rewrite Hd]. }
  unfold update_logs. rewrite Ht, X, Hr. cbn [fst snd r_block]. split; [apply dget_dset_same|]. destruct e; reflexivity.
Qed.
Print Assumptions C45_logs.

(* a block: an attribute, a method of one argument, one that is not writeable *)
Definition exV : pv -> result exn pv := fun v => match v with PInt _ => Ok v | _ => Err TypeError end.
Definition exM := mkMM [("a"%string, exV)] ["a"%string].
Definition exB : list (string * field) :=
  [("meta", FMeta); ("x", FAttr true exV (PInt 1)); ("ro", FAttr false exV (PInt 2));
   ("m", FMeth 1 true exM (mkMM [] []) false (mkLog [] true) (mkLog [] true))]%string.
Definition exS := mkS exB ["x"; "m"]%string [] [].
Example C04_ex_may : may_put exS "x" (PInt 3) /\ may_post exS "m" [("a"%string, PInt 1)].
Proof.
  split; [exists exV, (PInt 1), (PInt 3)|exists 1, exM, (mkMM [] []), false, (mkLog [] true), (mkLog [] true), [("a"%string, PInt 1)]];
    repeat split; vm_compute; auto.
Qed.
Example C04_ex : forall read, map (fun o => snd (step read exS (Handle o)))
    [Put (1, 1) ["y"%string] (PInt 3) false; Put (1, 2) ["m"%string] (PInt 3) false; Put (1, 3) ["ro"%string] (PInt 3) false;
     Put (1, 4) ["x"%string] (PStr "3") false; Post (1, 5) ["m"%string] []; Post (1, 6) ["x"%string] []; Put (1, 7) ["x"%string] (PInt 3) false] =
  [[Answer (1, 1) (Error FieldErr)]; [Answer (1, 2) (Error WrongKind)]; [Answer (1, 3) (Error NotWriteable)];
   [Answer (1, 4) (Error (Rejected TypeError))]; [Answer (1, 5) (Error (Rejected AssertionError))]; [Answer (1, 6) (Error WrongKind)];
   [Ran "x" [("value"%string, PInt 3)]]].
Proof. reflexivity. Qed.
Example C05_ex : forall read, snd (run read exS
  [Handle (Put (1, 1) ["x"%string] (PInt 3) true); Handle (Post (2, 1) ["m"%string] [("a"%string, PInt 5)]);
   World (dset "x"%string (FAttr true exV (PInt 3)) exB) ["x"; "m"]%string; End 1 (FRaise 9); Handle (Subscribe (3, 1) [] true);
   Handle (Unsubscribe (3, 1)); Handle (Unsubscribe (3, 1)); End 0 (FReturn None)]) =
  [Ran "x" [("value"%string, PInt 3)]; Ran "m" [("a"%string, PInt 5)]; Answer (2, 1) (Error (Raised 9)); Answer (3, 1) Delta;
   Answer (3, 1) (Return None); Answer (3, 1) (Error KeyErr); Answer (1, 1) (Return (Some (PInt 3)))].
Proof. reflexivity. Qed.

Example C45_ex : forall read, dget "m" (r_block (fst (run read exS
    [Handle (Post (2, 1) ["m"%string] [("a"%string, PInt 5)]); Handle (Post (2, 2) ["m"%string] [("a"%string, PInt 6)]);
     End 1 (FReturn None); End 0 (FRaise 3)]))) =
  Some (FMeth 1 true exM (mkMM [] []) false (mkLog [("a"%string, PInt 5)] true) (mkLog [] false)).
Proof. reflexivity. Qed.
(* Only the second element of the path counts: a Put to x.meta.label runs the function of x *)
Theorem C04_deep_path_refuted : exists s k p v n, p = [n; "meta"; "label"]%string /\
  (forall read, snd (step read s (Handle (Put k p v false))) = [Ran n [("value"%string, v)]]).
Proof. exists exS, (1, 1), ["x"; "meta"; "label"]%string, (PInt 3), "x"%string. split; reflexivity. Qed.
Print Assumptions C04_deep_path_refuted.
(* A method whose function has done its work but whose result does not fit its meta: the caller
   gets an Error, and the log of what it took is new, that of what it returned is old *)
Theorem C05_result_misfit_refuted : exists s os k n t r a c,
  (forall read, snd (run read s os) = [Ran n [("a"%string, PInt 5)]; Answer k (Error BadResult)]) /\
  (forall read, dget n (r_block (fst (run read s os))) = Some (FMeth 1 true t r false a c)) /\
  l_value a = [("a"%string, PInt 5)] /\ c = mkLog [] true.
Proof.
  exists exS, [Handle (Post (2, 1) ["m"%string] [("a"%string, PInt 5)]); End 0 (FReturn (Some (PInt 7)))], (2, 1), "m"%string.
  exists exM, (mkMM [] []), (mkLog [("a"%string, PInt 5)] true), (mkLog [] true). repeat split; reflexivity.
Qed.
Print Assumptions C05_result_misfit_refuted.
