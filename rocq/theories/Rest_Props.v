(* What users of the HTTP interface rely on: each request gets one reply, and it is the answer
   that the block it names gave to it. *)
From Coq Require Import String Ascii Bool ZArith Arith Lia List Permutation.
From Verif Require Import Base Meta_Model Req_Model Req_Spec Req_Props Rest_Model.
Import ListNotations.
Local Open Scope list_scope.

(* ---------------- specification ---------------- *)
(* the HTTP requests of a history, in order *)
Definition https (os : list rop) : list (method * string) :=
  flat_map (fun o => match o with HTTP m ep => [(m, ep)] | _ => [] end) os.
(* what other clients do has their own callbacks *)
Definition others_own (o : rop) : Prop :=
  match o with
  | Other _ (Handle (Get k _ | Put k _ _ _ | Post k _ _ | Subscribe k _ _ | Unsubscribe k)) => exists c, fst k = 2 * c + 1
  | _ => True
  end.
(* at first no function is running *)
Definition idle (bs : list (string * st)) : Prop := forall m s, In (m, s) bs -> r_jobs s = [].
Definition start (bs : list (string * st)) : world := mkW bs [] [] [].
(* what has been replied to the n-th request *)
Definition reply_to (w : world) (n : nat) : option reply :=
  match nth_error (w_handlers w) n with Some h => h_reply h | None => None end.
(* the callback and id of a request *)
Definition rkey (r : request) : key :=
  match r with Get k _ | Put k _ _ _ | Post k _ _ | Subscribe k _ _ | Unsubscribe k => k end.
(* the words of an endpoint: none has a slash, and with slashes between them they are it *)
Fixpoint join (l : list string) : string :=
  match l with
  | [] => ""
  | [x] => x
  | x :: r => (x ++ "/" ++ join r)%string
  end.
Fixpoint no_slash (s : string) : Prop :=
  match s with EmptyString => True | String c r => c <> "/"%char /\ no_slash r end.

(* ---------------- proofs ---------------- *)
Lemma slashes_ne s : slashes s <> [].
Proof. destruct s as [|c r]; [discriminate|]. cbn [slashes]. destruct (Ascii.eqb c "/"); [discriminate|]. destruct (slashes r); discriminate. Qed.
(* The path of a request: its endpoint cut at every slash *)
Theorem C112_path : forall s, join (slashes s) = s /\ Forall no_slash (slashes s).
Proof.
  induction s as [|c r [IH1 IH2]]; cbn [slashes]; [split; [reflexivity|repeat constructor]|].
  destruct (Ascii.eqb_spec c "/") as [->|N].
  - split; [|constructor; [exact I|exact IH2]]. cbn [join]. pose proof (slashes_ne r). destruct (slashes r); [congruence|].
    cbn [append]. now rewrite IH1.
  - pose proof (slashes_ne r). destruct (slashes r) as [|x l]; [congruence|]. split.
    + rewrite <- IH1. destruct l; reflexivity.
    + inversion IH2; subst. constructor; [split; assumption|assumption].
Qed.
Print Assumptions C112_path.

Definition c (n : nat) (l : list key) : nat := length (filter (fun k : nat * nat => Nat.eqb (fst k) (2 * n)) l).
Lemma c_app n a b : c n (a ++ b) = c n a + c n b.
Proof. unfold c. rewrite filter_app, app_length. reflexivity. Qed.
Lemma c_cons n x l : c n (x :: l) = (if Nat.eqb (fst x) (2 * n) then 1 else 0) + c n l.
Proof. unfold c. cbn [filter]. destruct (Nat.eqb (fst x) (2 * n)); reflexivity. Qed.
Lemma c_perm n a b : Permutation a b -> c n a = c n b.
Proof. induction 1; rewrite ?c_cons; lia. Qed.
Lemma c_odd n (k : nat * nat) m : fst k = 2 * m + 1 -> Nat.eqb (fst k) (2 * n) = false.
Proof. intros H. apply Nat.eqb_neq. lia. Qed.
Lemma c_in n k l : In k l -> fst k = 2 * n -> 1 <= c n l.
Proof.
  induction l as [|x l IH]; intros H E; [destruct H|]. rewrite c_cons. destruct H as [->|H].
  - rewrite E, Nat.eqb_refl. lia.
  - specialize (IH H E). lia.
Qed.
Definition cl (n : nat) (l : list (nat * response)) : nat := length (filter (fun x : nat * response => Nat.eqb (fst x) n) l).
Lemma cl_app n a b : cl n (a ++ b) = cl n a + cl n b.
Proof. unfold cl. rewrite filter_app, app_length. reflexivity. Qed.
Lemma cl_cons n x l : cl n (x :: l) = (if Nat.eqb (fst x) n then 1 else 0) + cl n l.
Proof. unfold cl. cbn [filter]. destruct (Nat.eqb (fst x) n); reflexivity. Qed.

Lemma handler_even k m : handler_of k = Some m <-> fst k = 2 * m.
Proof.
  unfold handler_of. destruct (Nat.even (fst k)) eqn:E.
  - apply Nat.even_spec in E. destruct E as [x E]. rewrite E, Nat.div2_double. split; [intros [= ->]; reflexivity|intros H; f_equal; lia].
  - split; [discriminate|]. intros H. rewrite H in E. rewrite Nat.even_mul in E. discriminate.
Qed.
Lemma to_loop_count n ev : cl n (to_loop ev) = c n (answered ev) + c n (map fst (updated ev)).
Proof.
  induction ev as [|e ev IH]; [reflexivity|]. unfold to_loop, answered, updated in *. cbn [flat_map].
  rewrite map_app, cl_app, !c_app, IH. destruct e as [k r|]; [|reflexivity].
  assert (H : cl n (match handler_of k with Some m => [(m, r)] | None => [] end) = c n [k]).
  { rewrite c_cons. destruct (handler_of k) as [m|] eqn:E.
    - apply handler_even in E. rewrite cl_cons, E. cbn [fst].
      destruct (Nat.eqb_spec m n) as [->|N]; [now rewrite Nat.eqb_refl|].
      destruct (Nat.eqb_spec (2 * m) (2 * n)); [lia|reflexivity].
    - destruct (Nat.eqb_spec (fst k) (2 * n)) as [G|G]; [|reflexivity]. apply handler_even in G. congruence. }
  rewrite H. destruct r; cbn [map fst app]; change (c n []) with 0; lia.
Qed.
Lemma to_loop_in n r ev : In (n, r) (to_loop ev) -> exists k, In (Answer k r) ev /\ fst k = 2 * n.
Proof.
  unfold to_loop. intros H. apply in_flat_map in H as [e [He H]]. destruct e as [k r'|]; [|destruct H].
  destruct (handler_of k) as [m|] eqn:E; [|destruct H]. destruct H as [[= -> ->]|[]]. apply handler_even in E. eauto.
Qed.

Definition jobs (bs : list (string * st)) : list key := flat_map (fun x => map job_key (r_jobs (snd x))) bs.
Lemma jobs_dset n m s s' bs : dget m bs = Some s ->
  c n (jobs (dset m s' bs)) + c n (map job_key (r_jobs s)) = c n (jobs bs) + c n (map job_key (r_jobs s')).
Proof.
  induction bs as [|[k v] bs IH]; cbn [dget dset]; [discriminate|].
  destruct (String.eqb_spec m k) as [->|N].
  - intros [= ->]. unfold jobs. cbn [flat_map snd]. rewrite !c_app. lia.
  - intros H. specialize (IH H). unfold jobs in *. cbn [flat_map snd]. rewrite !c_app. lia.
Qed.
Lemma dmem_dset m m' s' (bs : list (string * st)) : dmem m bs = true -> dmem m' (dset m s' bs) = dmem m' bs.
Proof.
  intros H. unfold dmem in *. destruct (String.eqb_spec m' m) as [->|N].
  - rewrite dget_dset_same. destruct (dget m bs); [reflexivity|discriminate].
  - rewrite dget_dset_other by congruence. reflexivity.
Qed.

Section Proofs.
Variable read : list (string * field) -> list string -> option pv.
Variable self_mri : string.
Variable bs : list (string * st).
Hypothesis no_jobs : idle bs.
Let after os := rrun read self_mri (start bs) os.
Let to ep := target self_mri (hd EmptyString (slashes ep)).
Lemma after_snoc os o : after (os ++ [o]) = rstep read self_mri (after os) o.
Proof. unfold after, rrun. now rewrite fold_left_app. Qed.

Definition started os ep ps name took f := exists a i b s, os = a ++ Serve i :: b /\
  dget (to ep) (w_blocks (after a)) = Some s /\ post_check s (tl (slashes ep)) ps = Ok (name, took, f).
Definition given os n r := exists a o b m ep s, os = a ++ o :: b /\ nth_error (https a) n = Some (m, ep) /\
  reply_to (after a) n = None /\ dget (to ep) (w_blocks (after a)) = Some s /\
  ((m = GET /\ (exists i, o = Serve i) /\
    r = match read (r_block s) (tl (slashes ep)) with Some v => Return (Some v) | None => Error NoSuchPath end) \/
   (exists ps e, m = POST (Some ps) /\ (exists i, o = Serve i) /\ post_check s (tl (slashes ep)) ps = Err e /\ r = Error e) \/
   (exists ps i e name took f, m = POST (Some ps) /\ o = Other (to ep) (End i e) /\
      nth_error (r_jobs s) i = Some (JPost (key_of n) name took f) /\ started a ep ps name took f /\
      r = snd (post_done s name took f e))).

Lemma https_app a b : https (a ++ b) = https a ++ https b.
Proof. unfold https. apply flat_map_app. Qed.
Lemma nth_more {A} (l l' : list A) n x : nth_error l n = Some x -> nth_error (l ++ l') n = Some x.
Proof. intros H. rewrite nth_error_app1; [exact H|]. apply nth_error_Some. congruence. Qed.
Lemma given_more os o n r : given os n r -> given (os ++ [o]) n r.
Proof. intros (a & x & b & m & ep & s & -> & H). exists a, x, (b ++ [o]), m, ep, s. split; [|exact H]. now rewrite <- app_assoc. Qed.
Lemma started_more os o ep ps x y z : started os ep ps x y z -> started (os ++ [o]) ep ps x y z.
Proof. intros (a & i & b & s & -> & H). exists a, i, (b ++ [o]), s. split; [|exact H]. now rewrite <- app_assoc. Qed.

Definition replied n w := match reply_to w n with Some _ => 1 | None => 0 end.
Definition pend n w := c n (map (fun x => rkey (snd x)) (w_todo w)) + c n (jobs (w_blocks w)) + cl n (w_loop w).
Record inv (os : list rop) (w : world) : Prop := {
  i_len : length (w_handlers w) = length (https os);
  i_dmem : forall m, dmem m (w_blocks w) = dmem m bs;
  i_todo : forall mri r, In (mri, r) (w_todo w) -> exists n m ep, nth_error (https os) n = Some (m, ep) /\
     request_of n m ep = Some r /\ mri = to ep /\ dmem mri bs = true;
  i_jobs : forall mri s j, dget mri (w_blocks w) = Some s -> In j (r_jobs s) ->
     (exists x, fst (job_key j) = 2 * x + 1) \/
     exists n ps ep name took f, j = JPost (key_of n) name took f /\ nth_error (https os) n = Some (POST (Some ps), ep) /\
       mri = to ep /\ started os ep ps name took f;
  i_loop : forall n r, In (n, r) (w_loop w) -> given os n r;
  i_reply : forall n x, reply_to w n = Some x ->
     (exists m ep, nth_error (https os) n = Some (m, ep) /\
        ((m = POST None /\ x = Status500 BadBody) \/ (m <> POST None /\ dmem (to ep) bs = false /\ x = Status500 NoController))) \/
     exists r, given os n r /\ x = handle_response r;
  i_queue : forall h, In h (w_handlers w) -> h_queue h = [];
  i_one : forall n, n < length (w_handlers w) -> pend n w + replied n w = 1;
  i_none : forall n, length (w_handlers w) <= n -> pend n w = 0 }.

Lemma request_key n m ep r : request_of n m ep = Some r -> rkey r = key_of n /\
  ((m = GET /\ r = Get (key_of n) (tl (slashes ep))) \/ (exists ps, m = POST (Some ps) /\ r = Post (key_of n) (tl (slashes ep)) ps)).
Proof. destruct m as [|[ps|]]; cbn; intros [= <-]; split; try reflexivity; eauto. Qed.

(* what a block step does to the counts *)
Lemma block_counts n w m s o s' ev : dget m (w_blocks w) = Some s -> step read s o = (s', ev) ->
  c n (map fst (subscribed [o])) = 0 ->
  c n (jobs (dset m s' (w_blocks w))) + cl n (w_loop w ++ to_loop ev) = c n (asked [o]) + c n (jobs (w_blocks w)) + cl n (w_loop w).
Proof.
  intros D E Z. destruct (step_counts read s o) as [P U]. rewrite E in P, U. cbn [fst snd] in P, U.
  apply (c_perm n) in P. rewrite !c_app in P. rewrite cl_app, to_loop_count, U, Z.
  pose proof (jobs_dset n m s s' (w_blocks w) D). lia.
Qed.

Lemma without_count n i l (x : string * request) : nth_error l i = Some x ->
  c n (map (fun x => rkey (snd x)) l) = c n [rkey (snd x)] + c n (map (fun x => rkey (snd x)) (without i l)).
Proof.
  intros H. pose proof (nth_split' _ _ _ H) as S. rewrite S at 1. unfold without.
  rewrite !map_app. cbn [map]. rewrite !c_app, !c_cons. cbn [c filter length]. unfold c at 4. cbn. lia.
Qed.
Lemma without_in {A} i (l : list A) x : In x (without i l) -> In x l.
Proof.
  unfold without. intros H. apply in_app_or in H as [H|H].
  - rewrite <- (firstn_skipn i l). apply in_or_app. now left.
  - rewrite <- (firstn_skipn (S i) l). apply in_or_app. now right.
Qed.

Lemma reply_snoc w h n b t l : reply_to (mkW b (w_handlers w ++ [h]) t l) n =
  if Nat.eqb n (length (w_handlers w)) then h_reply h else reply_to w n.
Proof.
  unfold reply_to. cbn [w_handlers]. destruct (Nat.eqb_spec n (length (w_handlers w))) as [->|N].
  - rewrite nth_error_app2, Nat.sub_diag by lia. reflexivity.
  - destruct (Nat.lt_ge_cases n (length (w_handlers w))).
    + now rewrite nth_error_app1 by lia.
    + rewrite !(proj2 (nth_error_None _ _)); [reflexivity|lia|rewrite app_length; cbn; lia].
Qed.
Lemma reply_beyond w n : length (w_handlers w) <= n -> reply_to w n = None.
Proof. intros H. unfold reply_to. now rewrite (proj2 (nth_error_None _ _) H). Qed.

Lemma waiting os w n : inv os w -> 1 <= pend n w -> reply_to w n = None.
Proof.
  intros V H. destruct (Nat.lt_ge_cases n (length (w_handlers w))) as [L|L].
  - pose proof (i_one _ _ V n L) as O. unfold replied in O. destruct (reply_to w n); [lia|reflexivity].
  - pose proof (i_none _ _ V n L). lia.
Qed.

(* the events of a block step that are for a handler *)
Lemma jobs_in n m s (j : job) b : dget m b = Some s -> In j (r_jobs s) -> fst (job_key j) = 2 * n -> 1 <= c n (jobs b).
Proof.
  intros D J E. apply c_in with (k := job_key j); [|exact E]. unfold jobs. apply in_flat_map. exists (m, s). split; [now apply dget_Some_In|].
  cbn [snd]. now apply in_map.
Qed.

Lemma at_block_inv os o w todo m bo : inv os w -> w = after os -> https [o] = [] ->
  (forall n, c n (map fst (subscribed [bo])) = 0) ->
  (forall n, c n (map (fun x => rkey (snd x)) (w_todo w)) = c n (asked [bo]) + c n (map (fun x => rkey (snd x)) todo)) ->
  (forall x, In x todo -> In x (w_todo w)) ->
  ((exists i r n meth ep, o = Serve i /\ bo = Handle r /\ In (m, r) (w_todo w) /\ nth_error (https os) n = Some (meth, ep) /\
      request_of n meth ep = Some r /\ m = to ep) \/ (o = Other m bo /\ others_own o)) ->
  dmem m (w_blocks w) = true ->
  inv (os ++ [o]) (at_block read w todo m bo).
Proof.
  intros V Ew Ho Hs Hc Ht Hcase Hm. unfold at_block. destruct (dget m (w_blocks w)) as [s|] eqn:D; [|unfold dmem in Hm; rewrite D in Hm; discriminate].
  destruct (step read s bo) as [s' ev] eqn:E.
  assert (HT : https (os ++ [o]) = https os) by (rewrite https_app, Ho, app_nil_r; reflexivity).
  constructor; cbn [w_handlers w_blocks w_todo w_loop].
  - rewrite HT. apply (i_len _ _ V).
  - intros k. rewrite dmem_dset by exact Hm. apply (i_dmem _ _ V).
  - intros mri r H. rewrite HT. apply (i_todo _ _ V). now apply Ht.
  - intros mri sx j G J. rewrite HT.
    destruct (String.eqb_spec mri m) as [->|N].
    2:{ rewrite dget_dset_other in G by congruence. destruct (i_jobs _ _ V _ _ _ G J) as [X|(n & ps & ep & nm & tk & f & A & B & C & F)]; [now left|].
        right. exists n, ps, ep, nm, tk, f. repeat (split; [assumption|]). now apply started_more. }
    rewrite dget_dset_same in G. injection G as <-.
    assert (OLD : In j (r_jobs s) -> (exists x, fst (job_key j) = 2 * x + 1) \/
      exists n ps ep name took f, j = JPost (key_of n) name took f /\ nth_error (https os) n = Some (POST (Some ps), ep) /\
       m = to ep /\ started (os ++ [o]) ep ps name took f).
    { intros J'. destruct (i_jobs _ _ V _ _ _ D J') as [X|(n & ps & ep & nm & tk & f & A & B & C & F)]; [now left|].
      right. exists n, ps, ep, nm, tk, f. repeat (split; [assumption|]). now apply started_more. }
    destruct Hcase as [(i & r & n & meth & ep & -> & -> & In0 & Hn & Hr & Hm')|[-> Own]].
    + destruct (request_key _ _ _ _ Hr) as [_ [[-> ->]|[ps [-> ->]]]]; cbn [step] in E.
      * destruct (read (r_block s) (tl (slashes ep))); injection E as <- _; now apply OLD.
      * destruct (post_check s (tl (slashes ep)) ps) as [[[nm tk] f]|e] eqn:PC; injection E as <- _; [|now apply OLD].
        cbn [r_jobs] in J. apply in_app_or in J as [J|[<-|[]]]; [now apply OLD|]. right.
        exists n, ps, ep, nm, tk, f. split; [reflexivity|]. split; [exact Hn|]. split; [exact Hm'|].
        exists os, i, [], s. split; [reflexivity|]. rewrite <- Hm', <- Ew. split; assumption.
    + destruct bo as [[k p|k p v g|k p ps|k p d|k]|i e|b fs]; cbn [step] in E; cbn in Own.
      * destruct (read (r_block s) p); injection E as <- _; now apply OLD.
      * destruct (put_check s p v) as [[nm x]|e]; injection E as <- _; [|now apply OLD].
        cbn [r_jobs] in J. apply in_app_or in J as [J|[<-|[]]]; [now apply OLD|]. left. exact Own.
      * destruct (post_check s p ps) as [[[nm tk] f]|e]; injection E as <- _; [|now apply OLD].
        cbn [r_jobs] in J. apply in_app_or in J as [J|[<-|[]]]; [now apply OLD|]. left. exact Own.
      * injection E as <- _. now apply OLD.
      * destruct (existsb (key_eqb k) (r_subs s)); injection E as <- _; now apply OLD.
      * destruct (nth_error (r_jobs s) i) as [[k nm g|k nm tk f]|]; [|  |injection E as <- _; now apply OLD].
        -- injection E as <- _. cbn [r_jobs] in J. apply OLD. now apply without_in in J.
        -- destruct (post_done s nm tk f e) as [b r]. injection E as <- _. cbn [r_jobs] in J. apply OLD. now apply without_in in J.
      * injection E as <- _. now apply OLD.
  - intros n r H. apply in_app_or in H as [H|H]; [apply given_more, (i_loop _ _ V), H|].
    apply to_loop_in in H as [k [Hk Ek]].
    destruct Hcase as [(i & rq & n' & meth & ep & -> & -> & In0 & Hn & Hr & Hm')|[-> Own]].
    + assert (W : n = n' -> reply_to (after os) n = None).
      { intros ->. rewrite <- Ew. apply (waiting os w n' V). unfold pend.
        assert (1 <= c n' (map (fun x => rkey (snd x)) (w_todo w))); [|lia].
        apply c_in with (k := key_of n'); [|reflexivity]. apply in_map_iff. exists (m, rq). split; [|exact In0]. apply (request_key _ _ _ _ Hr). }
      destruct (request_key _ _ _ _ Hr) as [_ [[-> ->]|[ps [-> ->]]]]; cbn [step] in E.
      * assert (K : k = key_of n' /\ r = match read (r_block s) (tl (slashes ep)) with Some v => Return (Some v) | None => Error NoSuchPath end).
        { destruct (read (r_block s) (tl (slashes ep))); injection E as _ <-; destruct Hk as [[= <- <-]|[]]; auto. }
        destruct K as [-> ->]. cbn [key_of fst] in Ek. assert (n = n') as -> by lia.
        exists os, (Serve i), [], GET, ep, s. split; [reflexivity|]. split; [exact Hn|]. split; [now apply W|].
        split; [now rewrite <- Hm', <- Ew|]. left. split; [reflexivity|]. split; [eauto|reflexivity].
      * destruct (post_check s (tl (slashes ep)) ps) as [[[nm tk] f]|e] eqn:PC; injection E as _ <-; destruct Hk as [Hk|[]]; [discriminate|].
        injection Hk as <- <-. cbn [key_of fst] in Ek. assert (n = n') as -> by lia.
        exists os, (Serve i), [], (POST (Some ps)), ep, s. split; [reflexivity|]. split; [exact Hn|]. split; [now apply W|].
        split; [now rewrite <- Hm', <- Ew|]. right. left. exists ps, e. repeat (split; [reflexivity || eauto|]). reflexivity.
    +
      assert (OLD : forall j i e, bo = End i e -> nth_error (r_jobs s) i = Some j -> fst (job_key j) = 2 * n -> ev = [Answer k r] ->
                (forall k0 nm tk f, j = JPost k0 nm tk f -> r = snd (post_done s nm tk f e)) -> given (os ++ [Other m bo]) n r).
      { intros j i e -> Nj Fj Ev Rj. pose proof (nth_error_In _ _ Nj) as J.
        destruct (i_jobs _ _ V _ _ _ D J) as [[x X]|(n1 & ps & ep & nm & tk & f & A & B & C & F)]; [lia|].
        subst j. cbn [job_key key_of fst] in Fj. assert (n1 = n) as -> by lia.
        exists os, (Other m (End i e)), [], (POST (Some ps)), ep, s. split; [reflexivity|]. split; [exact B|]. split.
        - rewrite <- Ew. apply (waiting os w n V). unfold pend. pose proof (jobs_in n m s _ _ D J eq_refl). lia.
        - split; [now rewrite <- C, <- Ew|]. right. right. exists ps, i, e, nm, tk, f. split; [reflexivity|]. split; [now rewrite <- C|].
          split; [exact Nj|]. split; [exact F|]. now apply (Rj (key_of n)). }
      destruct bo as [[k0 p|k0 p v g|k0 p ps|k0 p d|k0]|i e|b fs]; cbn [step] in E; cbn in Own.
      * destruct Own as [x X]. destruct (read (r_block s) p); injection E as _ <-; destruct Hk as [[= -> _]|[]]; lia.
      * destruct Own as [x X]. destruct (put_check s p v) as [[nm y]|e]; injection E as _ <-; destruct Hk as [Hk|[]]; [discriminate|]. injection Hk as -> _. lia.
      * destruct Own as [x X]. destruct (post_check s p ps) as [[[nm y] z]|e]; injection E as _ <-; destruct Hk as [Hk|[]]; [discriminate|]. injection Hk as -> _. lia.
      * destruct Own as [x X]. injection E as _ <-. destruct Hk as [Hk|[]]. injection Hk as -> _. lia.
      * destruct Own as [x X]. destruct (existsb (key_eqb k0) (r_subs s)); injection E as _ <-; destruct Hk as [Hk|[]]; injection Hk as -> _; lia.
      * destruct (nth_error (r_jobs s) i) as [j|] eqn:Nj; [|injection E as _ <-; destruct Hk].
        destruct j as [k1 nm g|k1 nm tk f].
        -- injection E as _ <-. destruct Hk as [Hk|[]]. injection Hk as -> <-. eapply (OLD (JPut k nm g)); eauto. intros; discriminate.
        -- destruct (post_done s nm tk f e) as [b r0] eqn:PD. injection E as _ <-. destruct Hk as [Hk|[]]. injection Hk as -> <-.
           eapply (OLD (JPost k nm tk f)); eauto. intros k2 nm2 tk2 f2 [= <- <- <- <-]. now rewrite PD.
      * injection E as _ <-. destruct Hk.
  - intros n x H. change (reply_to w n = Some x) in H. rewrite HT. destruct (i_reply _ _ V n x H) as [X|[r [G ->]]]; [now left|].
    right. exists r. split; [now apply given_more|reflexivity].
  - apply (i_queue _ _ V).
  - intros n L. pose proof (i_one _ _ V n L) as O. pose proof (block_counts n w m s bo s' ev D E (Hs n)) as B.
    specialize (Hc n). unfold pend, replied in *. cbn [w_todo w_blocks w_loop]. change (reply_to (mkW _ (w_handlers w) _ _) n) with (reply_to w n). lia.
  - intros n L. pose proof (i_none _ _ V n L) as O. pose proof (block_counts n w m s bo s' ev D E (Hs n)) as B.
    specialize (Hc n). unfold pend in *. cbn [w_todo w_blocks w_loop]. lia.
Qed.

Lemma at_nth_nth {A} n (f : A -> A) l k : nth_error (at_nth n f l) k =
  if Nat.eqb k n then option_map f (nth_error l k) else nth_error l k.
Proof.
  revert n k. induction l as [|x l IH]; intros [|n] [|k]; cbn; try reflexivity; try apply IH.
  - destruct (Nat.eqb k n); reflexivity.
Qed.
Lemma at_nth_length {A} n (f : A -> A) l : length (at_nth n f l) = length l.
Proof. revert n. induction l as [|x l IH]; intros [|n]; cbn; auto. Qed.

Lemma inv_same os o w : inv os w -> https [o] = [] -> inv (os ++ [o]) w.
Proof.
  intros V Ho. assert (HT : https (os ++ [o]) = https os) by (rewrite https_app, Ho; apply app_nil_r).
  constructor.
  - rewrite HT. apply (i_len _ _ V).
  - apply (i_dmem _ _ V).
  - rewrite HT. apply (i_todo _ _ V).
  - intros mri s j D J. rewrite HT. destruct (i_jobs _ _ V _ _ _ D J) as [X|(n & ps & ep' & nm & tk & f & A & B & C & G)]; [now left|].
    right. exists n, ps, ep', nm, tk, f. repeat (split; [assumption|]). now apply started_more.
  - intros n r H. apply given_more, (i_loop _ _ V), H.
  - intros n y H. rewrite HT. destruct (i_reply _ _ V n y H) as [X|[r' [G ->]]]; [now left|]. right. exists r'. split; [now apply given_more|reflexivity].
  - apply (i_queue _ _ V).
  - apply (i_one _ _ V).
  - apply (i_none _ _ V).
Qed.

Lemma all_inv os : Forall others_own os -> inv os (after os).
Proof.
  induction os as [|o os V] using rev_ind; intros F.
  - assert (J0 : jobs bs = []).
    { unfold jobs. unfold idle in no_jobs. clear after to. induction bs as [|[k v] l IH]; [reflexivity|]. cbn [flat_map snd].
      rewrite (no_jobs k v) by now left. cbn [map app]. apply IH. intros; eapply no_jobs; right; eauto. }
    unfold after, rrun, start. cbn [fold_left]. constructor; cbn [w_handlers w_blocks w_todo w_loop]; try reflexivity; try (intros; contradiction).
    + intros m s j D J. rewrite (no_jobs m s) in J by now apply dget_Some_In. destruct J.
    + intros n x H. unfold reply_to in H. cbn in H. destruct n; discriminate.
    + intros n L. cbn in L. lia.
    + intros n _. unfold pend. cbn [w_todo w_blocks w_loop map]. rewrite J0. reflexivity.
  - apply Forall_app in F as [F Fo]. specialize (V F). inversion Fo as [|? ? Own _]; subst.
    rewrite after_snoc. set (w := after os) in *. assert (Ew : w = after os) by reflexivity. clearbody w.
    destruct o as [m ep|i|mri bo|].
    + (* a request arrives *)
      assert (HT : https (os ++ [HTTP m ep]) = https os ++ [(m, ep)]) by now rewrite https_app.
      assert (HN : nth_error (https os ++ [(m, ep)]) (length (w_handlers w)) = Some (m, ep)).
      { rewrite (i_len _ _ V), nth_error_app2, Nat.sub_diag by lia. reflexivity. }
      assert (FAIL : forall x, ((m = POST None /\ x = BadBody) \/ (m <> POST None /\ dmem (to ep) bs = false /\ x = NoController)) ->
        inv (os ++ [HTTP m ep]) (mkW (w_blocks w) (w_handlers w ++ [mkHandler [] (Some (Status500 x))]) (w_todo w) (w_loop w))).
      { intros x Hx. constructor; cbn [w_handlers w_blocks w_todo w_loop].
        - rewrite HT, !app_length, (i_len _ _ V). reflexivity.
        - apply (i_dmem _ _ V).
        - intros mri r H. destruct (i_todo _ _ V _ _ H) as (n & m' & ep' & A & B). exists n, m', ep'. split; [|exact B]. rewrite HT. now apply nth_more.
        - intros mri s j D J. destruct (i_jobs _ _ V _ _ _ D J) as [X|(n & ps & ep' & nm & tk & f & A & B & C & G)]; [now left|].
          right. exists n, ps, ep', nm, tk, f. split; [exact A|]. split; [rewrite HT; now apply nth_more|]. split; [exact C|now apply started_more].
        - intros n r H. apply given_more, (i_loop _ _ V), H.
        - intros n y H. rewrite reply_snoc in H. rewrite HT. destruct (Nat.eqb_spec n (length (w_handlers w))) as [->|N].
          + injection H as <-. left. exists m, ep. split; [exact HN|]. destruct Hx as [[A ->]|(A & B & ->)]; auto.
          + destruct (i_reply _ _ V n y H) as [(m' & ep' & A & B)|[r [G ->]]].
            * left. exists m', ep'. split; [now apply nth_more|exact B].
            * right. exists r. split; [now apply given_more|reflexivity].
        - intros h H. apply in_app_or in H as [H|[<-|[]]]; [now apply (i_queue _ _ V)|reflexivity].
        - intros n L. rewrite app_length in L. cbn [length] in L. unfold replied. rewrite reply_snoc.
          destruct (Nat.eqb_spec n (length (w_handlers w))) as [->|N].
          + cbn [h_reply]. pose proof (i_none _ _ V (length (w_handlers w)) (le_n _)) as Z. unfold pend in *. cbn [w_todo w_blocks w_loop]. lia.
          + apply (i_one _ _ V n). lia.
        - intros n L. rewrite app_length in L. cbn [length] in L. apply (i_none _ _ V n). lia. }
      cbn [rstep]. destruct (request_of (length (w_handlers w)) m ep) as [r|] eqn:Er.
      2:{ apply FAIL. left. destruct m as [|[ps|]]; try discriminate. auto. }
      destruct (dmem (target self_mri (hd EmptyString (slashes ep))) (w_blocks w)) eqn:Dm.
      2:{ apply FAIL. right. split; [intros ->; discriminate|]. split; [|reflexivity]. rewrite <- (i_dmem _ _ V). exact Dm. }
      constructor; cbn [w_handlers w_blocks w_todo w_loop].
      * rewrite HT, !app_length, (i_len _ _ V). reflexivity.
      * apply (i_dmem _ _ V).
      * intros mri r' H. apply in_app_or in H as [H|[[= <- <-]|[]]].
        -- destruct (i_todo _ _ V _ _ H) as (n & m' & ep' & A & B). exists n, m', ep'. split; [|exact B]. rewrite HT. now apply nth_more.
        -- exists (length (w_handlers w)), m, ep. split; [now rewrite HT|]. split; [exact Er|]. split; [reflexivity|]. rewrite <- (i_dmem _ _ V). exact Dm.
      * intros mri s j D J. destruct (i_jobs _ _ V _ _ _ D J) as [X|(n & ps & ep' & nm & tk & f & A & B & C & G)]; [now left|].
        right. exists n, ps, ep', nm, tk, f. split; [exact A|]. split; [rewrite HT; now apply nth_more|]. split; [exact C|now apply started_more].
      * intros n r' H. apply given_more, (i_loop _ _ V), H.
      * intros n y H. rewrite reply_snoc in H. rewrite HT. destruct (Nat.eqb_spec n (length (w_handlers w))) as [->|N]; [discriminate|].
        destruct (i_reply _ _ V n y H) as [(m' & ep' & A & B)|[r' [G ->]]].
        -- left. exists m', ep'. split; [now apply nth_more|exact B].
        -- right. exists r'. split; [now apply given_more|reflexivity].
      * intros h H. apply in_app_or in H as [H|[<-|[]]]; [now apply (i_queue _ _ V)|reflexivity].
      * intros n L. rewrite app_length in L. cbn [length] in L. unfold replied. rewrite reply_snoc. unfold pend. cbn [w_todo w_blocks w_loop].
        rewrite map_app, c_app. cbn [map snd]. rewrite c_cons. destruct (request_key _ _ _ _ Er) as [-> _]. cbn [key_of fst].
        change (c n []) with 0. destruct (Nat.eqb_spec n (length (w_handlers w))) as [->|N].
        -- rewrite Nat.eqb_refl. cbn [h_reply]. pose proof (i_none _ _ V (length (w_handlers w)) (le_n _)) as Z. unfold pend in Z. lia.
        -- destruct (Nat.eqb_spec (2 * length (w_handlers w)) (2 * n)); [lia|].
           assert (L' : n < length (w_handlers w)) by lia. pose proof (i_one _ _ V n L') as O. unfold pend, replied in O. lia.
      * intros n L. rewrite app_length in L. cbn [length] in L. unfold pend. cbn [w_todo w_blocks w_loop].
        rewrite map_app, c_app. cbn [map snd]. rewrite c_cons. destruct (request_key _ _ _ _ Er) as [-> _]. cbn [key_of fst].
        change (c n []) with 0. destruct (Nat.eqb_spec (2 * length (w_handlers w)) (2 * n)); [lia|].
        assert (L' : length (w_handlers w) <= n) by lia. pose proof (i_none _ _ V n L') as O. unfold pend in O. lia.
    + (* a request gets to its controller *)
      assert (SAME : inv (os ++ [Serve i]) w).
      { now apply inv_same. }
      cbn [rstep]. destruct (nth_error (w_todo w) i) as [[mri r]|] eqn:Nt; [|exact SAME].
      pose proof (nth_error_In _ _ Nt) as In0. destruct (i_todo _ _ V _ _ In0) as (n & m & ep & A & B & C & _).
      destruct (dmem mri (w_blocks w)) eqn:Dm.
      2:{ unfold at_block. unfold dmem in Dm. destruct (dget mri (w_blocks w)); [discriminate|exact SAME]. }
      destruct (request_key _ _ _ _ B) as [Kr Cr].
      apply at_block_inv; auto.
      * intros k. destruct Cr as [[_ ->]|[ps [_ ->]]]; reflexivity.
      * intros k. rewrite (without_count k i _ _ Nt). cbn [snd]. destruct Cr as [[_ ->]|[ps [_ ->]]]; reflexivity.
      * intros x. apply without_in.
      * left. exists i, r, n, m, ep. repeat (split; [reflexivity || assumption|]). assumption.
    + (* something else *)
      cbn [rstep]. destruct (dmem mri (w_blocks w)) eqn:Dm.
      * apply at_block_inv; auto.
        -- intros n. destruct bo as [[k p|k p v g|k p ps|k p d|k]|i e|b fs]; try reflexivity. cbn in Own. destruct Own as [x X].
           cbn [subscribed flat_map app map fst]. rewrite c_cons, (c_odd n k x X). reflexivity.
        -- intros n. assert (c n (asked [bo]) = 0) as ->; [|reflexivity].
           destruct bo as [[k p|k p v g|k p ps|k p d|k]|i e|b fs]; try reflexivity; cbn in Own; destruct Own as [x X];
             cbn [asked flat_map app]; rewrite c_cons, (c_odd n k x X); reflexivity.
      * unfold at_block. unfold dmem in Dm. destruct (dget mri (w_blocks w)); [discriminate|].
        now apply inv_same.
    + (* the loop does the next thing *)
      assert (HT : https (os ++ [Loop]) = https os) by (rewrite https_app; apply app_nil_r).
      cbn [rstep]. destruct (w_loop w) as [|[n r] l] eqn:El.
      * now apply inv_same.
      * assert (Pn : 1 <= pend n w).
        { unfold pend. rewrite El, cl_cons. cbn [fst]. rewrite Nat.eqb_refl. lia. }
        assert (Ln : n < length (w_handlers w)).
        { destruct (Nat.lt_ge_cases n (length (w_handlers w))) as [L|L]; [exact L|]. pose proof (i_none _ _ V n L). lia. }
        pose proof (waiting os w n V Pn) as Wn.
        assert (RT : forall k, reply_to (mkW (w_blocks w) (at_nth n (fun h => put_queue h r) (w_handlers w)) (w_todo w) l) k =
                   if Nat.eqb k n then Some (handle_response r) else reply_to w k).
        { intros k. unfold reply_to. cbn [w_handlers]. rewrite at_nth_nth. destruct (Nat.eqb_spec k n) as [->|N]; [|reflexivity].
          unfold reply_to in Wn. destruct (nth_error (w_handlers w) n) as [h|] eqn:Hh; [|apply nth_error_None in Hh; lia].
          cbn [option_map]. unfold put_queue. rewrite Wn. reflexivity. }
        constructor; cbn [w_handlers w_blocks w_todo w_loop].
        -- rewrite HT, at_nth_length. apply (i_len _ _ V).
        -- apply (i_dmem _ _ V).
        -- rewrite HT. apply (i_todo _ _ V).
        -- intros mri' s j D J. rewrite HT. destruct (i_jobs _ _ V _ _ _ D J) as [X|(n' & ps & ep' & nm & tk & f & A & B & C & G)]; [now left|].
           right. exists n', ps, ep', nm, tk, f. repeat (split; [assumption|]). now apply started_more.
        -- intros n' r' H. apply given_more, (i_loop _ _ V). rewrite El. now right.
        -- intros n' y H. rewrite HT. rewrite RT in H. destruct (Nat.eqb_spec n' n) as [->|N].
           ++ injection H as <-. right. exists r. split; [|reflexivity]. apply given_more, (i_loop _ _ V). rewrite El. now left.
           ++ destruct (i_reply _ _ V n' y H) as [X|[r' [G ->]]]; [now left|]. right. exists r'. split; [now apply given_more|reflexivity].
        -- intros h H0. destruct (In_nth_error _ _ H0) as [k0 H]. clear H0. rewrite at_nth_nth in H. destruct (Nat.eqb_spec k0 n) as [E0|N]; [subst k0|].
           ++ unfold reply_to in Wn. destruct (nth_error (w_handlers w) n) as [h0|] eqn:Hh; [|discriminate]. cbn [option_map] in H. injection H as <-.
              unfold put_queue. rewrite Wn. cbn [h_queue]. apply (i_queue _ _ V). eapply nth_error_In; eauto.
           ++ apply (i_queue _ _ V). eapply nth_error_In; eauto.
        -- intros k L. rewrite at_nth_length in L. pose proof (i_one _ _ V k L) as O. unfold replied in *. rewrite RT.
           unfold pend in *. cbn [w_todo w_blocks w_loop]. rewrite El, cl_cons in O. cbn [fst] in O.
           destruct (Nat.eqb_spec k n) as [->|N].
           ++ rewrite Nat.eqb_refl in O. rewrite Wn in O. lia.
           ++ destruct (Nat.eqb_spec n k); [congruence|]. lia.
        -- intros k L. rewrite at_nth_length in L. pose proof (i_none _ _ V k L) as O.
           unfold pend in *. cbn [w_todo w_blocks w_loop]. rewrite El, cl_cons in O. lia.
Qed.
End Proofs.

(* Every HTTP request is in one place: not yet at its controller, its function running, its
   response waiting for the loop, or replied to; and no response is ever left over unread *)
Theorem C112_one_reply : forall read self_mri bs os n, idle bs -> Forall others_own os -> n < length (https os) ->
  let w := rrun read self_mri (start bs) os in
  length (filter (fun x => Nat.eqb (fst (rkey (snd x))) (2 * n)) (w_todo w)) +
  length (filter (fun k => Nat.eqb (fst k) (2 * n)) (flat_map (fun b => map job_key (r_jobs (snd b))) (w_blocks w))) +
  length (filter (fun x => Nat.eqb (fst x) n) (w_loop w)) +
  (match reply_to w n with Some _ => 1 | None => 0 end) = 1 /\
  exists h, nth_error (w_handlers w) n = Some h /\ h_queue h = [].
Proof.
  intros read self_mri bs os n Hb F L w. assert (V : inv read self_mri bs os w) by exact (all_inv read self_mri bs Hb os F).
  rewrite <- (i_len _ _ _ _ _ V) in L. split.
  - pose proof (i_one _ _ _ _ _ V n L) as O. unfold pend, replied, c, cl, jobs in O.
    assert (X : forall l : list (string * request), length (filter (fun k : nat * nat => Nat.eqb (fst k) (2 * n)) (map (fun x => rkey (snd x)) l)) =
              length (filter (fun x => Nat.eqb (fst (rkey (snd x))) (2 * n)) l)).
    { induction l as [|x l IH]; [reflexivity|]. cbn [map filter]. destruct (Nat.eqb (fst (rkey (snd x))) (2 * n)); cbn [length]; now rewrite IH. }
    rewrite X in O. exact O.
  - destruct (nth_error (w_handlers w) n) as [h|] eqn:E; [|apply nth_error_None in E; lia].
    exists h. split; [reflexivity|]. apply (i_queue _ _ _ _ _ V). eapply nth_error_In; eauto.
Qed.
Print Assumptions C112_one_reply.

(* So once nothing is on its way, no function is running and the loop has nothing to do, every
   HTTP request has been replied to *)
Theorem C112_all_replied : forall read self_mri bs os n, idle bs -> Forall others_own os -> n < length (https os) ->
  let w := rrun read self_mri (start bs) os in
  w_todo w = [] -> w_loop w = [] -> (forall m s, In (m, s) (w_blocks w) -> r_jobs s = []) ->
  exists x, reply_to w n = Some x.
Proof.
  intros read self_mri bs os n Hb F L w T P J. destruct (C112_one_reply read self_mri bs os n Hb F L) as [O _]. fold w in O.
  rewrite T, P in O. assert (Z : flat_map (fun b => map job_key (r_jobs (snd b))) (w_blocks w) = []).
  { clear - J. induction (w_blocks w) as [|[k s] l IH]; [reflexivity|]. cbn [flat_map snd].
    rewrite (J k s (or_introl eq_refl)). apply IH. intros m s0 H. apply (J m s0). now right. }
  rewrite Z in O. cbn in O. destruct (reply_to w n) as [x|]; [eauto|discriminate].
Qed.
Print Assumptions C112_all_replied.

(* ... and that can always be reached: whatever the history, the requests on their way being
   served, the functions running returning and the loop going on is enough for every HTTP request
   to be replied to *)
Definition jlen (b : list (string * st)) : nat := length (jobs b).
Lemma jlen_dset m s s' b : dget m b = Some s -> jlen (dset m s' b) + length (r_jobs s) = jlen b + length (r_jobs s').
Proof.
  unfold jlen, jobs. induction b as [|[k v] b IH]; cbn [dget dset]; [discriminate|].
  destruct (String.eqb_spec m k) as [->|N].
  - intros [= ->]. cbn [flat_map snd]. rewrite !app_length, !map_length. lia.
  - intros H. specialize (IH H). cbn [flat_map snd]. rewrite !app_length. lia.
Qed.
Lemma to_loop_length ev : length (to_loop ev) <= length (answered ev) + length (updated ev).
Proof.
  induction ev as [|e ev IH]; [cbn; lia|]. unfold to_loop, answered, updated in *. cbn [flat_map]. rewrite !app_length.
  destruct e as [k r|]; [|cbn; lia]. destruct (handler_of k); destruct r; cbn [length]; lia.
Qed.
Lemma block_len read s o : length (to_loop (snd (step read s o))) + length (r_jobs (fst (step read s o))) <=
  length (asked [o]) + length (subscribed [o]) + length (r_jobs s).
Proof.
  destruct (step_counts read s o) as [P U]. apply Permutation_length in P. rewrite !app_length, !map_length in P.
  pose proof (to_loop_length (snd (step read s o))). rewrite U in H. lia.
Qed.
Lemma nodup_blocks read self_mri bs os : NoDup (dkeys bs) -> NoDup (dkeys (w_blocks (rrun read self_mri (start bs) os))).
Proof.
  intros N. induction os as [|o os IH] using rev_ind; [exact N|]. unfold rrun in *. rewrite fold_left_app. cbn [fold_left].
  set (w := fold_left _ os _) in *. clearbody w.
  assert (B : forall t m bo, NoDup (dkeys (w_blocks (at_block read w t m bo)))).
  { intros t m bo. unfold at_block. destruct (dget m (w_blocks w)); [|exact IH]. destruct (step read s bo). cbn [w_blocks]. now apply dset_nodup. }
  destruct o as [m ep|i|m bo|]; cbn [rstep].
  - destruct (request_of _ m ep); [|exact IH]. destruct (dmem _ (w_blocks w)); exact IH.
  - destruct (nth_error (w_todo w) i) as [[m r]|]; [apply B|exact IH].
  - apply B.
  - destruct (w_loop w) as [|[n r] l]; exact IH.
Qed.
(* what is left to be done by others than the clients *)
Definition goes_on (o : rop) : Prop :=
  match o with Serve _ | Loop => True | Other _ (End _ (FReturn _)) => True | _ => False end.
Theorem C112_can_finish : forall read self_mri bs os, idle bs -> NoDup (dkeys bs) -> Forall others_own os ->
  exists more, Forall goes_on more /\ forall n, n < length (https os) -> exists x, reply_to (rrun read self_mri (start bs) (os ++ more)) n = Some x.
Proof.
  intros read self_mri bs os Hb Nb F.
  remember (S (3 * length (w_todo (rrun read self_mri (start bs) os)) + 2 * jlen (w_blocks (rrun read self_mri (start bs) os)) +
            length (w_loop (rrun read self_mri (start bs) os)))) as k eqn:Ek.
  assert (Lk : 3 * length (w_todo (rrun read self_mri (start bs) os)) + 2 * jlen (w_blocks (rrun read self_mri (start bs) os)) +
            length (w_loop (rrun read self_mri (start bs) os)) < k) by lia. clear Ek.
  revert os F Lk. induction k as [|k IH]; intros os F Lk; [lia|].
  assert (V : inv read self_mri bs os (rrun read self_mri (start bs) os)) by exact (all_inv read self_mri bs Hb os F).
  pose proof (nodup_blocks read self_mri bs os Nb) as ND.
  assert (STEP : forall o, goes_on o -> https [o] = [] ->
     (let w' := rstep read self_mri (rrun read self_mri (start bs) os) o in
      3 * length (w_todo w') + 2 * jlen (w_blocks w') + length (w_loop w') < k) ->
     exists more, Forall goes_on more /\ forall n, n < length (https os) -> exists x, reply_to (rrun read self_mri (start bs) (os ++ more)) n = Some x).
  { intros o G Ho L. assert (E : rrun read self_mri (start bs) (os ++ [o]) = rstep read self_mri (rrun read self_mri (start bs) os) o).
    { unfold rrun. now rewrite fold_left_app. }
    destruct (IH (os ++ [o])) as (more & M1 & M2).
    - apply Forall_app. split; [exact F|]. constructor; [|constructor]. destruct o as [| |m [[]|i [v|z]|b fs]|]; try exact I; destruct G.
    - rewrite E. exact L.
    - exists (o :: more). split; [now constructor|]. intros n Ln. specialize (M2 n). rewrite https_app, Ho, app_nil_r in M2.
      rewrite <- app_assoc in M2. now apply M2. }
  remember (rrun read self_mri (start bs) os) as w eqn:Ew.
  destruct (w_loop w) as [|[n r] l] eqn:El.
  - destruct (w_todo w) as [|[m r] t] eqn:Et.
    + destruct (jobs (w_blocks w)) as [|k0 ks] eqn:Ej.
      * exists []. split; [constructor|]. intros n Ln. rewrite app_nil_r.
        rewrite Ew in *. apply (C112_all_replied read self_mri bs os n Hb F Ln); auto. intros m s Hs. destruct (r_jobs s) as [|j js] eqn:E; [reflexivity|]. exfalso.
        assert (X : In (job_key j) (jobs (w_blocks (rrun read self_mri (start bs) os)))).
        { unfold jobs. apply in_flat_map. exists (m, s). split; [exact Hs|]. cbn [snd]. rewrite E. now left. }
        rewrite Ej in X. destruct X.
      * assert (X : In k0 (jobs (w_blocks w))) by (rewrite Ej; now left). unfold jobs in X. apply in_flat_map in X as [[m s] [Hs X]]. cbn [snd] in X.
        apply (dget_In_nodup _ _ _ ND) in Hs. destruct (r_jobs s) as [|j js] eqn:Es; [destruct X|].
        apply (STEP (Other m (End 0 (FReturn None)))); [exact I|reflexivity|]. cbn zeta. cbn [rstep]. unfold at_block. rewrite Hs.
        pose proof (block_len read s (End 0 (FReturn None))) as BL.
        assert (JL : length (r_jobs (fst (step read s (End 0 (FReturn None))))) = length js).
        { cbn [step]. rewrite Es. cbn [nth_error]. destruct j as [k1 nm g|k1 nm tk f]; [reflexivity|]. destruct (post_done s nm tk f (FReturn None)). reflexivity. }
        destruct (step read s (End 0 (FReturn None))) as [s' ev] eqn:E. cbn [fst snd] in *. cbn [w_todo w_blocks w_loop].
        pose proof (jlen_dset m s s' (w_blocks w) Hs) as JD. rewrite El, Et in *. cbn [asked subscribed flat_map app length] in *.
        rewrite Es in BL, JD. cbn [length] in BL, JD. lia.
    + destruct (i_todo _ _ _ _ _ V m r) as (n & mt & ep & A & B & C & D); [rewrite Et; now left|].
      apply (STEP (Serve 0)); [exact I|reflexivity|]. cbn zeta. cbn [rstep]. rewrite Et. cbn [nth_error]. unfold at_block.
      rewrite <- (i_dmem _ _ _ _ _ V) in D. unfold dmem in D. destruct (dget m (w_blocks w)) as [s|] eqn:Hs; [|discriminate].
      pose proof (block_len read s (Handle r)) as BL. destruct (step read s (Handle r)) as [s' ev] eqn:E. cbn [fst snd] in *. cbn [w_todo w_blocks w_loop].
      pose proof (jlen_dset m s s' (w_blocks w) Hs) as JD. rewrite El in *. unfold without. cbn [firstn skipn app length] in *.
      destruct (request_key _ _ _ _ B) as [_ [[_ ->]|[ps [_ ->]]]]; cbn [asked subscribed flat_map app length] in BL; lia.
  - apply (STEP Loop); [exact I|reflexivity|]. cbn zeta. cbn [rstep]. rewrite El. cbn [w_todo w_blocks w_loop length] in *. lia.
Qed.
Print Assumptions C112_can_finish.

(* A reply given stays as it is *)
Theorem C112_final : forall read self_mri w os n x, reply_to w n = Some x -> reply_to (rrun read self_mri w os) n = Some x.
Proof.
  intros read self_mri w os n x. revert w. induction os as [|o os IH]; intros w H; [exact H|]. unfold rrun in *. cbn [fold_left]. apply IH.
  assert (L : n < length (w_handlers w)).
  { destruct (Nat.lt_ge_cases n (length (w_handlers w))) as [L|L]; [exact L|]. rewrite reply_beyond in H by exact L. discriminate. }
  assert (B : forall t m bo, reply_to (at_block read w t m bo) n = Some x).
  { intros t m bo. unfold at_block. destruct (dget m (w_blocks w)) as [s|]; [|exact H]. destruct (step read s bo). exact H. }
  destruct o as [m ep|i|m bo|]; cbn [rstep].
  - destruct (request_of _ m ep) as [r|]; [destruct (dmem _ (w_blocks w))|]; rewrite reply_snoc;
      (destruct (Nat.eqb_spec n (length (w_handlers w))); [lia|exact H]).
  - destruct (nth_error (w_todo w) i) as [[m r]|]; [apply B|exact H].
  - apply B.
  - destruct (w_loop w) as [|[k r] l]; [exact H|]. unfold reply_to in *. cbn [w_handlers]. rewrite at_nth_nth.
    destruct (Nat.eqb n k); [|exact H]. destruct (nth_error (w_handlers w) n) as [h|]; [|discriminate]. cbn [option_map].
    unfold put_queue. rewrite H. reflexivity.
Qed.
Print Assumptions C112_final.

(* The reply to a GET: what there was to read at its path, in the block it names, at one moment
   after the request and before the reply; 500 if there was nothing, or no such block *)
Theorem C112_get : forall read self_mri bs os n ep x mri, idle bs -> Forall others_own os ->
  nth_error (https os) n = Some (GET, ep) -> reply_to (rrun read self_mri (start bs) os) n = Some x ->
  (hd ""%string (slashes ep) = "."%string /\ mri = self_mri \/ hd ""%string (slashes ep) <> "."%string /\ mri = hd ""%string (slashes ep)) ->
  (~ In mri (dkeys bs) /\ x = Status500 NoController) \/
  exists a i b s, os = a ++ Serve i :: b /\ nth_error (https a) n = Some (GET, ep) /\
    reply_to (rrun read self_mri (start bs) a) n = None /\
    dget mri (w_blocks (rrun read self_mri (start bs) a)) = Some s /\
    ((exists v, read (r_block s) (tl (slashes ep)) = Some v /\ x = Status200 (Some v)) \/
     (read (r_block s) (tl (slashes ep)) = None /\ x = Status500 (FromBlock NoSuchPath))).
Proof.
  intros read self_mri bs os n ep x mri Hb F Hn Hr Hm. pose proof (all_inv read self_mri bs Hb os F) as V.
  assert (T : target self_mri (hd ""%string (slashes ep)) = mri).
  { unfold target. destruct (String.eqb_spec (hd ""%string (slashes ep)) ".") as [E|E]; destruct Hm as [[A ->]|[A ->]]; congruence. }
  destruct (i_reply _ _ _ _ _ V n x Hr) as [(m & ep' & A & B)|(r & (a & o & b & m & ep' & s & -> & A & W & D & C) & ->)].
  - rewrite Hn in A. injection A as <- <-. destruct B as [[B _]|(_ & B & ->)]; [discriminate|]. left. split; [|reflexivity].
    rewrite T in B. now apply dmem_false.
  - assert (A' := nth_more _ (https (o :: b)) _ _ A). rewrite <- https_app in A'. rewrite Hn in A'. injection A' as <- <-.
    right. destruct C as [(_ & [i ->] & ->)|[(ps & e & C & _)|(ps & i & e & nm & tk & f & C & _)]]; try discriminate.
    exists a, i, b, s. split; [reflexivity|]. split; [exact A|]. split; [exact W|]. split; [now rewrite <- T|].
    destruct (read (r_block s) (tl (slashes ep))) as [v|]; [left; eauto|right; auto].
Qed.
Print Assumptions C112_get.

(* The reply to a POST: 500 if its body is not JSON or there is no such block; or the Error for
   which its block refused it; or, its parameters having been accepted and its function started,
   the answer when that function ended: 200 with what it returned, if that fits what the method
   says it returns, and 500 with what it raised *)
Theorem C112_post : forall read self_mri bs os n body ep x mri, idle bs -> Forall others_own os ->
  nth_error (https os) n = Some (POST body, ep) -> reply_to (rrun read self_mri (start bs) os) n = Some x ->
  (hd ""%string (slashes ep) = "."%string /\ mri = self_mri \/ hd ""%string (slashes ep) <> "."%string /\ mri = hd ""%string (slashes ep)) ->
  (body = None /\ x = Status500 BadBody) \/
  (~ In mri (dkeys bs) /\ x = Status500 NoController) \/
  exists ps a o b s, body = Some ps /\ os = a ++ o :: b /\ nth_error (https a) n = Some (POST body, ep) /\
    reply_to (rrun read self_mri (start bs) a) n = None /\
    dget mri (w_blocks (rrun read self_mri (start bs) a)) = Some s /\
    ((exists i e, o = Serve i /\ post_check s (tl (slashes ep)) ps = Err e /\ x = Status500 (FromBlock e)) \/
     (exists i e a' i' b' s' name took f, o = Other mri (End i e) /\ a = a' ++ Serve i' :: b' /\
        dget mri (w_blocks (rrun read self_mri (start bs) a')) = Some s' /\
        post_check s' (tl (slashes ep)) ps = Ok (name, took, f) /\
        nth_error (r_jobs s) i = Some (JPost (2 * n, 0) name took f) /\
        match x with
        | Status200 v => e = FReturn v
        | Status500 c => (exists z, e = FRaise z /\ c = FromBlock (Raised z)) \/ (exists z, c = FromBlock (Rejected z)) \/ c = FromBlock BadResult
        end)).
Proof.
  intros read self_mri bs os n body ep x mri Hb F Hn Hr Hm. pose proof (all_inv read self_mri bs Hb os F) as V.
  assert (T : target self_mri (hd ""%string (slashes ep)) = mri).
  { unfold target. destruct (String.eqb_spec (hd ""%string (slashes ep)) ".") as [E|E]; destruct Hm as [[A ->]|[A ->]]; congruence. }
  destruct (i_reply _ _ _ _ _ V n x Hr) as [(m & ep' & A & B)|(r & (a & o & b & m & ep' & s & -> & A & W & D & C) & ->)].
  - rewrite Hn in A. injection A as <- <-. destruct B as [[B ->]|(_ & B & ->)].
    + left. split; [congruence|reflexivity].
    + right. left. split; [|reflexivity]. rewrite T in B. now apply dmem_false.
  - assert (A' := nth_more _ (https (o :: b)) _ _ A). rewrite <- https_app in A'. rewrite Hn in A'. injection A' as <- <-.
    right. right. destruct C as [(C & _)|[(ps & e & C & [i ->] & G & ->)|(ps & i & e & nm & tk & f & C & -> & G & (a' & i' & b' & s' & E1 & E2 & E3) & ->)]]; [discriminate| |].
    + injection C as ->. exists ps, a, (Serve i), b, s. repeat (split; [reflexivity || assumption || (now rewrite <- T)|]).
      left. exists i, e. split; [reflexivity|]. split; [exact G|reflexivity].
    + injection C as ->. rewrite T in *. exists ps, a, (Other mri (End i e)), b, s. repeat (split; [reflexivity || assumption|]).
      right. exists i, e, a', i', b', s', nm, tk, f. repeat (split; [reflexivity || assumption|]).
      unfold post_done.
      set (g := match dget nm (r_block s) with Some f0 => if same_object f f0 then Some f0 else None | None => None end). clearbody g.
      assert (U : forall f0, match snd (update_logs f0 tk e) with Some (Rejected _) | Some BadResult | None => True | _ => False end).
      { intros f0. unfold update_logs. destruct f0 as [| o0 w0 t0 r0 u0 l0 l1 |]; try exact I.
        destruct (validate_map t0 tk true); [|exact I]. destruct (returned_of u0 e); [|exact I]. destruct (validate_map r0 l true); exact I. }
      destruct (update_logs (match g with Some f0 => f0 | None => f end) tk e) as [m' y] eqn:EU.
      pose proof (U (match g with Some f0 => f0 | None => f end)) as U1. rewrite EU in U1. cbn [snd] in *.
      destruct y as [[]|]; try contradiction; cbn [handle_response]; eauto.
      destruct e as [v|z]; cbn [handle_response]; eauto.
Qed.
Print Assumptions C112_post.

(* three requests, overtaking each other, with another client and a change in between *)
Definition exRead (b : list (string * field)) (p : list string) : option pv :=
  match p with
  | [n] => match dget n b with Some (FAttr _ _ v) => Some v | _ => None end
  | _ => None
  end.
Definition exBs : list (string * st) := [("WEB", mkS [] [] [] []); ("B", exS)]%string.
Definition exOs : list rop :=
  [HTTP GET "B/x"; HTTP (POST (Some [("a"%string, PInt 5%Z)])) "B/m"; HTTP GET "NONE/x"; HTTP (POST None) "B/m"; HTTP GET "./x";
   Serve 1; Other "B" (World (dset "x"%string (FAttr true exV (PInt 8%Z)) exB) ["x"; "m"]%string);
   Other "B" (Handle (Post (7, 0) ["m"%string] [("a"%string, PInt 6%Z)]));
   Serve 0; Serve 0; Other "B" (End 1 (FReturn None)); Loop; Other "B" (End 0 (FRaise 3)); Loop; Loop]%string.
Example C112_ex : idle exBs /\ Forall others_own exOs /\
  map (reply_to (rrun exRead "WEB" (start exBs) exOs)) [0; 1; 2; 3; 4] =
    [Some (Status200 (Some (PInt 8%Z))); Some (Status500 (FromBlock (Raised 3))); Some (Status500 NoController);
     Some (Status500 BadBody); Some (Status500 (FromBlock NoSuchPath))].
Proof.
  split; [|split; [|reflexivity]].
  - intros m s [[= <- <-]|[[= <- <-]|[]]]; reflexivity.
  - repeat constructor. exists 3. reflexivity.
Qed.
Example C112_ex_finish : NoDup (dkeys exBs) /\ reply_to (rrun exRead "WEB" (start exBs) (firstn 9 exOs)) 1 = None.
Proof. split; [|reflexivity]. repeat constructor; cbn; intuition discriminate. Qed.
Example C112_ex_path : slashes "B/x/meta" = ["B"; "x"; "meta"]%string /\ slashes "" = [""%string].
Proof. split; reflexivity. Qed.
