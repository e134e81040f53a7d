(* C108: a scan uses the one coordinate system that its axes are in, and moves its axes only. *)
From Coq Require Import String Ascii Bool ZArith QArith Lia List.
From Verif Require Import Base Ports_Model Pmac_Model Pmac_Spec Motion_Model Cs_Model.
From Verif Require Pmac_Proofs Motion_Props Ports_Props Bus_Model.
Import ListNotations.
Local Open Scope string_scope.
Local Open Scope list_scope.
Local Open Scope nat_scope.

(* ---- what is wanted ---- *)
(* An axis of the scan that is really moved: no static generator has it. *)
Definition moved (q : request) (a : string) : Prop := In a (q_move q) /\ forall l, In (true, l) (q_gens q) -> ~ In a l.
(* All moved axes are in this CS, each with a letter of its own. *)
Definition in_cs (q : request) (port : string) (letter : string -> string) : Prop :=
  (forall a, moved q a -> In (a, Some (port ++ "," ++ letter a)%string) (q_rows q) /\
                          In (letter a) ["A"; "B"; "C"; "U"; "V"; "W"; "X"; "Y"; "Z"]) /\
  (forall a b, moved q a -> moved q b -> letter a = letter b -> a = b).
(* The number at the end of the name of a port. *)
Definition cs_number (port d : string) : Prop :=
  exists b, port = (b ++ d)%string /\ d <> "" /\ (forall c, In c (list_ascii_of_string d) -> In c (list_ascii_of_string "0123456789")) /\
    (b = "" \/ exists b' c, b = (b' ++ String c "")%string /\ ~ In c (list_ascii_of_string "0123456789")).
Definition wanted_trigger (q : request) (t : trigger) : Prop := q_trigs q = [t] \/ (q_trigs q = [] /\ t = EVERY_POINT).

Lemma axes_moved q a : In a (motion_axes (q_gens q) (q_move q)) <-> moved q a.
Proof.
  unfold motion_axes, moved. rewrite filter_In. split; intros [A B]; split; auto.
  - intros l L I. apply negb_true_iff, smem_false in B. apply B. apply in_flat_map. exists (true, l). auto.
  - apply negb_true_iff, smem_false. intros I. apply in_flat_map in I as ([s l] & L & I). destruct s; [|destruct I]. exact (B l L I).
Qed.

Lemma digits_all s : digits s = true <-> forall c, In c (list_ascii_of_string s) -> In c (list_ascii_of_string "0123456789").
Proof.
  induction s as [|x r IH]; cbn [digits list_ascii_of_string In]; [split; [intros _ c []|reflexivity]|].
  rewrite andb_true_iff, IH, Ports_Props.is_digit_spec. split; [intros [A B] c [<-|I]; [exact A|exact (B c I)]|intros H; split; [apply H; now left|intros c I; apply H; now right]].
Qed.
Lemma end_number s : end_digits s <> "" -> cs_number s (end_digits s).
Proof.
  induction s as [|c s IH]; cbn [end_digits]; [congruence|]. destruct (digits (String c s)) eqn:D.
  - intros _. exists "". split; [reflexivity|]. split; [discriminate|]. split; [now apply digits_all|]. now left.
  - intros N. destruct (IH N) as (b & E & N' & D' & B). exists (String c b).
    split; [cbn; now rewrite <- E|]. split; [exact N'|]. split; [exact D'|]. right. destruct B as [->|(b' & x & -> & X)].
    + exists "", c. split; [reflexivity|]. cbn in E. rewrite <- E, <- digits_all in D'. cbn [digits] in D. rewrite D', andb_true_r in D. rewrite <- Ports_Props.is_digit_spec. congruence.
    + exists (String c b'), x. split; [reflexivity|exact X].
Qed.
Lemma method_number port m : called_method port = Some m -> exists d, cs_number port d /\ m = ("moveCS" ++ d)%string.
Proof.
  unfold called_method. destruct (end_digits port) as [|c r] eqn:E; [discriminate|]. intros [= <-].
  exists (String c r). split; [|reflexivity]. rewrite <- E. apply end_number. rewrite E. discriminate.
Qed.

Lemma lower_inj x y : In x CS_AXIS_NAMES -> In y CS_AXIS_NAMES -> Bus_Model.lower x = Bus_Model.lower y -> x = y.
Proof.
  intros X Y. repeat (destruct X as [<-|X]; [repeat (destruct Y as [<-|Y]; [try reflexivity; discriminate|]); destruct Y|]). destruct X.
Qed.

Lemma with_motors rows port : cs_port_with_motors rows = Ok port ->
  exists r1 name ax r2, rows = r1 ++ (name, Some (port ++ "," ++ ax)%string) :: r2 /\ In ax CS_AXIS_NAMES /\
    forall n c, In (n, c) r1 -> exists s, c = Some s /\ (s = "" \/ exists p a, s = (p ++ "," ++ a)%string /\ ~ In a CS_AXIS_NAMES).
Proof.
  assert (SP : forall s a b, split_comma s = Some (a, b) -> s = (a ++ "," ++ b)%string).
  { induction s as [|c s IH]; intros a b; cbn [split_comma]; [discriminate|]. destruct (Ascii.eqb_spec c ","%char) as [->|N].
    - intros [= <- <-]. reflexivity.
    - destruct (split_comma s) as [[a' b']|] eqn:E; [|discriminate]. intros [= <- <-]. cbn. now rewrite (IH a' b' eq_refl). }
  induction rows as [|[n [cs|]] r IH]; cbn [cs_port_with_motors]; try discriminate. destruct cs as [|c cs].
  - intros H. destruct (IH H) as (r1 & name & ax & r2 & -> & A & B). exists ((n, Some "") :: r1), name, ax, r2.
    split; [reflexivity|]. split; [exact A|]. intros n' c' [[= <- <-]|I]; [eauto|exact (B _ _ I)].
  - destruct (split_comma (String c cs)) as [[p a]|] eqn:S; [|discriminate]. apply SP in S. destruct (smem a CS_AXIS_NAMES) eqn:M.
    + intros [= <-]. apply smem_In in M. exists [], n, a, r. rewrite S. split; [reflexivity|]. split; [exact M|]. intros ? ? [].
    + intros H. apply smem_false in M. destruct (IH H) as (r1 & name & ax & r2 & -> & A & B).
      exists ((n, Some (String c cs)) :: r1), name, ax, r2. split; [reflexivity|]. split; [exact A|].
      intros n' c' [[= <- <-]|I]; [|exact (B _ _ I)]. eexists. split; [reflexivity|]. right. eauto.
Qed.

Lemma port_of rows axes port m : axes <> [] -> get_cs_port rows axes = Ok (port, m) ->
  exists letter, one_cs (flat_map (fun r => match snd r with Some c => [(fst r, c)] | None => [] end) rows) axes port letter /\
    (forall a, In a (dkeys m) <-> In a axes) /\ NoDup (dkeys m) /\ (forall a, In a axes -> dget a m = Some (port, letter a)).
Proof.
  intros N H. unfold get_cs_port in H. destruct axes as [|a0 axes0]; [congruence|]. set (axes := a0 :: axes0) in *.
  destruct (existsb _ rows); [discriminate|]. destruct (cs_axis_mapping _ axes) as [m'|] eqn:C; [|discriminate].
  destruct (Pmac_Proofs.mapping_sound _ _ _ C) as (port' & letter & O & K & ND & G).
  destruct m' as [|[k [p ax]] m']; [discriminate|]. injection H as <- <-. exists letter.
  assert (I : In k axes) by (apply K; left; reflexivity). pose proof (G k I) as E. cbn in E. rewrite String.eqb_refl in E.
  injection E as -> ->. exact (conj O (conj K (conj ND G))).
Qed.

Section C108.
  Variable motors : string -> motor.
  Variable gen : list ppoint.
  Variables joined same : ppoint -> ppoint -> bool.
  Variable gap : ppoint -> ppoint -> list (Q * (string -> Q)).
  Variables PP BATCH : nat.
  Notation Hook := (hstep motors gen joined same gap PP BATCH).
  Notation Hooks := (hrun motors gen joined same gap PP BATCH).
  Notation Take := (take_part motors gen joined same gap PP BATCH).

  Lemma configured s q s' calls : Hook s (HConfigure q) = (s', calls) -> failed s' = false ->
    exists trig, wanted_trigger q trig /\
      let axes := motion_axes (q_gens q) (q_move q) in
      ((taking_part trig axes = false /\ has_gen s' = false /\ calls = []) \/
       (taking_part trig axes = true /\ has_gen s' = true /\ Take q trig axes = (calls, None))).
  Proof.
    cbn [hstep]. unfold get_motion_trigger. intros H F.
    assert (X : forall trig, (let axes := motion_axes (q_gens q) (q_move q) in
              if taking_part trig axes then let (calls, e) := Take q trig axes in
                 (mkPart true (match e with Some _ => true | None => false end), calls) else (mkPart false false, [])) = (s', calls) ->
              let axes := motion_axes (q_gens q) (q_move q) in
      ((taking_part trig axes = false /\ has_gen s' = false /\ calls = []) \/
       (taking_part trig axes = true /\ has_gen s' = true /\ Take q trig axes = (calls, None)))).
    { intros trig. cbv zeta. destruct (taking_part trig _); [|intros [= <- <-]; auto].
      destruct (Take q trig _) as [c e]. intros [= <- <-]. right. cbn in F. destruct e; [discriminate|]. auto. }
    unfold wanted_trigger. destruct (q_trigs q) as [|t [|t' r]].
    - exists EVERY_POINT. auto.
    - exists t. auto.
    - injection H as <- <-. discriminate F.
  Qed.

  Lemma start_letters axes p : forall l, move_to_start axes p = Ok l -> map fst l = map (fun a => fst (snd a)) axes.
  Proof.
    induction axes as [|a r IH]; intros l; cbn [move_to_start]; [intros [= <-]; reflexivity|].
    destruct (point_velocity a p true); [|discriminate]. destruct (within_limits _ _); [|discriminate].
    destruct (move_to_start r p); [|discriminate]. intros [= <-]. cbn. now rewrite IH.
  Qed.

  (* The axes that move: those of the scan that are in one CS with a letter each; it is reset, its axes are sent to where
     the run-up to the first point begins, with the method of its number, and it gets the trajectory, for the same
     letters. *)
  Theorem C108_one_cs : forall s q s' calls, (forall a, 0 < mi_acc (motors a))%Q ->
    Hook s (HConfigure q) = (s', calls) -> failed s' = false -> (exists a, moved q a) ->
    exists port letter d args letters p,
      in_cs q port letter /\ cs_number port d /\ nth_error gen (q_done q) = Some p /\ has_gen s' = true /\
      calls = [CZero port; CExec; CMove ("moveCS" ++ d) args; CBuild port letters (q_done q) (q_todo q)] /\
      NoDup letters /\ (forall x, In x letters <-> exists a, moved q a /\ x = Bus_Model.lower (letter a)) /\
      map fst args = letters /\
      (forall a, moved q a -> exists v pos t, In (Bus_Model.lower (letter a), pos) args /\
         point_velocity (a, (Bus_Model.lower (letter a), motors a)) p true = Ok v /\
         Motion_Props.runs_up (a, (Bus_Model.lower (letter a), motors a)) p v pos t /\
         (mi_soft (motors a) = true -> mi_low (motors a) <= pos <= mi_high (motors a))%Q).
  Proof.
    intros s q s' calls ACC H F [a0 A0]. destruct (configured _ _ _ _ H F) as (trig & _ & [(T & _)|(T & G & C)]).
    { apply axes_moved in A0. unfold taking_part in T. destruct (motion_axes _ _); [destruct A0|discriminate]. }
    cbv zeta in *. unfold take_part in C. destruct (get_min_turnaround (q_turns q)) as [[tt iv]|]; [|discriminate].
    set (axes := motion_axes (q_gens q) (q_move q)) in *.
    assert (NE : axes <> []) by (intros E; apply axes_moved in A0; fold axes in A0; rewrite E in A0; destruct A0).
    destruct (get_cs_port (q_rows q) axes) as [[port m]|] eqn:GP; [|discriminate].
    destruct (port_of _ _ _ _ NE GP) as (letter & (O1 & O2 & O3) & K & ND & DG).
    destruct axes as [|ax0 axr] eqn:EA; [congruence|]. rewrite <- EA in *. clear EA.
    destruct (to_start gen port (axes_of motors m) (q_done q)) as [mv|] eqn:TS; [|discriminate].
    unfold to_start in TS. destruct (called_method port) as [meth|] eqn:CM; [|discriminate].
    destruct (nth_error gen (q_done q)) as [p|] eqn:NP; [|discriminate].
    destruct (move_to_start (axes_of motors m) p) as [args|] eqn:MS; [|discriminate]. injection TS as <-.
    destruct (on_configure _ _ _ _ _ _ _ _ _ _ _) as [pr|]; [|discriminate]. injection C as <-.
    destruct (method_number _ _ CM) as (d & CD & ->).
    assert (AX : forall a, In a axes <-> moved q a) by (intros; apply axes_moved).
    assert (MI : forall k x, In (k, x) m <-> In k axes /\ x = (port, letter k)).
    { intros k x. split.
      - intros I. pose proof (dget_In_nodup _ _ _ ND I) as E. assert (I' : In k axes) by (apply K; apply in_map_iff; exists (k, x); auto).
        split; [exact I'|]. rewrite (DG k I') in E. congruence.
      - intros [I ->]. apply dget_Some_In. auto. }
    exists port, letter, d, args, (map (fun a => fst (snd a)) (axes_of motors m)), p.
    split. { split.
      - intros a M. apply AX in M. destruct (O2 a M) as [R L]. split; [|exact L]. apply in_flat_map in R as ([n [c|]] & I & R); cbn in R; [|destruct R].
        destruct R as [[= <- E]|[]]. rewrite E in I. exact I.
      - intros a b MA MB. apply O3; now apply AX. }
    split; [exact CD|]. split; [reflexivity|]. split; [exact G|]. split; [reflexivity|].
    assert (LT : forall x, In x (map (fun a => fst (snd a)) (axes_of motors m)) <-> exists a, moved q a /\ x = Bus_Model.lower (letter a)).
    { intros x. unfold axes_of. rewrite map_map, in_map_iff. split.
      - intros ([k y] & <- & I). apply MI in I as [I ->]. exists k. split; [now apply AX|reflexivity].
      - intros (a & M & ->). exists (a, (port, letter a)). split; [reflexivity|]. apply MI. split; [now apply AX|reflexivity]. }
    split. { unfold axes_of. rewrite map_map. cbn [fst snd]. unfold dkeys in ND.
      assert (MJ : forall k x, In (k, x) m -> In k axes /\ x = (port, letter k)) by (intros; now apply MI). clear - ND MJ O2 O3.
      induction m as [|[k x] r IH]; [constructor|]. cbn [map fst snd] in *. inversion ND; subst. constructor.
      - intros I. apply in_map_iff in I as ([k2 x2] & E & I). cbn [fst snd] in E.
        destruct (MJ k2 x2 (or_intror I)) as [A2 ->]. destruct (MJ k x (or_introl eq_refl)) as [A1 ->]. cbn [snd] in E.
        apply lower_inj in E; [|apply (O2 k2 A2)|apply (O2 k A1)]. apply O3 in E; auto. subst k2.
        match goal with H : ~ In k _ |- _ => apply H end. apply in_map_iff. exists (k, (port, letter k)). auto.
      - apply IH; auto. intros; apply MJ; now right. }
    split; [exact LT|]. split; [now apply (start_letters _ p)|].
    intros a M. apply AX in M.
    destruct (Motion_Props.C58_start (axes_of motors m) p args (a, (Bus_Model.lower (letter a), motors a))) as (v & pos & t & V & I & _ & R & L).
    - intros b B. apply in_map_iff in B as (x & <- & _). apply ACC.
    - exact MS.
    - apply in_map_iff. exists (a, (port, letter a)). split; [reflexivity|]. apply MI. auto.
    - exists v, pos, t. auto.
  Qed.

  (* If the axes that move are not in one CS, each with a letter of its own, configure fails and nothing is called. *)
  Theorem C108_refused : forall s q, (exists a, moved q a) -> (forall port letter, ~ in_cs q port letter) ->
    failed (fst (Hook s (HConfigure q))) = true /\ snd (Hook s (HConfigure q)) = [].
  Proof.
    intros s q [a0 A0] NO. cbn [hstep]. destruct (get_motion_trigger (q_trigs q)) as [trig|]; [|auto]. cbv zeta.
    apply axes_moved in A0. set (axes := motion_axes (q_gens q) (q_move q)) in *.
    assert (NE : axes <> []) by (intros E; rewrite E in A0; destruct A0).
    replace (taking_part trig axes) with true by (destruct axes; [congruence|reflexivity]).
    unfold take_part. destruct (get_min_turnaround (q_turns q)) as [[tt iv]|]; [|auto].
    destruct (get_cs_port (q_rows q) axes) as [[port m]|] eqn:GP; [|auto]. exfalso.
    destruct (port_of _ _ _ _ NE GP) as (letter & (O1 & O2 & O3) & _). apply (NO port letter). split.
    - intros a M. apply axes_moved in M. destruct (O2 a M) as [R L]. split; [|exact L].
      apply in_flat_map in R as ([n [c|]] & I & R); cbn in R; [|destruct R]. destruct R as [[= <- E]|[]]. rewrite E in I. exact I.
    - intros a b MA MB. apply O3; now apply axes_moved.
  Qed.

  (* Nothing moves but triggers are wanted: the CS of the first motor that has one; no axis is moved. *)
  Theorem C108_triggers_only : forall s q s' calls t, Hook s (HConfigure q) = (s', calls) -> failed s' = false ->
    (forall a, ~ moved q a) -> wanted_trigger q t -> t <> NONE ->
    exists r1 name port ax r2, q_rows q = r1 ++ (name, Some (port ++ "," ++ ax)%string) :: r2 /\
      In ax ["A"; "B"; "C"; "U"; "V"; "W"; "X"; "Y"; "Z"] /\
      (forall n c, In (n, c) r1 -> exists s, c = Some s /\ (s = "" \/ exists p a, s = (p ++ "," ++ a)%string /\ ~ In a CS_AXIS_NAMES)) /\
      calls = [CZero port; CExec; CBuild port [] (q_done q) (q_todo q)] /\ has_gen s' = true.
  Proof.
    intros s q s' calls t H F NM W NT. destruct (configured _ _ _ _ H F) as (trig & W' & D).
    assert (trig = t) by (destruct W as [W|[W ->]], W' as [W'|[W' ->]]; congruence). subst trig. cbv zeta in D.
    destruct (motion_axes (q_gens q) (q_move q)) as [|a r] eqn:E.
    2:{ exfalso. apply (NM a). apply axes_moved. rewrite E. left. reflexivity. }
    destruct D as [(T & _)|(_ & G & C)]; [destruct t; try discriminate T; congruence|].
    unfold take_part in C. destruct (get_min_turnaround (q_turns q)) as [[tt iv]|]; [|discriminate]. cbn [get_cs_port] in C.
    destruct (cs_port_with_motors (q_rows q)) as [port|] eqn:P; [|discriminate]. cbn [axes_of map app] in C.
    destruct (on_configure _ _ _ _ _ _ _ _ _ _ _) as [pr|]; [|discriminate]. injection C as <-.
    destruct (with_motors _ _ P) as (r1 & name & ax & r2 & R & A & B). exists r1, name, port, ax, r2. auto.
  Qed.

  (* Nothing moves and no triggers are wanted: nothing is called, in the hooks that follow neither. *)
  Theorem C108_not_taking_part : forall s q l, (forall a, ~ moved q a) -> wanted_trigger q NONE ->
    Forall (fun h => match h with HConfigure _ => False | _ => True end) l ->
    snd (Hooks s (HConfigure q :: l)) = [].
  Proof.
    intros s q l NM W L.
    assert (E : Hook s (HConfigure q) = (mkPart false false, [])).
    { cbn [hstep]. destruct W as [W|[_ W]]; [|discriminate]. rewrite W. cbn [get_motion_trigger].
      destruct (motion_axes (q_gens q) (q_move q)) as [|a r] eqn:E; [reflexivity|]. exfalso. apply (NM a), axes_moved. rewrite E. now left. }
    cbn [hrun]. rewrite E.
    assert (X : forall l, Forall (fun h => match h with HConfigure _ => False | _ => True end) l -> Hooks (mkPart false false) l = (mkPart false false, [])).
    { clear. induction l as [|h l IH]; intros F; [reflexivity|]. inversion F; subst. destruct h; [contradiction| |]; cbn; rewrite IH by auto; reflexivity. }
    rewrite X by exact L. reflexivity.
  Qed.

  (* ---- histories ---- *)
  (* The last hook that configured, and the last trajectory that the PMAC has been given, the zero program is one too. *)
  Definition last_request (l : list hook) : option request :=
    fold_left (fun r h => match h with HConfigure q => Some q | _ => r end) l None.
  Definition trajectory (c : list call) : option (string * option (nat * nat)) :=
    fold_left (fun r x => match x with CZero p => Some (p, None) | CBuild p _ d n => Some (p, Some (d, n)) | _ => r end) c None.

  Lemma hrun_app a b s : Hooks s (a ++ b) = (let (s1, c1) := Hooks s a in let (s2, c2) := Hooks s1 b in (s2, c1 ++ c2)).
  Proof.
    revert s. induction a as [|h a IH]; intros s; cbn [app hrun].
    - destruct (Hooks s b). reflexivity.
    - destruct (Hook s h) as [s1 c1]. rewrite IH. destruct (Hooks s1 a) as [s2 c2]. destruct (Hooks s2 b) as [s3 c3]. now rewrite app_assoc.
  Qed.
  Lemma history l : let (s, c) := Hooks new_part l in
    failed s = false -> has_gen s = true ->
    exists q port, last_request l = Some q /\ trajectory c = Some (port, Some (q_done q, q_todo q)).
  Proof.
    induction l as [|h l IH] using rev_ind; [discriminate|]. rewrite hrun_app. destruct (Hooks new_part l) as [s c]. cbn [hrun].
    destruct (Hook s h) as [s1 c1] eqn:H. rewrite app_nil_r. intros F G. unfold last_request. rewrite fold_left_app. cbn [fold_left].
    fold (last_request l). destruct h as [q| |].
    - exists q. destruct (configured _ _ _ _ H F) as (t & _ & [(_ & X & _)|(_ & _ & C)]); [congruence|]. cbv zeta in C. unfold take_part in C.
      destruct (get_min_turnaround (q_turns q)) as [[tt iv]|]; [|discriminate]. destruct (get_cs_port _ _) as [[port m]|]; [|discriminate].
      exists port. split; [reflexivity|].
      set (mvd := match motion_axes (q_gens q) (q_move q) with [] => _ | _ => _ end) in C. destruct mvd as [mv|] eqn:MV; [|discriminate].
      destruct (on_configure _ _ _ _ _ _ _ _ _ _ _) as [pr|]; [|discriminate]. injection C as <-.
      unfold trajectory. rewrite fold_left_app. cbn [app fold_left]. rewrite fold_left_app. reflexivity.
    - cbn in H. injection H as <- <-. destruct (IH F G) as (q & port & A & B). exists q, port. split; [exact A|].
      unfold trajectory in *. rewrite fold_left_app, B. now destruct (_ && _).
    - cbn in H. injection H as <- <-. destruct (IH F G) as (q & port & A & B). exists q, port. split; [exact A|].
      unfold trajectory in *. rewrite fold_left_app, B. now destruct (has_gen s).
  Qed.
  (* In any history: a run executes something only if the last trajectory given to the PMAC is the one built for the
     steps of the last configure, seek or end of a run. *)
  Theorem C108_run : forall l, let (s, c) := Hooks new_part l in
    snd (Hook s HRun) <> [] ->
    exists q port, last_request l = Some q /\ trajectory c = Some (port, Some (q_done q, q_todo q)).
  Proof.
    intros l. pose proof (history l) as H. destruct (Hooks new_part l) as [s c]. cbn [hstep snd].
    destruct (has_gen s) eqn:G; cbn [andb]; [|congruence]. destruct (failed s) eqn:F; cbn [negb]; [congruence|]. auto.
  Qed.
End C108.
Print Assumptions C108_one_cs.
Print Assumptions C108_refused.
Print Assumptions C108_triggers_only.
Print Assumptions C108_not_taking_part.
Print Assumptions C108_run.

(* A motor that is fast enough; x and y are in CS 2, z is in none, e is static. *)
Definition ex_motor : motor := mkMotor 10 5 100 (-100) true.
Definition ex_gen : list ppoint :=
  let pnt c := mkPt 2 (fun _ => c) (fun _ => c - (1 # 2))%Q (fun _ => c + (1 # 2))%Q in [pnt 1; pnt 2; pnt 3]%Q.
Definition ex_rows : list (string * option string) :=
  [("z", Some ""); ("i", Some "BRICK1CS2,I"); ("y", Some "BRICK1CS2,Y"); ("x", Some "BRICK1CS2,X"); ("CS2", None)].
Definition ex_req (move : list string) (trigs : list trigger) : request :=
  mkReq 1 2 trigs [] [(true, ["e"]); (false, ["x"; "y"])] move ex_rows.
Definition ex_hook (s : part) (h : hook) : part * list call :=
  hstep (fun _ => ex_motor) ex_gen (fun _ _ => true) (fun _ _ => true) (fun _ _ => []) 8 2 s h.
Example C108_ex : exists px py,
  ex_hook new_part (HConfigure (ex_req ["x"; "e"; "y"] [])) =
    (mkPart true false, [CZero "BRICK1CS2"; CExec; CMove "moveCS2" [("y", py); ("x", px)]; CBuild "BRICK1CS2" ["y"; "x"] 1 2]) /\
  moved (ex_req ["x"; "e"; "y"] []) "x" /\ ~ moved (ex_req ["x"; "e"; "y"] []) "e".
Proof.
  do 2 eexists. split; [vm_compute; reflexivity|]. split.
  - split; [left; reflexivity|]. cbn. intros l [[= <-]|[[=]|[]]] [J|[]]; discriminate J.
  - intros [_ M]. apply (M ["e"]); left; reflexivity.
Qed.
Example C108_ex_triggers :
  ex_hook new_part (HConfigure (ex_req ["e"] [ROW_GATE])) =
    (mkPart true false, [CZero "BRICK1CS2"; CExec; CBuild "BRICK1CS2" [] 1 2]) /\
  ex_hook new_part (HConfigure (ex_req ["e"] [NONE])) = (mkPart false false, []).
Proof. split; vm_compute; reflexivity. Qed.
Example C108_ex_refused :
  ex_hook new_part (HConfigure (ex_req ["x"; "z"] [])) = (mkPart true true, []) /\
  ex_hook new_part (HConfigure (ex_req ["x"; "i"] [])) = (mkPart true true, []) /\
  ex_hook new_part (HConfigure (ex_req ["x"; "CS2"] [])) = (mkPart true true, []).
Proof. repeat split; vm_compute; reflexivity. Qed.
Example C108_ex_run :
  let h := [HConfigure (ex_req ["x"] []); HRun; HAbort; HConfigure (ex_req ["x"; "y"] [ROW_GATE])] in
  let (s, c) := hrun (fun _ => ex_motor) ex_gen (fun _ _ => true) (fun _ _ => true) (fun _ _ => []) 8 2 new_part h in
  snd (ex_hook s HRun) = [CExec] /\ trajectory c = Some ("BRICK1CS2", Some (1, 2)) /\ length c = 10.
Proof. vm_compute. auto. Qed.

(* A scan that only wants triggers can not be configured if a block of the layout that is no motor is before the first
   motor that is in a CS: the other motors are not looked at. *)
Theorem C108_triggers_only_refuted : exists q, (exists n, In (n, Some "BRICK1CS2,X") (q_rows q)) /\ (forall a, ~ moved q a) /\
  ex_hook new_part (HConfigure q) = (mkPart true true, []).
Proof.
  exists (mkReq 1 2 [] [] [] [] [("CS2", None); ("x", Some "BRICK1CS2,X")]). split; [exists "x"; right; left; reflexivity|].
  split; [intros a [[] _]|vm_compute; reflexivity].
Qed.
Print Assumptions C108_triggers_only_refuted.
