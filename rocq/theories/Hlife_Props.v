(* C100: what the file writer leaves behind.  The statements speak of the acts of the hooks only through the
   world they leave. *)
From Coq Require Import String Ascii Bool ZArith Lia List.
From Verif Require Import Base Hlife_Model.
Import ListNotations.
Local Open Scope string_scope.
Local Open Scope list_scope.
Local Infix "+++" := String.append (at level 60, right associativity).

(* ---- specification ---- *)
(* The layout file of a scan. *)
Definition layout_of (mri : string) (c : conf) : string :=
  make_xml_filename (rstrip (c_dir c)) mri "layout".
(* What the writer is asked for itself: name and value. *)
Definition wanted (mri : string) (c : conf) : list (string * pv) :=
  [("positionMode", PBool true); ("enableCallbacks", PBool true); ("fileWriteMode", PStr "Stream");
   ("swmrMode", PBool true); ("storeAttr", PBool true); ("dimAttDatasets", PBool true);
   ("lazyOpen", PBool true); ("arrayCounter", PNum 0); ("filePath", PStr (rstrip (c_dir c) +++ "/"));
   ("fileName", PStr (c_format c)); ("fileTemplate", PStr ("%s" +++ c_template c));
   ("xmlLayout", PStr (layout_of mri c)); ("flushDataPerNFrames", PNum (c_steps c));
   ("flushAttrPerNFrames", PNum 0); ("numCapture", PNum 0)].
(* The names put for the dimensions are other names, each once. *)
Definition plain (c : conf) : Prop :=
  NoDup (map fst (c_dims c)) /\ forall n, In n (map fst (c_dims c)) -> ~ In n (map fst (wanted "" c)).
(* The plugin is set up for this scan, nothing is still on its way, and the file that tells it where the
   datasets go is there. *)
Definition settled (mri : string) (c : conf) (w : world) : Prop :=
  (forall n v, In (n, v) (wanted mri c ++ c_dims c) -> dget n (w_pvs w) = Some v) /\
  w_pending w = [] /\ w_files w = [layout_of mri c] /\ w_layout w = Some (layout_of mri c).
(* The scans that were configured in a history. *)
Fixpoint scans (os : list op) : list conf :=
  match os with
  | [] => []
  | Configure c _ :: r | Reconfigure c _ _ :: r => c :: scans r
  | _ :: r => scans r
  end.
(* A configure that raised while it wrote the demand positions. *)
Definition cut_opening (o : op) : Prop :=
  match o with
  | Configure c k | Reconfigure c _ k => c_remove c = true /\ k = 21 + length (c_dims c)
  | _ => False
  end.

(* ---- proofs ---- *)
Lemma do_dims name k dims rest w :
  do_acts name k (map (fun p => PutAsync (fst p) (snd p)) dims ++ rest) w =
  if Nat.ltb k (length dims)
  then (mkW (w_files w) (w_layout w) (w_open w) (w_hdf w) (w_pvs w) (w_pending w ++ firstn k dims) (w_running w), false)
  else do_acts name (k - length dims) rest
         (mkW (w_files w) (w_layout w) (w_open w) (w_hdf w) (w_pvs w) (w_pending w ++ dims) (w_running w)).
Proof.
  revert k w; induction dims as [|[n v] dims IH]; intros k w.
  - cbn [map app length]. rewrite app_nil_r, Nat.sub_0_r. destruct w; reflexivity.
  - change (map (fun p => PutAsync (fst p) (snd p)) ((n, v) :: dims) ++ rest)
      with (PutAsync n v :: (map (fun p => PutAsync (fst p) (snd p)) dims ++ rest)).
    destruct k as [|k].
    + cbn. rewrite app_nil_r. destruct w; reflexivity.
    + change (do_acts name (S k) (PutAsync n v :: (map (fun p => PutAsync (fst p) (snd p)) dims ++ rest)) w)
        with (do_acts name k (map (fun p => PutAsync (fst p) (snd p)) dims ++ rest)
                (mkW (w_files w) (w_layout w) (w_open w) (w_hdf w) (w_pvs w) (w_pending w ++ [(n, v)]) (w_running w))).
      rewrite (IH k). cbn [w_files w_layout w_open w_hdf w_pvs w_pending w_running length Nat.sub].
      change (Nat.ltb (S k) (S (length dims))) with (Nat.ltb k (length dims)).
      cbn [firstn]. rewrite <- !app_assoc. reflexivity.
Qed.

Lemma apply_app a b d : apply (a ++ b) d = apply b (apply a d).
Proof. apply fold_left_app. Qed.

Lemma apply_notin l : forall d n, ~ In n (map fst l) -> dget n (apply l d) = dget n d.
Proof.
  induction l as [|[m v] l IH]; intros d n H; [reflexivity|].
  cbn [apply fold_left fst snd]. change (dget n (apply l (dset m v d)) = dget n d).
  rewrite IH by (intros K; apply H; right; exact K).
  apply dget_dset_other. intros E; apply H; left; auto.
Qed.

Lemma apply_in l : forall d n v, NoDup (map fst l) -> In (n, v) l -> dget n (apply l d) = Some v.
Proof.
  induction l as [|[m u] l IH]; intros d n v ND H; [contradiction|].
  inversion ND; subst. cbn [apply fold_left fst snd].
  change (dget n (apply l (dset m u d)) = Some v).
  destruct H as [[= -> ->]|H].
  - rewrite apply_notin by assumption. apply dget_dset_same.
  - apply IH; assumption.
Qed.

Definition inv (mri : string) (cs : list conf) (x : phase * world) : Prop :=
  let (ph, w) := x in
  (w_files w = [] \/ exists f, w_files w = [f] /\ w_layout w = Some f) /\
  ((if w_hdf w then 1 else 0) <= w_open w) /\
  (w_running w = true -> exists c, In c cs /\ settled mri c w) /\
  (ph = Ready -> w_files w = [] /\ w_hdf w = false /\ w_running w = false /\ w_pending w = []) /\
  (ph = Configured -> w_running w = true).

Ltac easyfin := cbn [w_files w_layout w_open w_hdf w_pvs w_pending w_running];
  repeat split; intros; try discriminate; try contradiction; auto; try lia.

(* The world when capturing has been asked for. *)
Definition started (mri : string) (c : conf) (w : world) : world :=
  mkW [layout_of mri c] (Some (layout_of mri c)) (w_open w) (w_hdf w)
    (dset "numCapture" (PNum 0)
      (apply ([("arrayCounter", PNum 0); ("dimAttDatasets", PBool true);
          ("enableCallbacks", PBool true); ("fileName", PStr (c_format c));
          ("filePath", PStr (rstrip (c_dir c) +++ "/")); ("fileTemplate", PStr ("%s" +++ c_template c));
          ("fileWriteMode", PStr "Stream"); ("lazyOpen", PBool true);
          ("storeAttr", PBool true); ("swmrMode", PBool true)] ++ c_dims c ++
         [("flushAttrPerNFrames", PNum 0); ("flushDataPerNFrames", PNum (c_steps c));
          ("xmlLayout", PStr (layout_of mri c))]) (dset "positionMode" (PBool true) (w_pvs w)))) [] true.

Lemma nodup_app {A} (a b : list A) :
  NoDup a -> NoDup b -> (forall x, In x b -> ~ In x a) -> NoDup (a ++ b).
Proof.
  induction a as [|x a IH]; intros Na Nb D; [exact Nb|].
  inversion Na; subst. cbn [app]. constructor.
  - rewrite in_app_iff. intros [K|K]; [contradiction|]. apply (D x K). left; reflexivity.
  - apply IH; auto. intros y Hy K. apply (D y Hy). right; exact K.
Qed.

Lemma started_settled mri c w : plain c -> settled mri c (started mri c w).
Proof.
  intros [ND OUT]. unfold settled, started. cbn [w_files w_layout w_pvs w_pending].
  split; [|auto].
  set (l1 := [("arrayCounter", PNum 0); _; _; _; _; _; _; _; _; _]).
  set (l2 := [("flushAttrPerNFrames", PNum 0); _; _]).
  assert (ND2 : NoDup (map fst (l1 ++ c_dims c ++ l2))).
  { rewrite !map_app. apply nodup_app.
    - unfold l1. cbn [map fst]. repeat constructor; cbn [In]; intuition discriminate.
    - apply nodup_app; [exact ND| |].
      + unfold l2. cbn [map fst]. repeat constructor; cbn [In]; intuition discriminate.
      + intros x Hx K. apply (OUT x K). unfold l2 in Hx. unfold wanted. cbn [map fst In] in *. tauto.
    - intros x Hx K. apply in_app_iff in Hx. destruct Hx as [Hx|Hx].
      + apply (OUT x Hx). unfold l1 in K. unfold wanted. cbn [map fst In] in *. tauto.
      + unfold l1 in K. unfold l2 in Hx. cbn [map fst In] in *. intuition congruence. }
  assert (NP : forall n, In n ["positionMode"; "numCapture"] -> ~ In n (map fst (l1 ++ c_dims c ++ l2))).
  { intros n Hn K. rewrite !map_app, !in_app_iff in K.
    destruct K as [K|[K|K]].
    - unfold l1 in K. cbn [map fst In] in *. intuition congruence.
    - apply (OUT n K). unfold wanted. cbn [map fst In] in *. tauto.
    - unfold l2 in K. cbn [map fst In] in *. intuition congruence. }
  intros n v H.
  assert (C : (n, v) = ("positionMode", PBool true) \/ (n, v) = ("numCapture", PNum 0) \/
              In (n, v) (l1 ++ c_dims c ++ l2)).
  { rewrite !in_app_iff. apply in_app_iff in H. unfold wanted in H. unfold l1, l2. cbn [In] in *.
    intuition auto. }
  destruct C as [E|[E|C]].
  - injection E as -> ->. rewrite dget_dset_other by discriminate.
    rewrite apply_notin by (apply NP; left; reflexivity). apply dget_dset_same.
  - injection E as -> ->. apply dget_dset_same.
  - rewrite dget_dset_other.
    + apply apply_in; assumption.
    + intros E. apply (NP n); [right; left; auto|]. apply (in_map fst) in C. exact C.
Qed.

Lemma hdf_settled mri c w o h :
  settled mri c w ->
  settled mri c (mkW (w_files w) (w_layout w) o h (w_pvs w) (w_pending w) (w_running w)).
Proof. intros (A & B & C & D). repeat split; assumption. Qed.

Lemma do_cons name k a r w :
  do_acts name (S k) (a :: r) w =
  match do_act name w a with Some w' => do_acts name k r w' | None => (w, false) end.
Proof. reflexivity. Qed.
Lemma do_cut name a r w : do_acts name 0 (a :: r) w = (w, false).
Proof. reflexivity. Qed.

(* What a configure from Ready can leave. *)
Lemma configure_cases mri c k w ph w' :
  w_files w = [] -> w_pending w = [] -> w_hdf w = false -> w_running w = false ->
  do_configure mri c k w = (ph, w') ->
  (ph = Failed /\ w_running w' = false /\ w_open w' = w_open w /\ w_hdf w' = false /\
   (w_files w' = [] \/ w_files w' = [layout_of mri c] /\ w_layout w' = Some (layout_of mri c))) \/
  (has_dot (c_filename c) = true /\ exists o h,
     w' = mkW (w_files (started mri c w)) (w_layout (started mri c w)) o h
              (w_pvs (started mri c w)) [] true /\
     (ph = Failed \/ ph = Configured) /\
     (c_remove c = false -> h = false /\ o = w_open w) /\
     (c_remove c = true -> o = w_open w /\ h = false \/
        (o = S (w_open w) /\ h = false /\ ph = Failed /\ k = 21 + length (c_dims c)) \/ (o = S (w_open w) /\ h = true)) /\
     (ph = Configured -> h = c_remove c)).
Proof.
  intros F P HH R E. unfold do_configure in E.
  destruct w as [fs lay op hdf pvs pend run]. cbn [w_files w_pending w_hdf w_running] in F, P, HH, R. subst.
  pose (l1 := [("arrayCounter", PNum 0); ("dimAttDatasets", PBool true);
          ("enableCallbacks", PBool true); ("fileName", PStr (c_format c));
          ("filePath", PStr (rstrip (c_dir c) +++ "/")); ("fileTemplate", PStr ("%s" +++ c_template c));
          ("fileWriteMode", PStr "Stream"); ("lazyOpen", PBool true);
          ("storeAttr", PBool true); ("swmrMode", PBool true)]).
  pose (l2 := [("flushAttrPerNFrames", PNum 0); ("flushDataPerNFrames", PNum (c_steps c));
          ("xmlLayout", PStr (layout_of mri c))]).
  pose (asyn := map (fun p : string * pv => PutAsync (fst p) (snd p))).
  pose (fin := (if c_remove c then [OpenHdf; KeepHdf] else []) ++ [CheckXml]).
  assert (EA : configure_acts mri c =
    [Put "positionMode" (PBool true); NeedDot] ++ asyn l1 ++ asyn (c_dims c) ++
    [SetLayout (layout_of mri c); WriteLayout (layout_of mri c)] ++ asyn l2 ++
    [WaitPuts; Put "numCapture" (PNum 0); Start] ++ fin) by reflexivity.
  assert (ES : started mri c (mkW [] lay op false pvs [] false) =
    mkW [layout_of mri c] (Some (layout_of mri c)) op false
     (dset "numCapture" (PNum 0) (apply (l1 ++ c_dims c ++ l2) (dset "positionMode" (PBool true) pvs))) [] true)
    by reflexivity.
  rewrite EA in E. rewrite ES. clear EA ES.
  assert (L1 : length l1 = 10) by reflexivity. assert (L2 : length l2 = 3) by reflexivity.
  clearbody l1 l2. set (lf := layout_of mri c) in *. clearbody lf.
  cbn [w_files w_layout w_open w_hdf w_pvs w_pending w_running].
  cbn [app] in E.
  Ltac cut E := rewrite do_cut in E; injection E as <- <-; left;
    cbn [w_files w_layout w_open w_hdf w_pvs w_pending w_running];
    repeat split; auto; right; split; reflexivity.
  Ltac go E := rewrite do_cons in E;
    cbn [do_act w_files w_layout w_open w_hdf w_pvs w_pending w_running app] in E.
  destruct k as [|k]; [cut E|]. go E.
  destruct k as [|k]; [cut E|]. go E.
  destruct (has_dot (c_filename c)) eqn:ED;
    [|injection E as <- <-; left; cbn [w_files w_layout w_open w_hdf w_pvs w_pending w_running]; auto 10].
  unfold asyn at 1 in E. rewrite do_dims in E.
  destruct (Nat.ltb k (length l1)) eqn:EL1;
    [injection E as <- <-; left; cbn [w_files w_layout w_open w_hdf w_pvs w_pending w_running]; auto 10|].
  apply Nat.ltb_ge in EL1. remember (k - length l1) as j eqn:EJ.
  unfold asyn at 1 in E. rewrite do_dims in E.
  destruct (Nat.ltb j (length (c_dims c))) eqn:EL2;
    [injection E as <- <-; left; cbn [w_files w_layout w_open w_hdf w_pvs w_pending w_running]; auto 10|].
  apply Nat.ltb_ge in EL2. remember (j - length (c_dims c)) as i eqn:EI.
  cbn [w_files w_layout w_open w_hdf w_pvs w_pending w_running app] in E.
  destruct i as [|i]; [cut E|]. go E.
  destruct i as [|i]; [cut E|]. go E.
  cbn [smem existsb] in E.
  unfold asyn at 1 in E. rewrite do_dims in E.
  destruct (Nat.ltb i (length l2)) eqn:EL3;
    [injection E as <- <-; left; cbn [w_files w_layout w_open w_hdf w_pvs w_pending w_running]; auto 10|].
  apply Nat.ltb_ge in EL3. remember (i - length l2) as h eqn:EH.
  cbn [w_files w_layout w_open w_hdf w_pvs w_pending w_running app] in E.
  destruct h as [|h]; [cut E|]. go E.
  destruct h as [|h]; [cut E|]. go E.
  destruct h as [|h]; [cut E|]. go E.
  right. split; [reflexivity|].
  rewrite <- app_assoc in E.
  generalize dependent (dset "numCapture" (PNum 0) (apply (l1 ++ c_dims c ++ l2) (dset "positionMode" (PBool true) pvs))).
  intros pv1 E. unfold fin in E.
  destruct (c_remove c) eqn:ER; cbn [app] in E.
  - destruct h as [|h]; [rewrite do_cut in E; injection E as <- <-; do 2 eexists; split; [reflexivity|]; repeat split; auto; discriminate|]. go E.
    destruct h as [|h]; [rewrite do_cut in E; injection E as <- <-; do 2 eexists; split; [reflexivity|]; repeat split; auto; try discriminate; intros _; right; left; repeat split; lia|]. go E.
    destruct h as [|h]; [rewrite do_cut in E|go E; replace (do_acts (c_filename c) h [] ) with (fun w : world => (w, true)) in E by (destruct h; reflexivity)]; cbv beta iota in E; injection E as <- <-; do 2 eexists; (split; [reflexivity|]); repeat split; auto; try discriminate; intros _; right; right; split; reflexivity.
  - destruct h as [|h]; [rewrite do_cut in E|go E; replace (do_acts (c_filename c) h [] ) with (fun w : world => (w, true)) in E by (destruct h; reflexivity)]; cbv beta iota in E; injection E as <- <-; do 2 eexists; (split; [reflexivity|]); repeat split; auto; discriminate.
Qed.

Lemma filter_self f : filter (fun g => negb (String.eqb g f)) [f] = [].
Proof. cbn. rewrite String.eqb_refl. reflexivity. Qed.

(* What a reset can leave. *)
Lemma reset_cases k w ph w' :
  (w_files w = [] \/ exists f, w_files w = [f] /\ w_layout w = Some f) ->
  do_reset k w = (ph, w') ->
  w_layout w' = w_layout w /\
  (ph = Failed \/ ph = Ready /\ w_files w' = [] /\ w_hdf w' = false /\ w_running w' = false /\ w_pending w' = [] /\
                  w_open w' = (if w_hdf w then pred (w_open w) else w_open w)) /\
  (w_files w' = w_files w \/ w_files w' = []) /\
  (w_hdf w' = w_hdf w /\ w_open w' = w_open w \/ w_hdf w = true /\ w_hdf w' = false /\ w_open w' = pred (w_open w)) /\
  (w_running w' = true -> w_running w = true /\ w_files w' = w_files w /\
     w_pvs w' = w_pvs w /\ w_pending w' = w_pending w \/
     w_running w = true /\ w_files w' = w_files w /\ w_pvs w' = apply (w_pending w) (w_pvs w) /\ w_pending w' = []).
Proof.
  intros F E. unfold do_reset, reset_acts in E.
  destruct w as [fs lay op hdf pvs pend run]. cbn [w_files w_layout w_open w_hdf w_pvs w_pending w_running] in *.
  cbn [app] in E.
  do 4 (destruct k as [|k];
    [rewrite do_cut in E; injection E as <- <-;
     cbn [w_files w_layout w_open w_hdf w_pvs w_pending w_running]; split; [reflexivity|]; split; [left; reflexivity|];
     split; [left; reflexivity|]; split; [left; split; reflexivity|]; intros K; try discriminate K; auto 10|];
    go E).
  assert (X : forall fs0 lay0 op0 hdf0 pvs0 pend0 k0 r,
    (r = [] \/ exists f, r = [Remove f; Put "xmlLayout" (PStr "")] /\ fs0 = [f]) -> (r = [] -> fs0 = []) ->
    let (w2, ok) := do_acts "" k0 r (mkW fs0 lay0 op0 hdf0 pvs0 pend0 false) in
    w_layout w2 = lay0 /\ w_hdf w2 = hdf0 /\ w_open w2 = op0 /\ w_running w2 = false /\ w_pending w2 = pend0 /\
    (w_files w2 = fs0 \/ w_files w2 = []) /\ (ok = true -> w_files w2 = [])).
  { intros fs0 lay0 op0 hdf0 pvs0 pend0 k0 r [->|(f & -> & ->)] Hr.
    - destruct k0; cbn; rewrite (Hr eq_refl); auto 10.
    - destruct k0 as [|[|k0]]; cbn; rewrite ?String.eqb_refl; cbn; repeat split; auto; try discriminate.
      destruct k0; cbn; repeat split; auto. }
  set (r := match lay with Some f => _ | None => _ end) in E.
  assert (HR : (r = [] \/ exists f, r = [Remove f; Put "xmlLayout" (PStr "")] /\ fs = [f]) /\ (r = [] -> fs = [])).
  { unfold r. destruct F as [->|(f & -> & ->)].
    - split; [|auto]. destruct lay; left; reflexivity.
    - cbn. rewrite String.eqb_refl. cbn. split; [right; exists f; auto|discriminate]. }
  destruct HR as [HR1 HR2]. clearbody r.
  destruct hdf.
  - cbn [app] in E. destruct k as [|k].
    + rewrite do_cut in E; injection E as <- <-.
      cbn [w_files w_layout w_open w_hdf w_pvs w_pending w_running].
      repeat split; auto. intros; discriminate.
    + go E. specialize (X fs lay (pred op) false (apply pend pvs) [] k r HR1 HR2).
      destruct (do_acts "" k r _) as [w2 ok]. injection E as <- <-.
      destruct X as (A & B & C & D & P & G & H).
      split; [exact A|]. split; [destruct ok; [right; auto 10|left; reflexivity]|].
      split; [exact G|]. split; [right; auto|]. intros K. congruence.
  - cbn [app] in E. specialize (X fs lay op false (apply pend pvs) [] k r HR1 HR2).
    destruct (do_acts "" k r _) as [w2 ok]. injection E as <- <-.
    destruct X as (A & B & C & D & P & G & H).
    split; [exact A|]. split; [destruct ok; [right; auto 10|left; reflexivity]|].
    split; [exact G|]. split; [left; auto|]. intros K. congruence.
Qed.

Lemma inv_reset mri cs ph w k : inv mri cs (ph, w) -> inv mri cs (do_reset k w).
Proof.
  intros (F & O & R & _ & _). destruct (do_reset k w) as [ph' w'] eqn:E.
  destruct (reset_cases k w ph' w' F E) as (A & B & C & D & G).
  split; [|split; [|split; [|split]]].
  - rewrite A. destruct C as [C|C]; rewrite C; [exact F|left; reflexivity].
  - destruct D as [[D1 D2]|(D0 & D1 & D2)]; rewrite D1, D2; [exact O|lia].
  - intros K. destruct (G K) as [(G1 & G2 & G3 & G4)|(G1 & G2 & G3 & G4)];
      destruct (R G1) as (c & I & S1 & S2 & S3 & S4); exists c; (split; [exact I|]); unfold settled;
      rewrite G2, G3, G4, A; rewrite ?S2; auto.
  - intros ->. destruct B as [B|(_ & B)]; [discriminate|tauto].
  - intros ->. destruct B as [B|(B & _)]; discriminate.
Qed.

Lemma inv_configure mri cs w c k :
  plain c -> inv mri cs (Ready, w) -> inv mri (cs ++ [c]) (do_configure mri c k w).
Proof.
  intros PL (_ & O & _ & RD & _). destruct (RD eq_refl) as (F & H & R & P).
  destruct (do_configure mri c k w) as [ph' w'] eqn:E.
  destruct (configure_cases mri c k w ph' w' F P H R E)
    as [(-> & A & B & C & D)|(_ & o & h & -> & A & B & C & D)].
  - split; [|split; [|split; [|split]]].
    + destruct D as [D|[D1 D2]]; [left; exact D|right; eauto].
    + rewrite B, C. lia.
    + congruence.
    + discriminate.
    + discriminate.
  - cbn [inv w_files w_layout w_open w_hdf w_pvs w_pending w_running started].
    split; [right; eexists; split; reflexivity|]. split.
    { destruct (c_remove c); [destruct (C eq_refl) as [[-> ->]|[(-> & -> & _)|[-> ->]]]; lia|].
      destruct (B eq_refl) as [-> ->]. lia. }
    split; [intros _; exists c; split; [apply in_or_app; right; left; reflexivity|]|].
    { exact (hdf_settled mri c (started mri c w) o h (started_settled mri c w PL)). }
    split; [intros ->; destruct A; discriminate|reflexivity].
Qed.

Lemma inv_weaken mri cs cs' x : incl cs cs' -> inv mri cs x -> inv mri cs' x.
Proof.
  destruct x as [ph w]. intros I (A & B & C & D). split; [exact A|]. split; [exact B|]. split; [|exact D].
  intros K. destruct (C K) as (c & Hc & S1). exists c. split; [apply I; exact Hc|exact S1].
Qed.

Lemma inv_step mri cs x o :
  (forall c, In c (scans [o]) -> plain c) -> inv mri cs x -> inv mri (cs ++ scans [o]) (step mri x o).
Proof.
  intros PL I. destruct x as [ph w].
  assert (W : inv mri (cs ++ scans [o]) (ph, w)) by (apply (inv_weaken mri cs); [apply incl_appl, incl_refl|exact I]).
  destruct o as [c k|k| |c kr k]; cbn [step].
  - destruct ph; try exact W. apply inv_configure; [apply PL; left; reflexivity|exact I].
  - apply inv_reset with ph. exact W.
  - destruct ph; try exact W. cbn [scans] in W |- *. destruct W as (A & B & C & D).
    split; [exact A|]. split; [exact B|]. cbn [w_running]. repeat split; intros; discriminate.
  - destruct ph; try exact W.
    pose proof (inv_reset mri (cs ++ scans [Reconfigure c kr k]) Configured w kr W) as W2.
    pose proof (inv_reset mri cs Configured w kr I) as I2.
    destruct (do_reset kr w) as [ph' w']. destruct ph'; try exact W2.
    apply inv_configure; [apply PL; left; reflexivity|exact I2].
Qed.

Lemma scans_app a b : scans (a ++ b) = scans a ++ scans b.
Proof. induction a as [|[c k|k| |c kr k] a IH]; cbn [scans app]; rewrite ?IH; reflexivity. Qed.

Lemma run_snoc mri pvs os o : run mri pvs (os ++ [o]) = step mri (run mri pvs os) o.
Proof. unfold run. rewrite fold_left_app. reflexivity. Qed.

Lemma inv_run mri pvs os :
  (forall c, In c (scans os) -> plain c) -> inv mri (scans os) (run mri pvs os).
Proof.
  induction os as [|o os IH] using rev_ind; intros PL.
  - cbn. repeat split; auto; discriminate.
  - rewrite run_snoc, scans_app. apply inv_step.
    + intros c H. apply PL. rewrite scans_app. apply in_or_app. right; exact H.
    + apply IH. intros c H. apply PL. rewrite scans_app. apply in_or_app. left; exact H.
Qed.

(* ---- theorems ---- *)
(* Whenever the plugin captures, whatever was cut short before, it was set up in full for a scan that was
   asked for, nothing is still on its way to it, and the layout it reads is there. *)
Theorem C100_running : forall mri pvs os ph w,
  (forall c, In c (scans os) -> plain c) -> run mri pvs os = (ph, w) -> w_running w = true ->
  exists c, In c (scans os) /\ settled mri c w.
Proof.
  intros mri pvs os ph w PL E R. pose proof (inv_run mri pvs os PL) as I. rewrite E in I.
  destruct I as (_ & _ & C & _). exact (C R).
Qed.
Print Assumptions C100_running.

(* A configure that came to its end set the plugin up for its own scan, and it captures. *)
Theorem C100_configured : forall mri pvs os o c w,
  (forall c, In c (scans (os ++ [o])) -> plain c) -> scans [o] = [c] ->
  run mri pvs (os ++ [o]) = (Configured, w) ->
  fst (run mri pvs os) = Ready \/ (fst (run mri pvs os) = Configured /\ exists kr k, o = Reconfigure c kr k) ->
  settled mri c w /\ w_running w = true /\ w_hdf w = c_remove c /\ has_dot (c_filename c) = true.
Proof.
  intros mri pvs os o c w PL SC E ST.
  assert (I : inv mri (scans os) (run mri pvs os)).
  { apply inv_run. intros d H. apply PL. rewrite scans_app. apply in_or_app. left; exact H. }
  assert (PC : plain c). { apply PL. rewrite scans_app, SC. apply in_or_app. right; left; reflexivity. }
  rewrite run_snoc in E. destruct (run mri pvs os) as [ph w0]. cbn [fst] in ST.
  assert (X : exists k w1, inv mri (scans os) (Ready, w1) /\ do_configure mri c k w1 = (Configured, w)).
  { destruct ST as [->|(-> & kr & k & ->)].
    - destruct o as [c0 k|k| |c0 kr k]; cbn [scans] in SC; try discriminate; injection SC as <-;
        cbn [step] in E; first [discriminate E | exists k, w0; auto].
    - cbn [step] in E. pose proof (inv_reset mri (scans os) Configured w0 kr I) as I2.
      destruct (do_reset kr w0) as [ph' w'] eqn:ER. destruct ph'; try discriminate.
      + exists k, w'; auto.
      + exfalso. destruct I as (F & _). destruct (reset_cases kr w0 _ _ F ER) as (_ & [K|(K & _)] & _); discriminate. }
  destruct X as (k & w1 & (_ & _ & _ & RD & _) & EC). destruct (RD eq_refl) as (F & H & R & P).
  destruct (configure_cases mri c k w1 _ _ F P H R EC) as [(K & _)|(DOT & oo & h & -> & A & B & C & D)];
    [discriminate|].
  split; [exact (hdf_settled mri c (started mri c w1) oo h (started_settled mri c w1 PC))|].
  split; [reflexivity|]. split; [exact (D eq_refl)|exact DOT].
Qed.
Print Assumptions C100_configured.

(* A reset that came to its end, and so Ready, means that no layout file is left, the file of the demand
   positions is not held and the plugin does not capture. *)
Theorem C100_ready : forall mri pvs os w,
  (forall c, In c (scans os) -> plain c) -> run mri pvs os = (Ready, w) ->
  w_files w = [] /\ w_hdf w = false /\ w_running w = false /\ w_pending w = [].
Proof.
  intros mri pvs os w PL E. pose proof (inv_run mri pvs os PL) as I. rewrite E in I.
  destruct I as (_ & _ & _ & D & _). exact (D eq_refl).
Qed.
Print Assumptions C100_ready.

(* However often hooks raise on the way, there is never more than one layout file, the one the part knows. *)
Theorem C100_one_file : forall mri pvs os ph w f,
  (forall c, In c (scans os) -> plain c) -> run mri pvs os = (ph, w) -> In f (w_files w) ->
  w_files w = [f] /\ w_layout w = Some f.
Proof.
  intros mri pvs os ph w f PL E H. pose proof (inv_run mri pvs os PL) as I. rewrite E in I.
  destruct I as ([F|(g & F & L)] & _); rewrite F in H; [contradiction|].
  destruct H as [->|[]]. auto.
Qed.
Print Assumptions C100_one_file.

(* The file of the demand positions is closed whenever the part holds none, unless a configure raised while
   it wrote that file. *)
Theorem C100_closed : forall mri pvs os ph w,
  (forall c, In c (scans os) -> plain c) -> (forall o, In o os -> ~ cut_opening o) ->
  run mri pvs os = (ph, w) -> w_open w = (if w_hdf w then 1 else 0).
Proof.
  intros mri pvs os. induction os as [|o os IH] using rev_ind; intros ph w PL CO E.
  - injection E as <- <-. reflexivity.
  - assert (PL1 : forall c, In c (scans os) -> plain c).
    { intros d H. apply PL. rewrite scans_app. apply in_or_app. left; exact H. }
    assert (CO1 : forall o, In o os -> ~ cut_opening o) by (intros u H; apply CO, in_or_app; left; exact H).
    assert (CO2 : ~ cut_opening o) by (apply CO, in_or_app; right; left; reflexivity).
    pose proof (inv_run mri pvs os PL1) as I. rewrite run_snoc in E.
    destruct (run mri pvs os) as [ph0 w0]. specialize (IH ph0 w0 PL1 CO1 eq_refl). clear CO CO1.
    assert (RST : forall k ph1 w1, do_reset k w0 = (ph1, w1) -> w_open w1 = (if w_hdf w1 then 1 else 0)).
    { intros k ph1 w1 ER. destruct I as (F & _).
      destruct (reset_cases k w0 ph1 w1 F ER) as (_ & _ & _ & [[D1 D2]|(D0 & D1 & D2)] & _);
        rewrite D1, D2, IH; [reflexivity|]. rewrite D0. reflexivity. }
    assert (CFG : forall c k w1, inv mri (scans os) (Ready, w1) -> w_open w1 = (if w_hdf w1 then 1 else 0) ->
      ~ (c_remove c = true /\ k = 21 + length (c_dims c)) ->
      do_configure mri c k w1 = (ph, w) -> w_open w = (if w_hdf w then 1 else 0)).
    { intros c k w1 (_ & _ & _ & RD & _) O1 NC EC. destruct (RD eq_refl) as (F & H & R & P).
      rewrite H in O1.
      destruct (configure_cases mri c k w1 _ _ F P H R EC) as [(-> & A & B & C & D)|(_ & oo & h & -> & A & B & C & D)].
      - rewrite C, B. exact O1.
      - cbn [w_open w_hdf]. destruct (c_remove c).
        + destruct (C eq_refl) as [[-> ->]|[(-> & -> & _ & K)|[-> ->]]]; rewrite ?O1; try reflexivity.
          exfalso. apply NC. auto.
        + destruct (B eq_refl) as [-> ->]. exact O1. }
    destruct o as [c k|k| |c kr k]; cbn [step cut_opening] in *.
    + destruct ph0; try (injection E as <- <-; exact IH). apply (CFG c k w0); assumption.
    + apply (RST k ph w E).
    + destruct ph0; injection E as <- <-; exact IH.
    + destruct ph0; try (injection E as <- <-; exact IH).
      pose proof (inv_reset mri (scans os) Configured w0 kr I) as I2.
      destruct (do_reset kr w0) as [ph' w'] eqn:ER. specialize (RST kr ph' w' ER).
      destruct ph'; try (injection E as <- <-; exact RST). apply (CFG c k w'); assumption.
Qed.
Print Assumptions C100_closed.

(* Position mode is on before the plugin is asked for anything else, however far the configure comes. *)
Definition spares (n : string) (a : act) : Prop :=
  match a with Put m _ | PutAsync m _ => m <> n | _ => True end.
Lemma do_spares name n v l : Forall (spares n) l -> forall k w,
  dget n (w_pvs w) = Some v -> ~ In n (map fst (w_pending w)) ->
  dget n (w_pvs (fst (do_acts name k l w))) = Some v.
Proof.
  induction 1 as [|a l Ha Hl IH]; intros k w G N; [destruct k; exact G|].
  destruct k as [|k]; [exact G|]. rewrite do_cons.
  destruct (do_act name w a) as [w'|] eqn:E; [|exact G].
  apply IH.
  - destruct a; cbn [do_act] in E; cbn [spares] in Ha;
      try (destruct (has_dot name); [|discriminate]); injection E as <-; cbn [w_pvs]; try exact G.
    + rewrite dget_dset_other by auto. exact G.
    + rewrite apply_notin by exact N. exact G.
  - destruct a; cbn [do_act] in E; cbn [spares] in Ha;
      try (destruct (has_dot name); [|discriminate]); injection E as <-; cbn [w_pending]; try exact N.
    + rewrite map_app, in_app_iff. intros [K|[K|[]]]; [exact (N K)|exact (Ha K)].
    + intros [].
Qed.
Theorem C100_position_first : forall mri c k w ph w',
  plain c -> w_pending w = [] -> do_configure mri c k w = (ph, w') ->
  w' = w \/ dget "positionMode" (w_pvs w') = Some (PBool true).
Proof.
  intros mri c k w ph w' [_ OUT] P E. unfold do_configure in E.
  destruct (do_acts (c_filename c) k (configure_acts mri c) w) as [w2 ok] eqn:ED.
  injection E as <- <-. change w2 with (fst (w2, ok)). rewrite <- ED. clear ED w2 ok.
  unfold configure_acts. destruct k as [|k]; [left; reflexivity|right].
  cbn [app]. rewrite do_cons. cbn [do_act].
  apply do_spares.
  - repeat (apply Forall_cons; [cbn [spares]; try discriminate; exact I|]).
    apply Forall_app. split.
    + apply Forall_forall. intros a Ha. apply in_map_iff in Ha as (p & <- & Hp). cbn [spares].
      intros EP. apply (OUT (fst p) (in_map fst _ _ Hp)). rewrite EP. left; reflexivity.
    + repeat (apply Forall_cons; [cbn [spares]; try discriminate; exact I|]).
      apply Forall_app. split; [destruct (c_remove c); repeat constructor|repeat constructor].
  - apply dget_dset_same.
  - cbn [w_pending]. rewrite P. intros [].
Qed.
Print Assumptions C100_position_first.

(* An example scan. *)
Definition ex_conf := mkConf "/data/" "det" "%s.h5" "det.h5" 30 [("numExtraDims", PNum 1); ("extraDimSizeN", PNum 5)] true.
Example C100_ex_plain : plain ex_conf.
Proof.
  split; cbn.
  - repeat constructor; cbn; intuition discriminate.
  - intros n [<-|[<-|[]]] H; cbn in H; intuition discriminate.
Qed.
Example C100_ex_running :
  let x := run "BL:HDF" [] [Configure ex_conf 15; Reset 2; Reset 9; Configure ex_conf 23] in
  fst x = Failed /\ w_running (snd x) = true /\ w_files (snd x) = ["/data/BL_HDF-layout.xml"] /\
  dget "xmlLayout" (w_pvs (snd x)) = Some (PStr "/data/BL_HDF-layout.xml") /\
  dget "filePath" (w_pvs (snd x)) = Some (PStr "/data/") /\
  dget "numExtraDims" (w_pvs (snd x)) = Some (PNum 1) /\ w_open (snd x) = 1.
Proof. vm_compute. repeat split. Qed.
Example C100_ex_again :
  let x := run "BL:HDF" [] [Configure ex_conf 40; Reconfigure ex_conf 20 40] in
  fst x = Configured /\ w_open (snd x) = 1 /\ w_hdf (snd x) = true /\
  w_files (snd x) = ["/data/BL_HDF-layout.xml"].
Proof. vm_compute. repeat split. Qed.

(* Finding: a configure that raises while it writes the demand positions (an axis without units, say) leaves
   that file open for good: no reset closes it. *)
Theorem C100_open_refuted : ~ (forall mri pvs os w,
  (forall c, In c (scans os) -> plain c) -> run mri pvs os = (Ready, w) -> w_open w = 0).
Proof.
  intros H.
  assert (P : forall c, In c (scans [Configure ex_conf 23; Reset 20]) -> plain c)
    by (intros c [<-|[]]; exact C100_ex_plain).
  assert (E : run "A" [] [Configure ex_conf 23; Reset 20] =
              (Ready, snd (run "A" [] [Configure ex_conf 23; Reset 20]))) by (vm_compute; reflexivity).
  pose proof (H _ _ _ _ P E) as K. vm_compute in K. discriminate.
Qed.
Print Assumptions C100_open_refuted.

(* Finding: a reset that raises between the removal of the layout file and the put leaves the plugin with the
   name of a file that is gone, and the next reset, which finds no file, leaves it there. *)
Theorem C100_xml_refuted : ~ (forall mri pvs os w,
  (forall c, In c (scans os) -> plain c) -> run mri pvs os = (Ready, w) -> 
  dget "xmlLayout" (w_pvs w) = None \/ dget "xmlLayout" (w_pvs w) = Some (PStr "")).
Proof.
  intros H.
  assert (P : forall c, In c (scans [Configure ex_conf 40; Reset 6; Reset 20]) -> plain c)
    by (intros c [<-|[]]; exact C100_ex_plain).
  assert (E : run "A" [] [Configure ex_conf 40; Reset 6; Reset 20] =
              (Ready, snd (run "A" [] [Configure ex_conf 40; Reset 6; Reset 20]))) by (vm_compute; reflexivity).
  destruct (H _ _ _ _ P E) as [K|K]; vm_compute in K; discriminate.
Qed.
Print Assumptions C100_xml_refuted.

(* ---- names ---- *)
(* No underscore in a mri. *)
Fixpoint no_underscore (s : string) : bool :=
  match s with EmptyString => true | String c r => negb (Ascii.eqb c "_") && no_underscore r end.

Lemma append_inv_r a b c : a +++ c = b +++ c -> a = b.
Proof.
  assert (LA : forall a b, String.length (a +++ b) = String.length a + String.length b).
  { intros u v; induction u as [|x u IH]; cbn; auto. }
  revert b; induction a as [|x a IH]; intros [|y b] E; try reflexivity.
  - apply (f_equal String.length) in E. cbn in E. rewrite LA in E. lia.
  - apply (f_equal String.length) in E. cbn in E. rewrite LA in E. lia.
  - cbn in E. injection E as -> E. f_equal. apply IH, E.
Qed.
Lemma append_inv_l a b c : a +++ b = a +++ c -> b = c.
Proof. induction a as [|x a IH]; cbn; intros E; [exact E|]. injection E as E. auto. Qed.

Lemma no_colons_inj a b :
  no_underscore a = true -> no_underscore b = true -> no_colons a = no_colons b -> a = b.
Proof.
  revert b; induction a as [|x a IH]; intros [|y b] Ha Hb E; try reflexivity; try discriminate.
  cbn in Ha, Hb, E. apply andb_true_iff in Ha as [Ha1 Ha2]. apply andb_true_iff in Hb as [Hb1 Hb2].
  injection E as E1 E2. f_equal; [|apply IH; assumption].
  apply negb_true_iff in Ha1, Hb1. apply Ascii.eqb_neq in Ha1, Hb1.
  destruct (Ascii.eqb_spec x ":"), (Ascii.eqb_spec y ":"); subst; try congruence.
Qed.

(* Two blocks that write to one directory do not write over each other's layout, if there are no underscores
   in their names. *)
Theorem C100_names : forall dir mri mri' suffix,
  no_underscore mri = true -> no_underscore mri' = true ->
  make_xml_filename dir mri suffix = make_xml_filename dir mri' suffix -> mri = mri'.
Proof.
  intros dir mri mri' suffix U U' E. unfold make_xml_filename, join in E.
  apply no_colons_inj; [exact U|exact U'|].
  destruct (String.eqb dir "").
  - apply append_inv_r in E. exact E.
  - apply append_inv_l in E. injection E as E. apply append_inv_r in E. exact E.
Qed.
Print Assumptions C100_names.
Example C100_ex_names :
  make_xml_filename "/d" "BL18I:HDF" "layout" = "/d/BL18I_HDF-layout.xml" /\
  no_underscore "BL18I:HDF" = true.
Proof. split; reflexivity. Qed.
(* Finding: otherwise they can. *)
Theorem C100_names_refuted : exists dir mri mri' suffix,
  mri <> mri' /\ make_xml_filename dir mri suffix = make_xml_filename dir mri' suffix.
Proof. exists "/d", "BL:DET_1", "BL_DET:1", "layout". split; [discriminate|reflexivity]. Qed.
Print Assumptions C100_names_refuted.
