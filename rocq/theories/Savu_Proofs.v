From Coq Require Import String Ascii Bool QArith Lia List.
From Verif Require Import Base Hdf_Model Odin_Model Hdf_Proofs Odin2_Proofs Savu_Model Savu_Spec.
From Verif Require Pmac_Model Pmac_Spec Pmac_Proofs.
Import ListNotations.
Local Open Scope nat_scope.
Local Open Scope string_scope.
Local Open Scope list_scope.

(* ---- q_mapping ---- *)
Lemma nget_nset n x d k : nget k (nset n x d) = if Nat.eqb k n then Some x else nget k d.
Proof.
  induction d as [|[m y] d IH]; cbn.
  - reflexivity.
  - destruct (Nat.eqb_spec n m) as [->|N]; cbn.
    + now destruct (Nat.eqb_spec k m).
    + destruct (Nat.eqb_spec k m) as [->|M]; [|exact IH]. destruct (Nat.eqb_spec m n); [congruence|reflexivity].
Qed.
Lemma nset_keys n x d k : In k (map fst (nset n x d)) <-> k = n \/ In k (map fst d).
Proof.
  induction d as [|[m y] d IH]; cbn; [intuition|].
  destruct (Nat.eqb_spec n m) as [->|N]; cbn; [intuition|]. rewrite IH. intuition.
Qed.
Lemma nset_nodup n x d : NoDup (map fst d) -> NoDup (map fst (nset n x d)).
Proof.
  induction d as [|[m y] d IH]; cbn; intro H; [repeat constructor; intros []|].
  destruct (Nat.eqb_spec n m) as [->|N]; cbn; [exact H|]. inversion H as [|? ? A B]; subst. constructor; [|auto].
  rewrite nset_keys. intros [->|K]; [congruence|contradiction].
Qed.
Lemma nget_In d k x : NoDup (map fst d) -> In (k, x) d <-> nget k d = Some x.
Proof.
  induction d as [|[m y] d IH]; cbn; intro H; [split; [tauto|discriminate]|]. inversion H as [|? ? A B]; subst.
  destruct (Nat.eqb_spec k m) as [->|N].
  - split; [|intro E; left; congruence]. intros [E|I]; [congruence|]. exfalso. apply A. apply in_map_iff. exists (m, x). auto.
  - rewrite <- (IH B). split; [intros [E|I]; [congruence|exact I]|auto].
Qed.
Lemma index_of_spec x l i n : index_of x l i = Some n -> exists k, n = i + k /\ nth_error l k = Some x.
Proof.
  revert i; induction l as [|y l IH]; intros i; cbn; [discriminate|].
  destruct (String.eqb_spec x y) as [->|N]; intro H.
  - injection H as <-. exists 0. split; [lia|reflexivity].
  - destruct (IH _ H) as (k & -> & K). exists (S k). split; [lia|exact K].
Qed.
Lemma index_of_complete x l i k : NoDup l -> nth_error l k = Some x -> index_of x l i = Some (i + k).
Proof.
  revert i k; induction l as [|y l IH]; intros i k H K; [destruct k; discriminate|]. inversion H as [|? ? A B]; subst.
  cbn. destruct k as [|k]; cbn in K.
  - injection K as ->. rewrite String.eqb_refl. f_equal. lia.
  - destruct (String.eqb_spec x y) as [->|N]; [exfalso; apply A; eapply nth_error_In; exact K|].
    rewrite (IH (S i) k B K). f_equal. lia.
Qed.
Lemma letters_nodup : NoDup Pmac_Model.CS_AXIS_NAMES.
Proof. apply Pmac_Proofs.has_dup_iff. reflexivity. Qed.

Definition qstep := fun (d : list (nat * string)) (kv : string * (string * string)) =>
  match index_of (snd (snd kv)) Pmac_Model.CS_AXIS_NAMES 1 with Some q => nset q (fst kv) d | None => d end.
Lemma qfold_nodup (m : list (string * (string * string))) d : NoDup (map fst d) -> NoDup (map fst (fold_left qstep m d)).
Proof.
  revert d; induction m as [|kv m IH]; intros d H; cbn; [exact H|]. apply IH. unfold qstep.
  destruct (index_of _ _ _); [now apply nset_nodup|exact H].
Qed.
Lemma qfold_sound (m : list (string * (string * string))) d k a : nget k (fold_left qstep m d) = Some a ->
  (exists p l, In (a, (p, l)) m /\ index_of l Pmac_Model.CS_AXIS_NAMES 1 = Some k) \/ nget k d = Some a.
Proof.
  revert d; induction m as [|[b [p l]] m IH]; intros d H; cbn in H; [auto|].
  destruct (IH _ H) as [(p' & l' & I & E)|G]; [left; exists p', l'; split; [now right|exact E]|].
  unfold qstep in G. cbn [fst snd] in G. destruct (index_of l Pmac_Model.CS_AXIS_NAMES 1) as [q|] eqn:E; [|auto].
  rewrite nget_nset in G. destruct (Nat.eqb_spec k q) as [->|N]; [|auto]. injection G as ->. left. exists p, l. split; [now left|exact E].
Qed.
Lemma index_inj l l' k : index_of l Pmac_Model.CS_AXIS_NAMES 1 = Some k -> index_of l' Pmac_Model.CS_AXIS_NAMES 1 = Some k -> l = l'.
Proof.
  intros A B. destruct (index_of_spec _ _ _ _ A) as (i & E1 & I), (index_of_spec _ _ _ _ B) as (j & E2 & J).
  assert (i = j) by lia. subst. congruence.
Qed.
Lemma qfold_keep (m : list (string * (string * string))) d k a :
  (forall b p l, In (b, (p, l)) m -> index_of l Pmac_Model.CS_AXIS_NAMES 1 = Some k -> False) ->
  nget k d = Some a -> nget k (fold_left qstep m d) = Some a.
Proof.
  revert d; induction m as [|[b [p l]] m IH]; intros d H G; cbn; [exact G|].
  apply IH; [intros b' p' l' I; apply (H b' p' l'); now right|]. unfold qstep. cbn [fst snd].
  destruct (index_of l Pmac_Model.CS_AXIS_NAMES 1) as [q|] eqn:E; [|exact G]. rewrite nget_nset.
  destruct (Nat.eqb_spec k q) as [->|N]; [|exact G]. exfalso. apply (H b p l); [now left|exact E].
Qed.
Lemma qfold_complete (m : list (string * (string * string))) d k a p l : NoDup (map (fun kv => snd (snd kv)) m) ->
  In (a, (p, l)) m -> index_of l Pmac_Model.CS_AXIS_NAMES 1 = Some k -> nget k (fold_left qstep m d) = Some a.
Proof.
  revert d; induction m as [|[b [p' l']] m IH]; intros d H I E; [destruct I|]. cbn. inversion H as [|? ? A B]; subst.
  destruct I as [I|I].
  - injection I as -> -> ->. apply qfold_keep.
    + intros b' p'' l'' J E'. assert (l'' = l) by (eapply index_inj; eauto). subst. apply A. apply in_map_iff.
      exists (b', (p'', l)). auto.
    + unfold qstep. cbn [fst snd]. rewrite E, nget_nset, Nat.eqb_refl. reflexivity.
  - eapply IH; eauto.
Qed.

(** The map of Q numbers of a scan. *)
Lemma mapping_q rows axes m : Pmac_Model.cs_axis_mapping rows axes = Ok m ->
  exists port letter, Pmac_Spec.one_cs rows axes port letter /\
    (forall a, dget a m = Some (port, letter a) <-> In a axes) /\
    (forall p l a, In (a, (p, l)) m -> p = port /\ l = letter a /\ In a axes) /\
    NoDup (map fst (q_mapping m)) /\
    forall k a, In (k, a) (q_mapping m) <-> exists i, k = S i /\ In a axes /\ nth_error letters i = Some (letter a).
Proof.
  intro H. destruct (Pmac_Proofs.mapping_sound _ _ _ H) as (port & letter & O & K & N & V).
  exists port, letter. split; [exact O|].
  assert (G : forall a, dget a m = Some (port, letter a) <-> In a axes).
  { intro a. split; [|apply V]. intro D. apply K. now apply dget_Some_key in D. }
  split; [exact G|].
  assert (P : forall p l a, In (a, (p, l)) m -> p = port /\ l = letter a /\ In a axes).
  { intros p l a I. assert (A : In a axes). { apply K. apply in_map_iff. exists (a, (p, l)). auto. }
    pose proof (V a A) as D. apply (dget_In_nodup _ _ _ N) in I. rewrite I in D. injection D as -> ->. auto. }
  split; [exact P|].
  assert (Q : NoDup (map fst (q_mapping m))) by (apply qfold_nodup; constructor).
  split; [exact Q|]. intros k a. rewrite (nget_In _ _ _ Q). split.
  - intro E. apply qfold_sound in E. destruct E as [(p & l & I & E)|E]; [|discriminate].
    destruct (P _ _ _ I) as (-> & -> & A). destruct (index_of_spec _ _ _ _ E) as (i & -> & J). exists i. auto.
  - intros (i & -> & A & L). pose proof (V a A) as D. apply dget_Some_In in D.
    eapply qfold_complete; [|exact D|apply (index_of_complete _ _ 1 i letters_nodup); exact L].
    clear - H. unfold Pmac_Model.cs_axis_mapping in H. destruct (Pmac_Model.map_rows axes rows [] []) as [[ports m']|]; [|discriminate].
    destruct (negb _); [discriminate|]. destruct (Nat.ltb _ _); [discriminate|]. destruct (Pmac_Model.has_dup _) eqn:E; [discriminate|].
    injection H as ->. now apply Pmac_Proofs.has_dup_iff.
Qed.

(* ---- cs_axis_numbers ---- *)
Lemma before_comma_spec port s : before_comma s = port <->
  (s = port \/ exists r, s = port +++ "," +++ r) /\ ~ In ","%char (list_ascii_of_string port).
Proof.
  revert port; induction s as [|c s IH]; intro port; cbn.
  - split.
    + intros <-. split; [now left|intros []].
    + intros [[<-|(r & E)] _]; [reflexivity|]. destruct port; discriminate.
  - destruct (Ascii.eqb_spec c ","%char) as [->|N].
    + split.
      * intros <-. split; [right; exists s; reflexivity|intros []].
      * intros [[<-|(r & E)] H]; [exfalso; apply H; now left|]. destruct port as [|d port]; [reflexivity|].
        injection E as <- E. exfalso. apply H. now left.
    + split.
      * intros <-. destruct (proj1 (IH (before_comma s)) eq_refl) as [D H]. split.
        { destruct D as [D|(r & D)]; [left; cbn; f_equal; exact D|right; exists r; cbn; f_equal; exact D]. }
        intros [E|I]; [congruence|contradiction].
      * intros [D H]. destruct port as [|d port].
        { destruct D as [D|(r & D)]; [discriminate|]. injection D as -> _. congruence. }
        assert (d = c /\ (s = port \/ exists r, s = port +++ "," +++ r)) as [-> D'].
        { destruct D as [D|(r & D)]; injection D as -> D; split; auto. right. exists r. exact D. }
        f_equal. apply IH. split; [exact D'|]. intro I. apply H. now right.
Qed.
Lemma raw_axis_row layout port a n : raw_axis layout port a n <->
  exists cs, In (mkMotor a (Some cs) (Some n)) layout /\ n <> 0 /\ cs <> "" /\ before_comma cs = port.
Proof.
  split.
  - intros (cs & axis & I & N & C & E & P). exists cs. repeat split; auto. apply before_comma_spec. split; [|exact P].
    destruct E as [->| ->]; [right; now exists axis|now left].
  - intros (cs & I & N & C & E). apply before_comma_spec in E. destruct E as [[->|(r & ->)] P].
    + exists port, "". repeat split; auto.
    + exists (port +++ "," +++ r), r. repeat split; auto.
Qed.
Lemma numbers_get rows port : forall d, NoDup (map m_name rows) -> (forall m, In m rows -> dget (m_name m) d = None) ->
  forall a n, dget a (cs_axis_numbers rows port d) = Some n <-> raw_axis rows port a n \/ dget a d = Some n.
Proof.
  induction rows as [|m rows IH]; intros d N H a n.
  - cbn. split; [auto|]. intros [R|D]; [|exact D]. apply raw_axis_row in R. destruct R as (cs & [] & _).
  - cbn [map] in N. inversion N as [|? ? A B]; subst. cbn [cs_axis_numbers].
    assert (OLD : forall m', In m' rows -> dget (m_name m') d = None) by (intros m' I; apply H; now right).
    assert (SKIP : (forall cs k, m_cs m = Some cs -> m_axis m = Some k -> k <> 0 -> cs <> "" -> before_comma cs = port -> False) ->
                   (raw_axis (m :: rows) port a n <-> raw_axis rows port a n)).
    { intro F. rewrite !raw_axis_row. split.
      - intros (cs & [->|I] & Hn & C & E); [exfalso; eapply F; cbn; eauto|]. exists cs. auto.
      - intros (cs & I & Hn & C & E). exists cs. split; [now right|auto]. }
    destruct (m_cs m) as [[|c cs]|] eqn:Ec.
    + rewrite (IH d B OLD), SKIP; [reflexivity|]. intros x k X _ _ Y _. congruence.
    + destruct (m_axis m) as [[|k]|] eqn:Ek.
      * rewrite (IH d B OLD), SKIP; [reflexivity|]. intros x k X Y Z _ _. congruence.
      * destruct (String.eqb_spec port (before_comma (String c cs))) as [E|E].
        -- assert (NEW : forall m', In m' rows -> dget (m_name m') (dset (m_name m) (S k) d) = None).
           { intros m' I. rewrite dget_dset_other; [now apply OLD|]. intro Q. apply A. first [rewrite Q|rewrite <- Q]; now apply in_map. }
           rewrite (IH _ B NEW).
           assert (Dm : dget (m_name m) d = None) by (apply H; now left).
           assert (Nr : forall q, raw_axis rows port (m_name m) q -> False).
           { intros q R. apply raw_axis_row in R. destruct R as (cs' & I & _). apply A. apply in_map_iff. eexists. split; [|exact I]. reflexivity. }
           assert (RM : raw_axis (m :: rows) port a n <-> raw_axis rows port a n \/ (a = m_name m /\ n = S k)).
           { rewrite !raw_axis_row. split.
             - intros (cs' & [->|I] & Hn & C & E'); [right; cbn in Ek; cbn; split; congruence|]. left. exists cs'. auto.
             - intros [(cs' & I & Hn & C & E')|[-> ->]]; [exists cs'; split; [now right|auto]|].
               exists (String c cs). split; [left; destruct m; cbn in *; congruence|]. repeat split; auto; discriminate. }
           rewrite RM. destruct (String.eqb_spec a (m_name m)) as [->|Na].
           ++ rewrite dget_dset_same, Dm. split; [intros [R|Q]; [left; now left|left; right; split; congruence]|].
              intros [[R|[_ ->]]|Q]; [now left|now right|discriminate].
           ++ rewrite dget_dset_other by congruence. tauto.
        -- rewrite (IH d B OLD), SKIP; [reflexivity|]. intros x k' X Y Z W V. congruence.
      * rewrite (IH d B OLD), SKIP; [reflexivity|]. intros x k X Y. congruence.
    + rewrite (IH d B OLD), SKIP; [reflexivity|]. intros x k X. congruence.
Qed.
Lemma numbers_nodup rows port : forall d, NoDup (dkeys d) -> NoDup (dkeys (cs_axis_numbers rows port d)).
Proof.
  induction rows as [|m rows IH]; intros d H; cbn; [exact H|]. apply IH.
  destruct (m_cs m) as [[|]|]; [exact H| |exact H]. destruct (m_axis m) as [[|]|]; [exact H| |exact H].
  destruct (String.eqb _ _); [now apply dset_nodup|exact H].
Qed.
Lemma numbers_In rows port a n : NoDup (map m_name rows) ->
  In (a, n) (cs_axis_numbers rows port []) <-> raw_axis rows port a n.
Proof.
  intro N. assert (K : NoDup (dkeys (cs_axis_numbers rows port []))) by (apply numbers_nodup; constructor).
  split.
  - intro I. apply (dget_In_nodup _ _ _ K) in I. apply numbers_get in I; [|exact N|reflexivity]. destruct I; [assumption|discriminate].
  - intro R. apply dget_Some_In. apply numbers_get; [exact N|reflexivity|now left].
Qed.

(* ---- check_datasets ---- *)
Lemma find_snd a rows : forall ind acc,
  snd (find_dataset a ind rows acc) = true <-> snd acc = true /\ forall r, In r rows -> ~ only_mean a r.
Proof.
  induction rows as [|r rows IH]; intros ind acc; cbn [find_dataset].
  - split; [intro H; split; [exact H|intros r []]|tauto].
  - rewrite IH. destruct (String.eqb_spec (r_name r) a) as [E|E].
    + split.
      * intros [A B]. assert (only_mean a r -> snd acc = true /\ False \/ False) as _; [|].
        { intros [_ C]. exfalso. cbn in C. destruct C as [C|[C|[]]]; rewrite <- C in A; discriminate. }
        split; [destruct (r_cap r); try exact A; discriminate|].
        intros x [<-|I]; [|now apply B]. intros [_ C]. cbn in C. destruct C as [C|[C|[]]]; rewrite <- C in A; discriminate.
      * intros [A B]. split; [|intros x I; apply B; now right].
        assert (X := B r (or_introl eq_refl)). destruct (r_cap r) eqn:C; try exact A; exfalso; apply X; (split; [exact E|rewrite C; cbn; tauto]).
    + split; intros [A B]; (split; [exact A|]).
      * intros x [<-|I]; [|now apply B]. intros [Q _]. contradiction.
      * intros x I. apply B. now right.
Qed.
Lemma find_fst a rows : forall ind acc, 1 <= ind ->
  (exists k, fst (find_dataset a ind rows acc) = Some (S k)) <->
  (exists r, In r rows /\ captured a r) \/ exists k, fst acc = Some (S k).
Proof.
  induction rows as [|r rows IH]; intros ind acc I; cbn [find_dataset].
  - split; [auto|]. intros [(r & [] & _)|H]; exact H.
  - rewrite IH by lia. destruct ind as [|ind]; [lia|]. destruct (String.eqb_spec (r_name r) a) as [E|E].
    + assert (D : captured a r \/ match r_cap r with CMinMaxMean => False | CMean => False | CValue => False | _ => True end).
      { unfold captured. destruct (r_cap r); cbn; tauto. }
      split.
      * intros [(x & J & C)|(k & F)]; [left; exists x; split; [now right|exact C]|].
        destruct D as [D|D]; [left; exists r; split; [now left|exact D]|]. right. destruct (r_cap r); try contradiction; exists k; exact F.
      * intros [(x & [<-|J] & C)|(k & F)].
        -- right. exists ind. destruct C as [_ C]. cbn in C. destruct C as [C|[C|[C|[]]]]; rewrite <- C; reflexivity.
        -- left. exists x. auto.
        -- right. destruct (r_cap r); [exists k|exists ind|exists k|exists k|exists ind|exists k|exists k|exists k|exists ind]; first [exact F|reflexivity].
    + split.
      * intros [(x & J & C)|F]; [left; exists x; split; [now right|exact C]|now right].
      * intros [(x & [<-|J] & C)|F]; [destruct C; contradiction|left; exists x; auto|now right].
Qed.
Lemma find_ok a rows use : (exists k, fst (find_dataset a 0 rows (None, use)) = Some (S k)) <->
  exists r, In r (tl rows) /\ captured a r.
Proof.
  destruct rows as [|r rows]; cbn [find_dataset tl].
  - split; [intros (k & F); discriminate|intros (r & [] & _)].
  - rewrite find_fst by lia. split.
    + intros [H|(k & F)]; [exact H|]. exfalso. destruct (String.eqb _ _); [destruct (r_cap r)|]; discriminate.
    + auto.
Qed.
Lemma check_ok axes rows : forall use, (exists u, check_datasets axes rows use = Ok u) <->
  forall a n, In (a, n) axes -> exists r, In r (tl rows) /\ captured a r.
Proof.
  induction axes as [|[a n] axes IH]; intro use; cbn [check_datasets].
  - split; [intros _ a n []|intros _; now exists use].
  - destruct (find_dataset a 0 rows (None, use)) as [o u] eqn:F.
    assert (X := find_ok a rows use). rewrite F in X. cbn [fst] in X. split.
    + intros (u' & H) b k [E|I].
      * injection E as <- <-. apply X. destruct o as [[|o]|]; try discriminate. now exists o.
      * destruct o as [[|o]|]; try discriminate. apply (proj1 (IH u) (ex_intro _ u' H) b k I).
    + intro H. destruct (proj2 X (H a n (or_introl eq_refl))) as (k & ->). apply IH. intros b j I. apply (H b j). now right.
Qed.
Lemma check_use axes rows : forall use u, check_datasets axes rows use = Ok u ->
  (u = true <-> use = true /\ forall a n r, In (a, n) axes -> In r rows -> ~ only_mean a r).
Proof.
  induction axes as [|[a n] axes IH]; intros use u H; cbn [check_datasets] in H.
  - injection H as <-. split; [intro E; split; [exact E|intros a n r []]|tauto].
  - destruct (find_dataset a 0 rows (None, use)) as [o u'] eqn:F. destruct o as [[|o]|]; try discriminate.
    rewrite (IH _ _ H). assert (X := find_snd a rows 0 (None, use)). rewrite F in X. cbn [snd] in X. rewrite X. split.
    + intros [[A B] C]. split; [exact A|]. intros b k r [E|I] J; [injection E as <- <-; now apply B|eapply C; eauto].
    + intros [A B]. split; [split; [exact A|intros r J; apply (B a n r); [now left|exact J]]|].
      intros b k r I. apply (B b k r). now right.
Qed.

(* ---- links ---- *)
Lemma prefix_app p s : String.prefix p s = true <-> exists r, s = p +++ r.
Proof.
  revert s; induction p as [|c p IH]; intro s.
  - split; [intros _; now exists s|intros _; destruct s; reflexivity].
  - destruct s as [|d s]; cbn; [split; [discriminate|intros (r & E); discriminate]|].
    destruct (ascii_dec c d) as [->|N].
    + rewrite IH. split; intros (r & E); exists r; [now rewrite E|now injection E].
    + split; [discriminate|]. intros (r & E). injection E as E _. congruence.
Qed.
Lemma app_assoc_s a b c : (a +++ b) +++ c = a +++ (b +++ c).
Proof. induction a as [|x a IH]; cbn; [reflexivity|now rewrite IH]. Qed.
Lemma same_type_ok a t : In t [POSITION_VALUE; POSITION_MIN; POSITION_MAX] -> same_type a t = true <-> a = t.
Proof. cbn. intros [<-|[<-|[<-|[]]]]; destruct a; cbn; split; congruence. Qed.
Lemma of_axis_bool a t i : In t [POSITION_VALUE; POSITION_MIN; POSITION_MAX] ->
  startswith (a +++ ".") (p_name i) && same_type (p_type i) t = true <-> of_axis a t i.
Proof.
  intro T. rewrite andb_true_iff, (same_type_ok _ _ T). unfold startswith, of_axis. rewrite prefix_app. split.
  - intros [(r & E) H]. split; [exact H|]. exists r. rewrite E. now rewrite app_assoc_s.
  - intros [H (r & E)]. split; [|exact H]. exists r. rewrite E. now rewrite app_assoc_s.
Qed.
Lemma pick_spec a t : In t [POSITION_VALUE; POSITION_MIN; POSITION_MAX] -> forall infos acc,
  match pick a t infos acc with
  | Some i => picked a t infos i \/ (acc = Some i /\ forall j, In j infos -> ~ of_axis a t j)
  | None => acc = None /\ forall j, In j infos -> ~ of_axis a t j
  end.
Proof.
  intro T. induction infos as [|x infos IH]; intro acc; cbn [pick].
  - destruct acc; [right; split; [reflexivity|intros j []]|split; [reflexivity|intros j []]].
  - destruct (startswith (a +++ ".") (p_name x) && same_type (p_type x) t) eqn:B.
    + apply (of_axis_bool a t x T) in B. specialize (IH (Some x)). destruct (pick a t infos (Some x)) as [i|].
      * destruct IH as [(l1 & l2 & -> & O & L)|[E L]]; left.
        -- exists (x :: l1), l2. auto.
        -- injection E as <-. exists [], infos. auto.
      * destruct IH; discriminate.
    + assert (NX : ~ of_axis a t x) by (intro O; apply (of_axis_bool a t x T) in O; congruence).
      specialize (IH acc). destruct (pick a t infos acc) as [i|].
      * destruct IH as [(l1 & l2 & -> & O & L)|[E L]]; [left; exists (x :: l1), l2; auto|].
        right. split; [exact E|]. intros j [<-|I]; [exact NX|now apply L].
      * destruct IH as [E L]. split; [exact E|]. intros j [<-|I]; [exact NX|now apply L].
Qed.
Lemma picked_fun a t infos i j : picked a t infos i -> picked a t infos j -> i = j.
Proof.
  intros (l1 & l2 & E & O & L) (m1 & m2 & E' & O' & L'). subst infos.
  revert m1 E'. induction l1 as [|x l1 IH]; intros m1 E'; destruct m1 as [|y m1]; cbn in E'.
  - congruence.
  - injection E' as _ E'. exfalso. apply (L j); [|exact O']. rewrite E'. apply in_or_app. right. now left.
  - injection E' as _ E'. exfalso. apply (L' i); [|exact O]. rewrite <- E'. apply in_or_app. right. now left.
  - injection E' as _ E'. now apply (IH m1).
Qed.
Lemma pick_iff a t infos i : In t [POSITION_VALUE; POSITION_MIN; POSITION_MAX] ->
  pick a t infos None = Some i <-> picked a t infos i.
Proof.
  intro T. pose proof (pick_spec a t T infos None) as H. destruct (pick a t infos None) as [x|].
  - destruct H as [H|[H _]]; [|discriminate]. split; [congruence|]. intro P. f_equal. eapply picked_fun; eauto.
  - destruct H as [_ H]. split; [discriminate|]. intros (l1 & l2 & -> & O & _). exfalso. apply (H i); [|exact O]. apply in_or_app. right. now left.
Qed.
Lemma pick_None a t infos : In t [POSITION_VALUE; POSITION_MIN; POSITION_MAX] ->
  pick a t infos None = None <-> forall j, In j infos -> ~ of_axis a t j.
Proof.
  intro T. pose proof (pick_spec a t T infos None) as H. destruct (pick a t infos None) as [x|].
  - destruct H as [(l1 & l2 & -> & O & _)|[H _]]; [|discriminate]. split; [discriminate|]. intro L. exfalso. apply (L x); [|exact O].
    apply in_or_app. right. now left.
  - destruct H as [_ H]. split; auto.
Qed.

(** The links for one axis. *)
Definition axis_links (infos : list produced) (a : string) (n : nat) : list pvar :=
  match pick a POSITION_VALUE infos None with
  | None => []
  | Some v => match pick a POSITION_MIN infos None, pick a POSITION_MAX infos None with
              | Some mn, Some mx => [to_pvar v n "mean"; to_pvar mn n "min"; to_pvar mx n "max"]
              | _, _ => [to_pvar v n "mean"]
              end
  end.
Definition both (infos : list produced) (a : string) : Prop :=
  (exists i, In i infos /\ of_axis a POSITION_MIN i) /\ (exists i, In i infos /\ of_axis a POSITION_MAX i).
Lemma picked_In a t infos i : picked a t infos i -> In i infos /\ of_axis a t i.
Proof. intros (l1 & l2 & -> & O & _). split; [apply in_or_app; right; now left|exact O]. Qed.
Lemma picked_ex a t infos : In t [POSITION_VALUE; POSITION_MIN; POSITION_MAX] ->
  (exists i, picked a t infos i) <-> (exists i, In i infos /\ of_axis a t i).
Proof.
  intro T. split.
  - intros (i & P). exists i. now apply picked_In.
  - intros (i & I & O). destruct (pick a t infos None) as [x|] eqn:E; [exists x; now apply pick_iff|].
    exfalso. exact (proj1 (pick_None a t infos T) E i I O).
Qed.
Lemma both_pick infos a : both infos a <-> exists mn mx, pick a POSITION_MIN infos None = Some mn /\ pick a POSITION_MAX infos None = Some mx.
Proof.
  unfold both. rewrite <- (picked_ex a POSITION_MIN), <- (picked_ex a POSITION_MAX) by (cbn; tauto). split.
  - intros [(x & X) (y & Y)]. exists x, y. split; apply pick_iff; cbn; tauto.
  - intros (x & y & X & Y). split; [exists x|exists y]; apply pick_iff; cbn; tauto.
Qed.
Lemma link_ok axes infos : forall acc use links u, link_axes axes infos acc use = Ok (links, u) ->
  links = acc ++ flat_map (fun an => axis_links infos (fst an) (snd an)) axes /\
  (u = true <-> use = true /\ forall a n, In (a, n) axes -> both infos a) /\
  (forall a n, In (a, n) axes -> exists i, In i infos /\ of_axis a POSITION_VALUE i).
Proof.
  induction axes as [|[a n] axes IH]; intros acc use links u H; cbn [link_axes] in H.
  - injection H as <- <-. cbn. rewrite app_nil_r. split; [reflexivity|]. split; [|intros a n []].
    split; [intro E; split; [exact E|intros a n []]|tauto].
  - destruct (pick a POSITION_VALUE infos None) as [v|] eqn:Ev; [|discriminate].
    assert (V : exists i, In i infos /\ of_axis a POSITION_VALUE i).
    { apply picked_ex; [cbn; tauto|]. exists v. apply pick_iff; [cbn; tauto|exact Ev]. }
    destruct (pick a POSITION_MIN infos None) as [mn|] eqn:En; [destruct (pick a POSITION_MAX infos None) as [mx|] eqn:Ex|].
    + destruct (IH _ _ _ _ H) as (-> & U & W). split; [|split].
      * cbn [flat_map fst snd]. unfold axis_links at 2. rewrite Ev, En, Ex. now rewrite <- app_assoc.
      * rewrite U. split; intros [A B]; (split; [exact A|]).
        -- intros b k [E|I]; [injection E as <- <-|eapply B; exact I]. apply both_pick. eauto.
        -- intros b k I. apply (B b k). now right.
      * intros b k [E|I]; [injection E as <- <-; exact V|eapply W; exact I].
    + destruct (IH _ _ _ _ H) as (-> & U & W). split; [|split].
      * cbn [flat_map fst snd]. unfold axis_links at 2. rewrite Ev, En, Ex. now rewrite <- app_assoc.
      * rewrite U. split; [intros [A _]; discriminate|]. intros [_ B]. exfalso. specialize (B a n (or_introl eq_refl)).
        apply both_pick in B. destruct B as (x & y & X & Y). congruence.
      * intros b k [E|I]; [injection E as <- <-; exact V|eapply W; exact I].
    + destruct (IH _ _ _ _ H) as (-> & U & W). split; [|split].
      * cbn [flat_map fst snd]. unfold axis_links at 2. rewrite Ev, En. now rewrite <- app_assoc.
      * rewrite U. split; [intros [A _]; discriminate|]. intros [_ B]. exfalso. specialize (B a n (or_introl eq_refl)).
        apply both_pick in B. destruct B as (x & y & X & Y). congruence.
      * intros b k [E|I]; [injection E as <- <-; exact V|eapply W; exact I].
Qed.
Lemma link_total axes infos : forall acc use,
  (forall a n, In (a, n) axes -> exists i, In i infos /\ of_axis a POSITION_VALUE i) -> exists r, link_axes axes infos acc use = Ok r.
Proof.
  induction axes as [|[a n] axes IH]; intros acc use H; cbn [link_axes]; [eauto|].
  destruct (H a n (or_introl eq_refl)) as (i & I & O). destruct (pick a POSITION_VALUE infos None) as [v|] eqn:Ev.
  - assert (H' : forall b k, In (b, k) axes -> exists i, In i infos /\ of_axis b POSITION_VALUE i) by (intros b k J; apply (H b k); now right).
    destruct (pick a POSITION_MIN infos None); [destruct (pick a POSITION_MAX infos None)|]; apply IH; exact H'.
  - exfalso. exact (proj1 (pick_None a _ infos (or_introl eq_refl)) Ev i I O).
Qed.

(* ---- variables ---- *)
Lemma split_ne c s : split c s <> [].
Proof. destruct s as [|x s]; cbn; [discriminate|]. destruct (Ascii.eqb x c); [discriminate|]. destruct (split c s); discriminate. Qed.
Lemma split_app c a b : split c (a +++ String c b) = split c a ++ split c b.
Proof.
  induction a as [|x a IH]; cbn.
  - rewrite Ascii.eqb_refl. reflexivity.
  - destruct (Ascii.eqb x c); [now rewrite IH|]. rewrite IH. destruct (split c a) eqn:E; [exfalso; exact (split_ne _ _ E)|reflexivity].
Qed.
Lemma split_plain c s : ~ In c (list_ascii_of_string s) -> split c s = [s].
Proof.
  induction s as [|x s IH]; intro H; cbn; [reflexivity|]. destruct (Ascii.eqb_spec x c) as [->|N]; [exfalso; apply H; now left|].
  rewrite IH; [reflexivity|]. intro I. apply H. now right.
Qed.
Lemma split_concat c l : l <> [] -> (forall s, In s l -> ~ In c (list_ascii_of_string s)) -> split c (String.concat (String c "") l) = l.
Proof.
  induction l as [|s l IH]; intros N H; [congruence|]. destruct l as [|s' l].
  - cbn. apply split_plain. apply H. now left.
  - change (String.concat (String c "") (s :: s' :: l)) with (s +++ String c (String.concat (String c "") (s' :: l))).
    rewrite split_app, IH; [|discriminate|intros x I; apply H; now right]. rewrite split_plain; [reflexivity|]. apply H. now left.
Qed.
Lemma parse_app axes rows l1 l2 : forall vars,
  parse_words axes rows (l1 ++ l2) vars = match parse_words axes rows l1 vars with Err e => Err e | Ok v => parse_words axes rows l2 v end.
Proof.
  induction l1 as [|w l1 IH]; intro vars; cbn [parse_words app]; [reflexivity|].
  destruct (String.eqb w ""); [apply IH|]. destruct (split "=" w) as [|n [|v r]]; try reflexivity.
  destruct (startswith "$" v); [apply IH|]. destruct (check_mres_and_pos axes rows n v); [apply IH|reflexivity].
Qed.

(** The same for variables that are apart already. *)
Fixpoint assign (axes : dict nat) (rows : list prow) (l : list (string * string)) (vars : dict string) : result serr (dict string) :=
  match l with
  | [] => Ok vars
  | (n, v) :: r => if startswith "$" v then assign axes rows r vars
                   else match check_mres_and_pos axes rows n v with
                        | None => Err BadVariables
                        | Some v' => assign axes rows r (dset n v' vars)
                        end
  end.
Lemma assign_app axes rows l1 l2 : forall vars,
  assign axes rows (l1 ++ l2) vars = match assign axes rows l1 vars with Err e => Err e | Ok v => assign axes rows l2 v end.
Proof.
  induction l1 as [|[n v] l1 IH]; intro vars; cbn [assign app]; [reflexivity|].
  destruct (startswith "$" v); [apply IH|]. destruct (check_mres_and_pos axes rows n v); [apply IH|reflexivity].
Qed.
Lemma ascii_app a b : list_ascii_of_string (a +++ b) = list_ascii_of_string a ++ list_ascii_of_string b.
Proof. induction a as [|x a IH]; cbn; [reflexivity|now rewrite IH]. Qed.
Lemma parse_map axes rows l : forall vars, all_plain l ->
  parse_words axes rows (map (fun nv => fst nv +++ "=" +++ snd nv) l) vars = assign axes rows l vars.
Proof.
  induction l as [|[n v] l IH]; intros vars H; [reflexivity|]. cbn [map parse_words assign fst snd].
  assert (H' : all_plain l) by (intros a b I; apply H; now right).
  destruct (H n v (or_introl eq_refl)) as [[_ N] [_ V]].
  assert (E : String.eqb (n +++ "=" +++ v) "" = false) by (destruct n; reflexivity). rewrite E.
  change (n +++ "=" +++ v) with (n +++ String "=" v). rewrite split_app, (split_plain _ n N), (split_plain _ v V). cbn [app].
  destruct (startswith "$" v); [now apply IH|]. destruct (check_mres_and_pos axes rows n v); [now apply IH|reflexivity].
Qed.
Lemma parse_text axes rows l : forall vars, all_plain l -> parse_words axes rows (split " " (text l)) vars = assign axes rows l vars.
Proof.
  intros vars H. unfold text. destruct l as [|nv l]; [reflexivity|].
  change " " with (String " " "") at 1. rewrite split_concat; [now apply parse_map|discriminate|].
  intros s I. apply in_map_iff in I. destruct I as ([n v] & <- & I). destruct (H n v I) as [[N _] [V _]]. cbn [fst snd].
  rewrite !ascii_app, !in_app_iff. intros [K|[K|K]]; [contradiction| |contradiction]. cbn in K. destruct K as [K|[]]. discriminate.
Qed.
Lemma first_row_spec rows a r : first_row a rows = Some r <-> row_of rows a r.
Proof.
  induction rows as [|x rows IH]; cbn.
  - split; [discriminate|]. intros (l1 & l2 & E & _). destruct l1; discriminate.
  - destruct (String.eqb_spec (r_name x) a) as [E|E].
    + split.
      * intro H. injection H as <-. exists [], rows. repeat split; auto.
      * intros (l1 & l2 & Q & N & L). destruct l1 as [|y l1]; [cbn in Q; congruence|].
        injection Q as -> _. exfalso. apply (L y); [now left|exact E].
    + rewrite IH. split.
      * intros (l1 & l2 & -> & N & L). exists (x :: l1), l2. repeat split; auto. intros y [<-|I]; [exact E|now apply L].
      * intros (l1 & l2 & Q & N & L). destruct l1 as [|y l1]; [cbn in Q; injection Q as -> _; contradiction|].
        injection Q as -> ->. exists l1, l2. repeat split; auto. intros z I. apply L. now right.
Qed.
Lemma two_spec n s : two_digits n s <-> s = two n.
Proof.
  unfold two_digits, two. destruct (Nat.ltb_spec n 10) as [L|L]; split.
  - intros [[_ E]|[H _]]; [exact E|lia].
  - intro E. left. auto.
  - intros [[H _]|[_ E]]; [lia|exact E].
  - intro E. right. auto.
Qed.

Definition scaled' (axes : dict nat) (rows : list prow) (n : string) : Prop :=
  exists a k r, In (a, k) axes /\ n = MRES_VAR k /\ first_row a rows = Some r /\ Qeq_bool (r_scale r) 1 = false.
Definition shifted' (axes : dict nat) (rows : list prow) (n : string) : Prop :=
  exists a k r, In (a, k) axes /\ n = OFFSET_VAR k /\ first_row a rows = Some r /\ Qeq_bool (r_offset r) 0 = false.
Lemma mres_offset n k j : n = MRES_VAR k -> n = OFFSET_VAR j -> False.
Proof. intros -> E. unfold MRES_VAR, OFFSET_VAR in E. discriminate. Qed.
Lemma scaled_cons a k r axes rows n : first_row a rows = Some r ->
  scaled' ((a, k) :: axes) rows n <-> scaled' axes rows n \/ (n = MRES_VAR k /\ Qeq_bool (r_scale r) 1 = false).
Proof.
  intro F. split.
  - intros (b & j & x & [E|I] & N & F' & Q).
    + injection E as <- <-. right. split; [exact N|]. congruence.
    + left. exists b, j, x. auto.
  - intros [(b & j & x & I & N & F' & Q)|[N Q]]; [exists b, j, x; split; [now right|auto]|]. exists a, k, r. split; [now left|auto].
Qed.
Lemma shifted_cons a k r axes rows n : first_row a rows = Some r ->
  shifted' ((a, k) :: axes) rows n <-> shifted' axes rows n \/ (n = OFFSET_VAR k /\ Qeq_bool (r_offset r) 0 = false).
Proof.
  intro F. split.
  - intros (b & j & x & [E|I] & N & F' & Q).
    + injection E as <- <-. right. split; [exact N|]. congruence.
    + left. exists b, j, x. auto.
  - intros [(b & j & x & I & N & F' & Q)|[N Q]]; [exists b, j, x; split; [now right|auto]|]. exists a, k, r. split; [now left|auto].
Qed.
Lemma check_mres_spec axes rows n : forall v v', check_mres_and_pos axes rows n v = Some v' ->
  (scaled' axes rows n /\ v' = "1.0") \/ (shifted' axes rows n /\ v' = "0.0") \/
  (~ scaled' axes rows n /\ ~ shifted' axes rows n /\ v' = v).
Proof.
  induction axes as [|[a k] axes IH]; intros v v' H; cbn [check_mres_and_pos] in H.
  - injection H as <-. right. right. split; [intros (b & j & x & [] & _)|]. split; [intros (b & j & x & [] & _)|reflexivity].
  - destruct (first_row a rows) as [r|] eqn:F; [|discriminate]. rewrite (scaled_cons a k r _ _ _ F), (shifted_cons a k r _ _ _ F).
    destruct (IH _ _ H) as [[S E]|[[S E]|(S1 & S2 & E)]]; [left; auto|right; left; auto|]. clear IH H.
    destruct (String.eqb_spec n (MRES_VAR k)) as [->|N1].
    + destruct (Qeq_bool (r_scale r) 1) eqn:Q.
      * right. right. split; [intros [X|[_ X]]; [contradiction|discriminate]|]. split; [|exact E].
        intros [X|[X _]]; [contradiction|]. exact (mres_offset _ _ _ eq_refl X).
      * left. auto.
    + destruct (String.eqb_spec n (OFFSET_VAR k)) as [->|N2].
      * destruct (Qeq_bool (r_offset r) 0) eqn:Q.
        -- right. right. split; [intros [X|[X _]]; contradiction|]. split; [|exact E].
           intros [X|[_ X]]; [contradiction|discriminate].
        -- right. left. auto.
      * right. right. split; [intros [X|[X _]]; contradiction|]. split; [|exact E]. intros [X|[X _]]; contradiction.
Qed.
Lemma check_mres_total axes rows n : (forall a k, In (a, k) axes -> exists r, In r rows /\ r_name r = a) ->
  forall v, exists v', check_mres_and_pos axes rows n v = Some v'.
Proof.
  induction axes as [|[a k] axes IH]; intros H v; cbn [check_mres_and_pos]; [eauto|].
  destruct (first_row a rows) as [r|] eqn:F; [apply IH; intros b j I; apply (H b j); now right|].
  exfalso. destruct (H a k (or_introl eq_refl)) as (r & I & E). clear - F I E. induction rows as [|x rows IH]; [destruct I|].
  cbn in F. destruct (String.eqb_spec (r_name x) a) as [Q|Q]; [discriminate|]. destruct I as [<-|I]; [contradiction|auto].
Qed.

Lemma hex_bool v : startswith "$" v = true <-> hex v.
Proof. unfold startswith, hex. apply (prefix_app "$" v). Qed.
Lemma last_value_cons x l n v : last_value (x :: l) n v <->
  last_value l n v \/ (x = (n, v) /\ ~ hex v /\ forall v', In (n, v') l -> hex v').
Proof.
  split.
  - intros (l1 & l2 & E & H & L). destruct l1 as [|y l1]; cbn in E.
    + injection E as -> ->. right. auto.
    + injection E as -> ->. left. exists l1, l2. auto.
  - intros [(l1 & l2 & -> & H & L)|(-> & H & L)]; [exists (x :: l1), l2; auto|exists [], l; auto].
Qed.
Lemma assign_get axes rows n v' : forall l vars vars', assign axes rows l vars = Ok vars' ->
  dget n vars' = Some v' <->
  (exists v, last_value l n v /\ check_mres_and_pos axes rows n v = Some v') \/
  ((forall v, In (n, v) l -> hex v) /\ dget n vars = Some v').
Proof.
  induction l as [|[m u] l IH]; intros vars vars' H; cbn [assign] in H.
  - injection H as <-. split; [intro D; right; split; [intros v []|exact D]|].
    intros [(v & (l1 & l2 & E & _) & _)|[_ D]]; [destruct l1; discriminate|exact D].
  - destruct (startswith "$" u) eqn:B.
    + apply hex_bool in B. rewrite (IH _ _ H). split.
      * intros [(v & L & C)|[A D]]; [left; exists v; split; [apply last_value_cons; now left|exact C]|].
        right. split; [|exact D]. intros v [E|I]; [injection E as <- <-; exact B|now apply A].
      * intros [(v & L & C)|[A D]].
        -- left. exists v. split; [|exact C]. apply last_value_cons in L. destruct L as [L|(E & L & _)]; [exact L|].
           injection E as _ <-. contradiction.
        -- right. split; [|exact D]. intros v I. apply A. now right.
    + assert (NB : ~ hex u) by (intro X; apply hex_bool in X; congruence).
      destruct (check_mres_and_pos axes rows m u) as [u'|] eqn:C; [|discriminate]. rewrite (IH _ _ H). split.
      * intros [(v & L & K)|[A D]]; [left; exists v; split; [apply last_value_cons; now left|exact K]|].
        rewrite dget_dset in D. destruct (String.eqb_spec n m) as [->|N].
        -- injection D as ->. left. exists u. split; [apply last_value_cons; right; auto|exact C].
        -- right. split; [|exact D]. intros v [E|I]; [injection E as E _; congruence|now apply A].
      * intros [(v & L & K)|[A D]].
        -- apply last_value_cons in L. destruct L as [L|(E & L & M)]; [left; exists v; auto|]. injection E as <- <-.
           right. split; [exact M|]. rewrite dget_dset_same. congruence.
        -- right. split; [intros v I; apply A; now right|]. rewrite dget_dset_other; [exact D|].
           intro E. apply NB. apply A. left. now rewrite E.
Qed.
Lemma assign_total axes rows : (forall a k, In (a, k) axes -> exists r, In r rows /\ r_name r = a) ->
  forall l vars, exists vars', assign axes rows l vars = Ok vars'.
Proof.
  intro H. induction l as [|[n v] l IH]; intro vars; cbn [assign]; [eauto|]. destruct (startswith "$" v); [apply IH|].
  destruct (check_mres_total axes rows n H v) as (v' & ->). apply IH.
Qed.
Lemma parse_four axes rows l1 l2 l3 l4 vars : all_plain l1 -> all_plain l2 -> all_plain l3 -> all_plain l4 ->
  parse_input_variables axes rows (text l1 +++ " " +++ text l2 +++ " " +++ text l3 +++ " " +++ text l4) vars
  = assign axes rows (l1 ++ l2 ++ l3 ++ l4) vars.
Proof.
  intros A B C D. unfold parse_input_variables.
  change (text l1 +++ " " +++ text l2 +++ " " +++ text l3 +++ " " +++ text l4)
    with (text l1 +++ String " " (text l2 +++ String " " (text l3 +++ String " " (text l4)))).
  rewrite !split_app, parse_app, (parse_text _ _ l1 _ A), assign_app. destruct (assign axes rows l1 vars); [|reflexivity].
  rewrite parse_app, (parse_text _ _ l2 _ B), assign_app. destruct (assign axes rows l2 _); [|reflexivity].
  rewrite parse_app, (parse_text _ _ l3 _ C), assign_app. destruct (assign axes rows l3 _); [|reflexivity].
  apply (parse_text _ _ l4 _ D).
Qed.

(* ---- the layout ---- *)
Lemma no_comma_iff s : Pmac_Spec.no_comma s <-> ~ In ","%char (list_ascii_of_string s).
Proof.
  induction s as [|c s IH]; cbn; [split; [intros _ []|auto]|]. rewrite IH. split.
  - intros [A B] [E|I]; [congruence|contradiction].
  - intro H. split; [intro E; apply H; now left|intro I; apply H; now right].
Qed.
Lemma cs_rows_In layout a cs : cs <> "" -> In (a, cs) (cs_rows layout) <-> exists n, In (mkMotor a (Some cs) n) layout.
Proof.
  intro N. unfold cs_rows. rewrite in_map_iff. split.
  - intros (m & E & I). injection E as <- E. destruct m as [b [c|] n]; cbn in *; [subst; exists n; exact I|congruence].
  - intros (n & I). eexists. split; [|exact I]. reflexivity.
Qed.
Lemma comma_ne a b : a +++ "," +++ b <> "".
Proof. destruct a; discriminate. Qed.
Lemma moved_iff layout axes port letter : Pmac_Spec.one_cs (cs_rows layout) axes port letter <-> moved layout axes port letter.
Proof.
  unfold Pmac_Spec.one_cs, moved. rewrite no_comma_iff. split; intros (A & B & C); (split; [exact A|]); (split; [|exact C]).
  - intros a I. destruct (B a I) as [X Y]. split; [exact Y|]. apply cs_rows_In; [apply comma_ne|exact X].
  - intros a I. destruct (B a I) as [X Y]. split; [|exact X]. apply cs_rows_In; [apply comma_ne|exact Y].
Qed.
Lemma layout_names layout : map fst (cs_rows layout) = map m_name layout.
Proof. unfold cs_rows. rewrite map_map. reflexivity. Qed.
Lemma layout_fun (layout : list motor) m m' : NoDup (map m_name layout) -> In m layout -> In m' layout -> m_name m = m_name m' -> m = m'.
Proof.
  induction layout as [|x l IH]; intros N I J E; [destruct I|]. cbn in N. inversion N as [|? ? A B]; subst.
  destruct I as [<-|I], J as [<-|J]; auto.
  - exfalso. apply A. rewrite E. now apply in_map.
  - exfalso. apply A. rewrite <- E. now apply in_map.
Qed.
Lemma comma_split p p' x y : ~ In ","%char (list_ascii_of_string p) -> ~ In ","%char (list_ascii_of_string p') ->
  p +++ "," +++ x = p' +++ "," +++ y -> p = p' /\ x = y.
Proof.
  revert p'; induction p as [|c p IH]; intros p' A B E.
  - destruct p' as [|d p']; [injection E as ->; auto|]. exfalso. injection E as <- _. apply B. now left.
  - destruct p' as [|d p']; [exfalso; injection E as -> _; apply A; now left|]. injection E as -> E.
    destruct (IH p') as [-> ->]; auto; intro I; [apply A|apply B]; now right.
Qed.
Lemma moved_fun layout axes port letter port' letter' : NoDup (map m_name layout) ->
  moved layout axes port letter -> moved layout axes port' letter' -> forall a, In a axes -> port = port' /\ letter a = letter' a.
Proof.
  intros N (A & B & _) (A' & B' & _) a I. destruct (B a I) as [_ (n & J)], (B' a I) as [_ (n' & J')].
  pose proof (layout_fun _ _ _ N J J' eq_refl) as E. injection E as E _. now apply comma_split in E.
Qed.

(* ---- on_configure and on_post_configure apart ---- *)
Definition port_of (s : part) (p port : string) (axes : list string) : Prop :=
  s_cs_port s = Some p \/ (s_cs_port s = None /\ p = port /\ axes <> []).
Lemma configure_inv s w dir t g axes s1 ds : on_configure s w dir t g axes = Ok (s1, ds) ->
  exists layout pos m p use port letter,
    dget (w_pmac w) (w_layout w) = Some layout /\ dget (w_panda w) (w_positions w) = Some pos /\
    Pmac_Model.cs_axis_mapping (cs_rows layout) axes = Ok m /\ moved layout axes port letter /\ port_of s p port axes /\ p <> "" /\
    check_datasets (cs_axis_numbers layout p []) pos true = Ok use /\
    s1 = mkS (Some p) (s_suffix s) (join dir (file_name t "savu")) (join dir (file_name t "kinematics-vds"))
             (join dir (file_name t "savu_pl"))
             (join dir (join (subst (splitext t) "savuproc") (file_name t "savu_processed")))
             [] [] (q_mapping m) [] use g pos (w_pmac w) (cs_axis_numbers layout p []) /\
    ds = produced_datasets (q_mapping m) use (file_name t "kinematics-vds") g /\
    NoDup (map fst (q_mapping m)) /\
    (forall k a, In (k, a) (q_mapping m) <-> exists i, k = S i /\ In a axes /\ nth_error letters i = Some (letter a)).
Proof.
  unfold on_configure. destruct (dget (w_pmac w) (w_layout w)) as [layout|] eqn:L; [|discriminate].
  destruct (Pmac_Model.cs_axis_mapping (cs_rows layout) axes) as [m|] eqn:M; [|discriminate].
  destruct (dget (w_panda w) (w_positions w)) as [pos|] eqn:P; [|discriminate].
  destruct (mapping_q _ _ _ M) as (port & letter & O & D & I & N & Q). apply moved_iff in O.
  intro H. set (o := match s_cs_port s with Some p => Some p | None => match m with [] => None | (_, (p, _)) :: _ => Some p end end) in H.
  destruct o as [p|] eqn:Ho; [|discriminate].
  assert (Po : port_of s p port axes).
  { unfold o in Ho. destruct (s_cs_port s) as [p0|] eqn:Es; [left; congruence|]. right. split; [exact Es|].
    destruct m as [|[a [p0 l]] m]; [discriminate|]. injection Ho as ->. destruct (I p l a (or_introl eq_refl)) as (-> & _ & X).
    split; [reflexivity|]. intros ->. destruct X. }
  destruct p as [|c p]; [discriminate|]. set (pp := String c p) in *.
  destruct (check_datasets (cs_axis_numbers layout pp []) pos true) as [use|] eqn:C; [|discriminate].
  injection H as <- <-. exists layout, pos, m, pp, use, port, letter. repeat (split; [assumption || reflexivity || (unfold pp; discriminate)|]).
  exact Q.
Qed.
Lemma post_inv s w infos s' f : on_post_configure s w infos = Ok (s', f) ->
  exists links use iv pv mv kin qv vars,
    link_axes (s_axes s) infos (s_p s) (s_min_max s) = Ok (links, use) /\
    dget (s_pmac s +++ ":STATUS") (w_status w) = Some (iv, pv, mv) /\
    dget (s_pmac s +++ ":" +++ s_suffix s) (w_cs w) = Some (kin, qv) /\
    parse_input_variables (s_axes s) (s_pos s) (iv +++ " " +++ pv +++ " " +++ mv +++ " " +++ qv) (s_vars s) = Ok vars /\
    NoDup (map v_number links) /\
    NoDup (map fst (vds_contents (s_q s) (s_savu s) use (s_gen s))) /\
    f = mkF (s_nxs s, mkIn (lines kin) vars use links) (s_pl s, if use then "min_mean_max.nxs" else "only_mean.nxs")
            (s_vds s, vds_contents (s_q s) (s_savu s) use (s_gen s)).
Proof.
  unfold on_post_configure. destruct (link_axes _ _ _ _) as [[links use]|] eqn:L; [|discriminate].
  destruct (dget (s_pmac s +++ ":STATUS") (w_status w)) as [[[iv pv] mv]|] eqn:S; [|discriminate].
  destruct (dget (s_pmac s +++ ":" +++ s_suffix s) (w_cs w)) as [[kin qv]|] eqn:K; [|discriminate].
  destruct (parse_input_variables _ _ _ _) as [vars|] eqn:P; [|discriminate].
  unfold create_files. cbn [s_p s_q s_savu s_min_max s_gen s_nxs s_code s_vars s_pl s_vds].
  destruct (Pmac_Model.has_dup (map v_number links)) eqn:D1; [discriminate|].
  destruct (Pmac_Model.has_dup (map fst (vds_contents (s_q s) (s_savu s) use (s_gen s)))) eqn:D2; [discriminate|].
  intro H. injection H as _ <-. exists links, use, iv, pv, mv, kin, qv, vars.
  repeat (split; [reflexivity || assumption || (now apply Pmac_Proofs.has_dup_iff)|]). reflexivity.
Qed.

Lemma vds_In q savu use g path x : In (path, x) (vds_contents q savu use g) <->
  (exists what i, i < 9 /\ In what ["mean"; "min"; "max"] /\ (what <> "mean" -> use = true) /\ path = q_name q i what /\
     x = Virtual savu ("/entry/final_result_q" +++ what +++ "/data") i) \/
  (exists d a, In d (g_dims g) /\ In a (d_axes d) /\ path = "/entry/" +++ a +++ "_set/" +++ a +++ ".value_set" /\ x = SetPoints (d_pos d a)).
Proof.
  unfold vds_contents. rewrite in_app_iff, !in_flat_map. split.
  - intros [(what & W & I)|(d & D & I)]; apply in_map_iff in I.
    + destruct I as (i & E & I). injection E as <- <-. apply in_seq in I. left. exists what, i. split; [lia|].
      destruct use; cbn in W; cbn; intuition (subst; try congruence).
    + destruct I as (a & E & I). injection E as <- <-. right. exists d, a. auto.
  - intros [(what & i & I & W & U & -> & ->)|(d & a & D & I & -> & ->)]; [left|right].
    + exists what. split.
      * destruct use; cbn in *; [tauto|]. destruct W as [<-|[<-|[<-|[]]]]; [now left|exfalso; discriminate U; discriminate|exfalso; discriminate U; discriminate].
      * apply in_map_iff. exists i. split; [reflexivity|]. apply in_seq. lia.
    + exists d. split; [exact D|]. apply in_map_iff. now exists a.
Qed.
Lemma produced_In q use file g d : In d (produced_datasets q use file g) <->
  exists k a what, In (k, a) q /\ In (what, p_type d) kinds /\ (what <> "mean" -> use = true) /\
    d = mkP (a +++ "." +++ what) file (p_type d) (length (g_dims g)) ("/entry/" +++ a +++ "." +++ what) "".
Proof.
  unfold produced_datasets. rewrite in_flat_map. split.
  - intros ([k a] & I & J). apply in_map_iff in J. destruct J as ([what t] & <- & J). exists k, a, what. cbn [fst snd p_type].
    split; [exact I|]. unfold dtypes in J. destruct use; cbn in J; cbn; intuition congruence.
  - intros (k & a & what & I & K & U & E). exists (k, a). split; [exact I|]. apply in_map_iff. exists (what, p_type d). cbn [fst snd].
    split; [symmetry; exact E|]. unfold dtypes, kinds in *. cbn in K.
    destruct K as [K|[K|[K|[]]]]; injection K as <- <-; [now left| |]; rewrite U by discriminate; cbn; tauto.
Qed.
