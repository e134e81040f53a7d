(* C94: a manager offers the fields that its children have, and shows those that are exported. *)
From Coq Require Import String Ascii Bool Arith Lia List.
From Verif Require Import Base Xport_Model.
From Verif Require Pva2_Model Pva2_Props Reg_Model.
Import ListNotations.
Local Open Scope list_scope.

(* ==== The child part ==== *)
(* ---- specification ---- *)
(* Over the lists of fields that a child has had, one after the other: the field has been there; it
   was there, and then it was not. *)
Definition came (f : string) (h : list (list string)) : Prop := exists fs, In fs h /\ In f fs.
Definition left_once (f : string) (h : list (list string)) : Prop :=
  exists h1 h2, h = h1 ++ h2 /\ came f h1 /\ exists gs, In gs h2 /\ ~ In f gs.

(* What the tags of a port say. *)
Definition tag (i : pinfo) : bool * string * string :=
  match i with Source p c => (true, p, c) | Sink p d _ => (false, p, d) end.
Definition shape (a : cfield) := (is_attribute a, option_map tag (port_of a), config a).

(* An update of the fields, the child as it is then, and the order of the new ones. *)
Record upd := mkUpd { u_child : string -> cfield; u_fields : list string; u_order : list string }.

Section child.
  Variable unmanaged : string -> bool.

  (* The updates so far, the part and its last report. *)
  Inductive reaches : list upd -> part -> list string * list (string * pinfo) -> Prop :=
  | at_first : reaches [] new_part ([], [])
  | then_update h p r u : reaches h p r -> new_fields (u_fields u) (u_order u) p ->
      reaches (h ++ [u]) (fst (update_part_exportable unmanaged (u_child u) (u_fields u) (u_order u) p))
                         (snd (update_part_exportable unmanaged (u_child u) (u_fields u) (u_order u) p)).

  (* The child is as [c] says, but for the values of its attributes. *)
  Definition child_is (c : string -> cfield) (h : list upd) : Prop :=
    forall u f, In u h -> shape (u_child u f) = shape (c f).

  (* A config attribute that the part does not put to itself. *)
  Definition tracked (c : string -> cfield) (f : string) : Prop :=
    is_attribute (c f) = true /\ config (c f) = true /\ unmanaged f = true.

  (* ---- proofs ---- *)
  Lemma came_app f h g : came f (h ++ [g]) <-> came f h \/ In f g.
  Proof.
    unfold came. split.
    - intros (fs & I & J). apply in_app_or in I as [I|[<-|[]]]; eauto.
    - intros [(fs & I & J)|J]; [exists fs|exists g]; rewrite in_app_iff; cbn; auto.
  Qed.
  Lemma left_app f h g : left_once f (h ++ [g]) <-> left_once f h \/ came f h /\ ~ In f g.
  Proof.
    split.
    - intros (h1 & h2 & E & C & gs & I & N). destruct h2 as [|x h2] using rev_ind; [destruct I|]. clear IHh2.
      rewrite app_assoc in E. apply app_inj_tail in E as [-> ->]. apply in_app_or in I as [I|[<-|[]]].
      + left. exists h1, h2. eauto.
      + right. split; [|exact N]. destruct C as (fs & C & J). exists fs. rewrite in_app_iff. auto.
    - intros [(h1 & h2 & -> & C & gs & I & N)|[C N]].
      + exists h1, (h2 ++ [g]). rewrite app_assoc. split; [reflexivity|]. split; [exact C|]. exists gs. rewrite in_app_iff. auto.
      + exists h, [g]. split; [reflexivity|]. split; [exact C|]. exists g. cbn. auto.
  Qed.

  (* drop *)
  Lemma filter_fst (i : nat) l : NoDup (map (@fst nat string) l) -> NoDup (map fst (filter (fun x => negb (Nat.eqb (fst x) i)) l)).
  Proof.
    induction l as [|x r IH]; intros H; [exact H|]. cbn in *. inversion H; subst.
    destruct (negb (fst x =? i)); [|auto]. cbn. constructor; [|auto]. intros I. apply in_map_iff in I as (y & E & I).
    apply filter_In in I as [I _]. apply H2. rewrite <- E. now apply in_map.
  Qed.
  Lemma drops fields l : forall p, NoDup (dkeys (ports p)) -> let q := fold_left (drop1 fields) l p in
    NoDup (dkeys (ports q)) /\
    subs q = subs p /\
    (forall x, In x (live q) <-> In x (live p) /\ forall s, In s l -> fst s = fst x -> In (snd s) fields) /\
    (NoDup (map fst (live p)) -> NoDup (map fst (live q))) /\
    (forall f, In f (map snd l) -> ~ In f fields -> dget f (ports q) = None) /\
    (forall f, ~ In f (map snd l) \/ In f fields -> dget f (ports q) = dget f (ports p)).
  Proof.
    induction l as [|s l IH]; intros p ND; cbn [fold_left].
    - cbn. split; [exact ND|]. split; [reflexivity|]. split; [intros x; split; [intros H; split; [exact H|intros s []]|intros [H _]; exact H]|]. split; [auto|]. split; [intros f []|reflexivity].
    - assert (ND' : NoDup (dkeys (ports (drop1 fields p s)))) by (unfold drop1; destruct (smem _ _); [exact ND|cbn [ports]; now apply ddel_nodup]).
      destruct (IH (drop1 fields p s) ND') as (ND2 & S & L & N & D & K). cbn zeta in *. clear IH ND'. split; [exact ND2|]. clear ND2.
      unfold drop1 in *. destruct (smem (snd s) fields) eqn:M.
      + apply smem_In in M. split; [exact S|]. split; [|split; [exact N|split]].
        * intros x. rewrite L. split; [|intros [A B]; split; [exact A|]; intros t I; apply B; now right].
          intros [A B]. split; [exact A|]. intros t [<-|I] E; [exact M|now apply B].
        * intros f [<-|I] Nf; [contradiction|now apply D].
        * intros f W. apply K. destruct W as [W|W]; [left|now right]. intros I. apply W. now right.
      + apply smem_false in M. cbn [subs live ports] in *. split; [exact S|]. split; [|split; [|split]].
        * intros x. rewrite L, filter_In, negb_true_iff, Nat.eqb_neq. split.
          -- intros [[A B] C]. split; [exact A|]. intros t [<-|I] E; [congruence|now apply C].
          -- intros [A B]. split; [split; [exact A|]|].
             ++ intros E. apply M, (B s); [now left|now symmetry].
             ++ intros t I. apply B. now right.
        * intros H. apply N. now apply filter_fst.
        * intros f I Nf. cbn in I. destruct (in_dec string_dec f (map snd l)) as [J|J]; [now apply D|].
          destruct I as [<-|I]; [|contradiction]. rewrite (K (snd s) (or_introl J)), dget_ddel, String.eqb_refl by exact ND. reflexivity.
        * intros f W. assert (J : ~ In f (map snd l) \/ In f fields) by (destruct W as [W|W]; [left; intros I; apply W; now right|now right]).
          rewrite (K f J), dget_ddel by exact ND. destruct (String.eqb_spec f (snd s)) as [->|Ne]; [|reflexivity].
          destruct W as [W|W]; [exfalso; apply W; now left|contradiction].
  Qed.

  (* see *)
  Lemma new_id_new p x : In x (subs p) -> fst x <> new_id p.
  Proof.
    unfold new_id. intros I E. assert (L : fst x <= fold_right Nat.max 0 (map fst (subs p))); [|lia].
    clear E. induction (subs p) as [|y r IH]; [destruct I|]. cbn. destruct I as [->|I]; [lia|specialize (IH I); lia].
  Qed.

  Section sees.
    Variables (child : string -> cfield).
    Notation see := (see unmanaged child).
    Definition sound (p : part) : Prop :=
      NoDup (map fst (subs p)) /\ NoDup (map snd (subs p)) /\ incl (live p) (subs p) /\
      NoDup (map fst (live p)) /\ NoDup (dkeys (ports p)).
    Definition tr (f : string) : bool := is_attribute (child f) && (unmanaged f && config (child f)).

    Lemma see1 p f : sound p -> ~ In f (map snd (subs p)) ->
      sound (see p f) /\
      subs (see p f) = subs p ++ (if tr f then [(new_id p, f)] else []) /\
      live (see p f) = live p ++ (if tr f then [(new_id p, f)] else []) /\
      (forall g, g <> f -> dget g (ports (see p f)) = dget g (ports p)) /\
      dget f (ports (see p f)) = (if is_attribute (child f) then match port_of (child f) with Some i => Some i | None => dget f (ports p) end
                                  else dget f (ports p)).
    Proof.
      intros (A & B & C & D & E) N.
      assert (X : sound (see p f) <-> NoDup (dkeys (ports (see p f))) /\ NoDup (map fst (subs (see p f))) /\ NoDup (map snd (subs (see p f)))
         /\ incl (live (see p f)) (subs (see p f)) /\ NoDup (map fst (live (see p f)))) by (unfold sound; tauto).
      assert (S : subs (see p f) = subs p ++ (if tr f then [(new_id p, f)] else []) /\
                  live (see p f) = live p ++ (if tr f then [(new_id p, f)] else [])).
      { unfold Xport_Model.see, tr. destruct (is_attribute (child f)); [|now rewrite !app_nil_r]. cbn [andb].
        destruct (port_of (child f)), (unmanaged f && config (child f)); cbn; rewrite ?app_nil_r; auto. }
      assert (P : NoDup (dkeys (ports (see p f))) /\ (forall g, g <> f -> dget g (ports (see p f)) = dget g (ports p)) /\
        dget f (ports (see p f)) = (if is_attribute (child f) then match port_of (child f) with Some i => Some i | None => dget f (ports p) end
                                  else dget f (ports p))).
      { unfold Xport_Model.see. destruct (is_attribute (child f)); [|auto].
        destruct (port_of (child f)), (unmanaged f && config (child f)); cbn; try solve [auto];
        (split; [now apply dset_nodup|]; split; [intros g Ng; apply dget_dset_other; congruence|apply dget_dset_same]). }
      destruct S as [S1 S2], P as (P1 & P2 & P3). split; [|auto]. apply X. clear X. split; [exact P1|]. rewrite S1, S2. clear S1 S2 P1 P2 P3.
      destruct (tr f); [|rewrite !app_nil_r; auto]. rewrite !map_app. cbn [map fst snd].
      assert (App : forall T (l : list T) x, NoDup l -> ~ In x l -> NoDup (l ++ [x])).
      { clear. intros T l x H I. apply NoDup_rev in H. rewrite <- (rev_involutive (l ++ [x])), rev_app_distr. apply NoDup_rev. cbn. constructor; [|exact H]. now rewrite <- in_rev. }
      split; [|split; [|split]].
      - apply App; [exact A|]. intros I. apply in_map_iff in I as (x & Ex & I). exact (new_id_new p x I Ex).
      - apply App; assumption.
      - intros x I. rewrite in_app_iff in *. destruct I as [I|I]; auto.
      - apply App; [exact D|]. intros I. apply in_map_iff in I as (x & Ex & I). exact (new_id_new p x (C x I) Ex).
    Qed.

    Lemma sees order : forall p, sound p -> NoDup order -> (forall f, In f order -> ~ In f (map snd (subs p))) ->
      let q := fold_left see order p in
      sound q /\ (forall x, In x (subs p) -> In x (subs q)) /\ (forall x, In x (subs q) -> In x (subs p) \/ In (snd x) order) /\
      (forall f, In f (map snd (subs q)) <-> In f (map snd (subs p)) \/ In f order /\ tr f = true) /\
      (forall x, In x (live q) <-> In x (live p) \/ In x (subs q) /\ In (snd x) order) /\
      (forall f, ~ In f order -> dget f (ports q) = dget f (ports p)) /\
      (forall f, In f order -> dget f (ports q) = (if is_attribute (child f) then match port_of (child f) with Some i => Some i | None => dget f (ports p) end
                                  else dget f (ports p))).
    Proof.
      induction order as [|g order IH]; intros p S ND F; cbn [fold_left].
      - cbn. repeat (split; [tauto || (intros; tauto)|]). intros f [].
      - inversion ND as [|? ? Ng ND']; subst. destruct (see1 p g S (F g (or_introl eq_refl))) as (S' & Es & El & Po & Pg).
        assert (F' : forall f, In f order -> ~ In f (map snd (subs (see p g)))).
        { intros f I. rewrite Es, map_app, in_app_iff. intros [J|J]; [exact (F f (or_intror I) J)|].
          destruct (tr g); [|destruct J]. destruct J as [<-|[]]. contradiction. }
        destruct (IH (see p g) S' ND' F') as (Sq & Hk & Hn & Hs & Hl & Pn & Pi). cbn zeta in *. clear IH.
        set (q := fold_left see order (see p g)) in *. clearbody q.
        split; [exact Sq|]. split; [intros x I; apply Hk; rewrite Es, in_app_iff; auto|]. split; [|split; [|split; [|split]]].
        + intros x I. destruct (Hn x I) as [J|J]; [|right; now right]. rewrite Es in J. apply in_app_or in J as [J|J]; [now left|].
          destruct (tr g); [|destruct J]. destruct J as [<-|[]]. right. now left.
        + intros f. rewrite Hs, Es, map_app, in_app_iff. cbn [In]. split.
          * intros [[J|J]|[J T]]; auto. destruct (tr g) eqn:T; [|destruct J]. destruct J as [<-|[]]. cbn. auto.
          * intros [J|[[->|J] T]]; auto. left. right. rewrite T. now left.
        + intros x. rewrite Hl, El, in_app_iff. cbn [In]. split.
          * intros [[J|J]|[J K]]; auto. right. destruct (tr g) eqn:T; [|destruct J]. destruct J as [<-|[]]. cbn. split; [|now left].
            apply Hk. rewrite Es, in_app_iff. right. now left.
          * intros [J|[J [K|K]]]; auto. left. right. destruct (Hn x J) as [I|I]; [|rewrite <- K in I; contradiction].
            rewrite Es in I. apply in_app_or in I as [I|I]; [|exact I]. exfalso. apply (F g (or_introl eq_refl)). rewrite K. now apply in_map.
        + intros f N. rewrite Pn by (intros I; apply N; now right). apply Po. intros ->. apply N. now left.
        + intros f [<-|I].
          * rewrite Pn by exact Ng. exact Pg.
          * rewrite Pi by exact I. assert (f <> g) by (intros ->; contradiction). now rewrite Po.
    Qed.
  End sees.

  (* the whole history *)
  Lemma reached c h p r : reaches h p r -> child_is c h -> let H := map u_fields h in
    sound p /\
    (forall f, In f (map snd (subs p)) <-> tracked c f /\ came f H) /\
    (forall x, In x (live p) <-> In x (subs p) /\ ~ left_once (snd x) H) /\
    (forall f, came f H -> is_attribute (c f) = true -> (tracked c f -> ~ left_once f H) ->
       option_map tag (dget f (ports p)) = option_map tag (port_of (c f))) /\
    (forall f, ~ came f H \/ is_attribute (c f) = false \/ tracked c f /\ left_once f H -> dget f (ports p) = None) /\
    (h <> [] -> fst r = last H [] /\ snd r = flat_map (fun f => match dget f (ports p) with Some i => [(f, i)] | None => [] end) (fst r)).
  Proof.
    intros R Cs. induction R as [|h p r u R IH Nf]; cbn zeta in *.
    - split; [repeat split; cbn; try constructor; intros ? []|]. split; [|split; [|split; [|split]]].
      + intros f. split; [intros []|intros [_ (fs & [] & _)]].
      + intros x. split; [intros []|intros [[] _]].
      + intros f (fs & [] & _).
      + reflexivity.
      + congruence.
    - destruct IH as (S & A & L & P1 & P2 & _). { intros v f I. apply Cs. rewrite in_app_iff. auto. }
      assert (Sh : forall f, shape (u_child u f) = shape (c f)) by (intros f; apply Cs; rewrite in_app_iff; cbn; auto). clear Cs.
      rewrite map_app. cbn [map]. set (H := map u_fields h) in *. clearbody H. unfold update_part_exportable. cbn [fst snd].
      set (fields := u_fields u) in *. set (order := u_order u) in *. set (child := u_child u) in *. clearbody fields order child.
      destruct S as (S1 & S2 & S3 & S4 & S5).
      destruct (drops fields (subs p) p S5) as (D0 & Ds & Dl & Dn & Dg & Dk). change (fold_left (drop1 fields) (subs p) p) with (drop fields p) in *.
      cbn zeta in *. set (d := drop fields p) in *. clearbody d.
      assert (Ld : forall x, In x (live d) <-> In x (live p) /\ In (snd x) fields).
      { intros x. rewrite Dl. split; intros [I J]; (split; [exact I|]).
        - apply (J x); [now apply S3|reflexivity].
        - intros s Is E. replace s with x; [exact J|]. clear - S1 Is I S3 E. apply S3 in I. clear S3. revert S1 Is I. generalize (subs p) as l. induction l as [|y l IH]; intros N A B; [destruct A|].
          cbn in N. inversion N as [|? ? N1 N2]; subst. destruct A as [A|A], B as [B|B]; [congruence|exfalso; apply N1; subst y; rewrite E; now apply in_map|exfalso; apply N1; subst y; rewrite <- E; now apply in_map|now apply IH]. }
      assert (Sd : sound d). { unfold sound. rewrite Ds. repeat split; auto. intros x I. apply Ld in I as [I _]. now apply S3. }
      destruct Nf as [NDo No]. rewrite <- Ds in No.
      destruct (sees child order d Sd NDo (fun f I => proj2 (proj1 (No f) I))) as (Sq & Hk & Hn & Hs & Hl & Pn & Pi). cbn zeta in *.
      set (q := fold_left (see unmanaged child) order d) in *. clearbody q. rewrite Ds in Hk, Hn, Hs, No.
      assert (Tr : forall f, tr child f = true <-> tracked c f).
      { intros f. specialize (Sh f). unfold shape in Sh. injection Sh as E1 E2 E3. unfold tr, tracked. rewrite E1, E3, !andb_true_iff. tauto. }
      assert (At : forall f, is_attribute (child f) = is_attribute (c f)) by (intros f; specialize (Sh f); now injection Sh).
      assert (Pt : forall f, option_map tag (port_of (child f)) = option_map tag (port_of (c f))) by (intros f; specialize (Sh f); now injection Sh).
      clear Sh.
      split; [exact Sq|]. split; [|split; [|split; [|split]]].
      + intros f. rewrite Hs, No, Tr, came_app, A. destruct (in_dec string_dec f (map snd (subs p))) as [I|I]; [pose proof (proj1 (A f) I); tauto|].
        rewrite A in I. tauto.
      + intros x. rewrite Hl, Ld, L, left_app, No. split.
        * intros [[[I J] K]|[I [J K]]].
          -- split; [apply Hk; exact I|]. intros [Z|[_ Z]]; contradiction.
          -- split; [exact I|]. intros [Z|[_ Z]]; [|contradiction]. apply K, A.
             assert (T : tracked c (snd x)). { apply Tr. pose proof (proj1 (Hs (snd x)) (in_map snd _ _ I)) as [Y|[_ Y]]; [|exact Y]. contradiction. }
             split; [exact T|]. destruct Z as (h1 & h2 & -> & (fs & C & Cf) & _). exists fs. rewrite in_app_iff. auto.
        * intros [I N]. destruct (Hn x I) as [J|J]; [|right; split; [exact I|now apply No]]. 
          left. split; [split; [exact J|]|].
          -- intros Z. apply N. now left.
          -- destruct (in_dec string_dec (snd x) fields) as [K|K]; [exact K|]. exfalso. apply N. right. split; [|exact K]. apply (proj1 (A (snd x))). now apply in_map.
      + intros f C T W. rewrite came_app in C. rewrite left_app in W. destruct (in_dec string_dec f order) as [I|I].
        * rewrite (Pi f I), At, T. specialize (Pt f). destruct (port_of (child f)) as [i|]; [exact Pt|].
          apply No in I as [If Is]. rewrite (Dk f (or_introl Is)).
          destruct (in_dec string_dec f (map snd (subs p))) as [Y|Y]; [contradiction|].
          assert (X : came f H \/ ~ came f H).
          { clear. induction H as [|x l IH]; [right; intros (? & [] & _)|]. destruct IH as [(fs & I & J)|N]; [left; exists fs; cbn; auto|].
            destruct (in_dec string_dec f x) as [I|I]; [left; exists x; cbn; auto|]. right. intros (fs & [->|J] & K); [contradiction|]. apply N. now exists fs. }
          destruct X as [X|X].
          -- rewrite P1; [now rewrite <- Pt| exact X|exact T|]. intros Z. exfalso. apply Y, A. auto.
          -- rewrite P2 by auto. exact Pt.
        * rewrite (Pn f I). rewrite No in I. destruct C as [C|C].
          -- assert (J : ~ In f (map snd (subs p)) \/ In f fields).
             { destruct (in_dec string_dec f (map snd (subs p))) as [J|J]; [|now left]. right. destruct (in_dec string_dec f fields) as [K|K]; [exact K|].
               exfalso. apply A in J as [J1 J2]. apply (W J1). right. auto. }
             rewrite (Dk f J). apply P1; auto. intros Z1 Z2. apply (W Z1). now left.
          -- destruct (in_dec string_dec f (map snd (subs p))) as [J|J]; [|exfalso; apply I; auto].
             rewrite (Dk f (or_intror C)). pose proof (proj1 (A f) J) as [J1 J2]. apply P1; auto. intros Z1 Z2. apply (W Z1). now left.
      + intros f W. rewrite came_app, left_app in W. destruct (in_dec string_dec f order) as [I|I].
        * pose proof (proj1 (No f) I) as [If Is]. destruct W as [W|[W|[W1 W2]]]; [exfalso; apply W; auto| |].
          -- rewrite (Pi f I), At, W. rewrite (Dk f (or_introl Is)). apply P2. auto.
          -- exfalso. destruct W2 as [W2|[_ W2]]; [|contradiction]. apply Is, A. split; [exact W1|].
             destruct W2 as (h1 & h2 & -> & (fs & C & Cf) & _). exists fs. rewrite in_app_iff. auto.
        * rewrite (Pn f I). destruct (in_dec string_dec f (map snd (subs p))) as [J|J].
          -- destruct (in_dec string_dec f fields) as [K|K]; [|now apply Dg]. rewrite (Dk f (or_intror K)). apply P2. apply A in J as [J1 J2].
             destruct W as [W|[W|[W1 [W2|[_ W2]]]]]; [exfalso; apply W; now left|auto|auto|contradiction].
          -- rewrite (Dk f (or_introl J)). apply P2. destruct W as [W|[W|[W1 [W2|[W2 _]]]]]; auto.
             exfalso. apply J, A. auto.
      + intros _. split; [|reflexivity]. now rewrite last_last.
  Qed.
End child.

(* ---- theorems ---- *)
(* The child is asked to tell of the changes of a field exactly when it is a config attribute that
   the part does not put to itself, that has come and never left; and is asked once. *)
Theorem C94_watched unmanaged c h p r : reaches unmanaged h p r -> child_is c h ->
  (forall f, (exists i, In (i, f) (live p)) <->
     tracked unmanaged c f /\ came f (map u_fields h) /\ ~ left_once f (map u_fields h)) /\
  NoDup (map fst (live p)) /\ (forall f i j, In (i, f) (live p) -> In (j, f) (live p) -> i = j).
Proof.
  intros R C. destruct (reached unmanaged c h p r R C) as ((S1 & S2 & S3 & S4 & _) & A & L & _). split; [|split; [exact S4|]].
  - intros f. split.
    + intros [i I]. apply L in I as [I N]. cbn [snd] in N. destruct (proj1 (A f) (in_map snd _ _ I)). auto.
    + intros (T & Cm & N). assert (I : In f (map snd (subs p))) by (apply A; auto). apply in_map_iff in I as ([i g] & E & I). cbn in E. subst g.
      exists i. apply L. auto.
  - intros f i j I J. apply S3 in I, J. clear - S2 I J. induction (subs p) as [|[k g] l IH]; [destruct I|]. cbn in S2. inversion S2 as [|? ? N1 N2]; subst.
    destruct I as [I|I], J as [J|J]; [congruence|..|now apply IH]; exfalso; apply N1; [injection I as -> ->|injection J as -> ->]; now apply (in_map snd) in I || apply (in_map snd) in J.
Qed.
Print Assumptions C94_watched.

(* What is reported is the list of the fields, and the ports among them; but not those of tracked
   attributes that have once left. *)
Theorem C94_ports unmanaged c h p r : reaches unmanaged h p r -> child_is c h ->
  fst r = last (map u_fields h) [] /\
  forall f t, (exists i, In (f, i) (snd r) /\ tag i = t) <->
    In f (fst r) /\ is_attribute (c f) = true /\ option_map tag (port_of (c f)) = Some t /\
    (tracked unmanaged c f -> ~ left_once f (map u_fields h)).
Proof.
  intros R C. destruct (reached unmanaged c h p r R C) as (_ & A & L & P1 & P2 & F). cbn zeta in *.
  destruct h as [|u0 h0].
  { inversion R as [E|h1 p1 r1 u1 R1 N1 E]; [|now destruct h1]. cbn. split; [reflexivity|]. intros f t. split; [intros (i & [] & _)|intros ([] & _)]. }
  assert (Ne : u0 :: h0 <> []) by discriminate. remember (u0 :: h0) as h eqn:Eh. clear u0 h0 Eh. destruct (F Ne) as [F1 F2]. split; [exact F1|]. clear F.
  assert (Cm : forall f, In f (fst r) -> came f (map u_fields h)).
  { intros f I. exists (fst r). split; [|exact I]. rewrite F1. clear - Ne. destruct h as [|x l] using rev_ind; [congruence|]. rewrite map_app. cbn [map]. rewrite last_last, in_app_iff. right. now left. }
  intros f t. rewrite F2. split.
  - intros (i & I & T). apply in_flat_map in I as (g & I & J). destruct (dget g (ports p)) as [k|] eqn:D; [|destruct J]. destruct J as [J|[]]. injection J as -> ->.
    split; [exact I|]. assert (W : is_attribute (c f) = true). { destruct (is_attribute (c f)) eqn:E; [reflexivity|]. rewrite P2 in D by auto. discriminate. }
    assert (V : tracked unmanaged c f -> ~ left_once f (map u_fields h)). { intros Z1 Z2. rewrite P2 in D by auto. discriminate. }
    split; [exact W|]. split; [|exact V]. rewrite <- P1 by auto. rewrite D. cbn. now rewrite T.
  - intros (I & W & T & V). rewrite <- (P1 f (Cm f I) W V) in T. destruct (dget f (ports p)) as [i|] eqn:D; [|discriminate]. injection T as T.
    exists i. split; [|exact T]. apply in_flat_map. exists f. rewrite D. split; [exact I|now left].
Qed.
Print Assumptions C94_ports.

(* Some order of the new fields always exists. *)
Theorem C94_order fields p : new_fields fields (nodup string_dec (filter (fun f => negb (smem f (map snd (subs p)))) fields)) p.
Proof.
  split; [apply NoDup_nodup|]. intros f. rewrite nodup_In, filter_In, negb_true_iff, smem_false. reflexivity.
Qed.
Print Assumptions C94_order.

Local Open Scope string_scope.
Local Open Scope list_scope.
(* A case: a block with a writeable sink port, a source port and a plain config attribute. *)
Definition ex_child (f : string) : cfield :=
  if String.eqb f "inp" then mkField true (Some (Sink "bool" "ZERO" "ZERO")) true
  else if String.eqb f "out" then mkField true (Some (Source "bool" "DIV.OUT")) false
  else if String.eqb f "divisor" then mkField true None true
  else mkField false None false.
Definition ex_upd (fields order : list string) : upd := mkUpd ex_child fields order.
Definition go (us : list upd) : part * (list string * list (string * pinfo)) :=
  fold_left (fun s u => update_part_exportable (fun _ => true) (u_child u) (u_fields u) (u_order u) (fst s)) us (new_part, ([], [])).
Definition ex_here := [ex_upd ["health"; "inp"; "out"] ["out"; "inp"; "health"]; ex_upd ["health"; "inp"; "out"; "divisor"] ["health"; "divisor"; "out"]].
Ltac order := split; [repeat constructor; cbn; intuition discriminate|intros f; cbn; intuition (try discriminate; subst; tauto || intuition discriminate)].
Lemma ex_reached : reaches (fun _ => true) ex_here (fst (go ex_here)) (snd (go ex_here)).
Proof.
  apply (then_update _ [ex_upd ["health"; "inp"; "out"] ["out"; "inp"; "health"]] (fst (go [ex_upd ["health"; "inp"; "out"] ["out"; "inp"; "health"]])) (snd (go [ex_upd ["health"; "inp"; "out"] ["out"; "inp"; "health"]]))).
  - apply (then_update _ [] new_part ([], [])); [constructor|]. order.
  - order.
Qed.
Example C94_child_ex : child_is ex_child ex_here /\ live (fst (go ex_here)) = [(1, "inp"); (2, "divisor")]%string /\
  snd (go ex_here) = (["health"; "inp"; "out"; "divisor"], [("inp", Sink "bool" "ZERO" "ZERO"); ("out", Source "bool" "DIV.OUT")])%string.
Proof. split; [intros u f [<-|[<-|[]]]; reflexivity|]. split; reflexivity. Qed.

(* A block whose fields go and come again, as those of a proxy do when the server restarts: its
   sink port is not reported any more, and its changes are not told. *)
Definition ex_back := ex_here ++ [ex_upd [] []; ex_upd ["health"; "inp"; "out"] ["health"; "out"]].
Theorem C94_back_refuted : exists h c p r, reaches (fun _ => true) h p r /\ child_is c h /\
  In "inp"%string (fst r) /\ tracked (fun _ => true) c "inp" /\ port_of (c "inp"%string) <> None /\
  (forall i, ~ In (i, "inp"%string) (live p)) /\ forall i, ~ In ("inp"%string, i) (snd r).
Proof.
  exists ex_back, ex_child, (fst (go ex_back)), (snd (go ex_back)). split.
  - apply (then_update _ (ex_here ++ [ex_upd [] []]) (fst (go (ex_here ++ [ex_upd [] []]))) (snd (go (ex_here ++ [ex_upd [] []])))).
    + apply (then_update _ ex_here (fst (go ex_here)) (snd (go ex_here))); [apply ex_reached|]. order.
    + order.
  - split; [intros u f I; cbn in I; decompose [or] I; subst; reflexivity || contradiction|]. split; [cbn; auto|]. split; [repeat split|].
    split; [discriminate|]. split; cbn; [intros i []|intros i [H|[]]; discriminate].
Qed.
Print Assumptions C94_back_refuted.

(* ==== The manager ==== *)
(* ---- specification ---- *)
(* What a part last said that it has. *)
Definition reported (part : string) (os : list op) : list string :=
  fold_left (fun l o => match o with Report p i => if String.eqb p part then fst i else l | _ => l end) os [].
(* The exports of every design that was loaded have been shown: the load went on to its end. *)
Definition settled (os : list op) : Prop := forall a v b, os = a ++ LoadExports v :: b -> In MarkClean b.
(* Names of fields have no dots (they are camelCase, C25). *)
Definition undotted (os : list op) : Prop := forall p i f, In (Report p i) os -> In f (fst i) -> Pva2_Props.no_dot f.

Section spec.
  Variables (rows : list (string * string * bool)) (has : string -> string -> Prop).
  (* The attribute of the block that the source of an export stands for, if it can be seen. *)
  Definition seen (s mri attr : string) : Prop :=
    exists part, s = (part ++ "." ++ attr)%string /\ Pva2_Props.no_dot attr /\
                 In (part, mri, true) rows /\ mri <> ""%string /\ has part attr.
  (* The rows of the exports, and the fields that they give the block, in order. *)
  Inductive gives : list (string * string) -> list (string * field) -> Prop :=
  | gives_nil : gives [] []
  | gives_one s n mri attr r l : seen s mri attr -> gives r l ->
      gives ((s, n) :: r) ((if String.eqb n "" then attr else n, Exported mri attr) :: l)
  | gives_none s n r l : (forall mri attr, ~ seen s mri attr) -> gives r l -> gives ((s, n) :: r) l.
  (* A part is hidden. *)
  Definition hidden (part : string) : bool := existsb (fun x => String.eqb (fst (fst x)) part && negb (snd x)) rows.
End spec.

Section mgr.
  Variables (parts : list (string * list string)) (children : list (string * string)).
  Hypothesis once : NoDup (map fst children).
  Notation run := (run parts children).
  Notation step := (step parts children).
  Notation get_current := (get_current parts children).
  Notation update_block_endpoints := (update_block_endpoints parts children).
  Notation refresh := (refresh parts children).
  Notation names := (names parts).
  Notation layout m := (combine children (visible m)).

  Definition has (m : mgr) (p a : string) : Prop :=
    In a (match dget p (exportable m) with Some l => l | None => [] end).
  Definition dotless (m : mgr) : Prop := forall p a, has m p a -> Pva2_Props.no_dot a.
  Definition known (m : mgr) : Prop := forall r, In r (exports m) ->
    exists p a, fst r = (p ++ "." ++ a)%string /\ Pva2_Props.no_dot a /\ In p (map fst parts).

  Lemma mris_spec (rows : list (string * string * bool)) : NoDup (map (fun x => fst (fst x)) rows) -> forall p mri,
    dget p (fold_left (fun d x => if snd x : bool then dset (fst (fst x)) (snd (fst x)) d else d) rows []) = Some mri <->
    In (p, mri, true) rows.
  Proof.
    intros ND p mri. set (F := fun (d : dict string) (x : string * string * bool) => if snd x then dset (fst (fst x)) (snd (fst x)) d else d).
    assert (G : forall d, dget p (fold_left F rows d) = Some mri <-> In (p, mri, true) rows \/ dget p d = Some mri /\ ~ exists m, In (p, m, true) rows).
    { induction rows as [|[[q n] b] rows IH]; intros d.
      - cbn. split; [intros H; right; split; [exact H|intros [m []]]|intros [[]|[H _]]; exact H].
      - cbn in ND. inversion ND as [|? ? N1 N2]; subst. cbn [fold_left]. rewrite (IH N2). unfold F at 1. cbn [fst snd In].
        destruct b.
        + destruct (String.eqb_spec q p) as [->|Ne].
          * rewrite dget_dset_same. split.
            -- intros [I|[E _]]; [exfalso; apply N1; apply (in_map (fun x => fst (fst x))) in I; exact I|]. injection E as ->. left. now left.
            -- intros [[E|I]|[_ X]]; [injection E as ->|exfalso; apply N1; apply (in_map (fun x => fst (fst x))) in I; exact I|exfalso; apply X; exists n; now left].
               right. split; [reflexivity|]. intros [m I]. apply N1. apply (in_map (fun x => fst (fst x))) in I; exact I.
          * rewrite dget_dset_other by exact Ne. split.
            -- intros [I|[E X]]; [left; now right|]. right. split; [exact E|]. intros [m [H|H]]; [congruence|apply X; now exists m].
            -- intros [[E|I]|[E X]]; [congruence|now left|]. right. split; [exact E|]. intros [m H]. apply X. exists m. now right.
        + split.
          * intros [I|[E X]]; [left; now right|]. right. split; [exact E|]. intros [m [H|H]]; [congruence|apply X; now exists m].
          * intros [[E|I]|[E X]]; [congruence|now left|]. right. split; [exact E|]. intros [m H]. apply X. exists m. now right. }
    rewrite (G []). split; [intros [H|[H _]]; [exact H|discriminate]|auto].
  Qed.

  Lemma rows_once (v : list bool) : NoDup (map (fun x => fst (fst x)) (combine children v)).
  Proof.
    clear parts. revert v. induction children as [|c cs IH]; intros [|b v]; cbn; try constructor.
    - inversion once as [|? ? N1 N2]; subst. intros I. apply N1. clear - I. revert v I. induction cs as [|x cs IH]; intros [|b v]; cbn; try contradiction. intros [H|H]; eauto.
    - apply IH. now inversion once.
  Qed.

  Lemma split_unique p a q b : Pva2_Props.no_dot a -> Pva2_Props.no_dot b -> (p ++ "." ++ a)%string = (q ++ "." ++ b)%string -> p = q /\ a = b.
  Proof.
    intros A B E. assert (X : Some (p, a) = Some (q, b)); [|injection X; auto].
    transitivity (Pva2_Model.rsplit1 "."%char (p ++ "." ++ a)%string); [symmetry; now apply Pva2_Props.rsplit1_some|rewrite E; now apply Pva2_Props.rsplit1_some].
  Qed.

  Lemma names_in m p a : dotless m -> Pva2_Props.no_dot a -> In (p ++ "." ++ a)%string (names m) <-> In p (map fst parts) /\ has m p a.
  Proof.
    intros D N. unfold Xport_Model.names. rewrite in_flat_map. split.
    - intros (q & I & J). apply in_map_iff in J as (b & E & J). assert (Nb : Pva2_Props.no_dot b) by (apply (D (fst q)); exact J).
      apply split_unique in E as [E ->]; [|exact Nb|exact N]. rewrite <- E. split; [now apply in_map|exact J].
    - intros [I H]. apply in_map_iff in I as (q & <- & I). exists q. split; [exact I|]. apply in_map_iff. exists a. auto.
  Qed.

  Lemma export1_spec m p a n : In p (map fst parts) -> Pva2_Props.no_dot a ->
    (forall mri, In (p, mri, true) (layout m) -> mri <> ""%string -> has m p a ->
       export1 parts children m ((p ++ "." ++ a)%string, n) = Some [(if String.eqb n "" then a else n, Exported mri a)]) /\
    ((forall mri, ~ (In (p, mri, true) (layout m) /\ mri <> ""%string /\ has m p a)) ->
       export1 parts children m ((p ++ "." ++ a)%string, n) = Some []).
  Proof.
    intros I N. unfold export1. cbn [fst snd]. rewrite (proj2 (Pva2_Props.rsplit1_some _ p a) (conj eq_refl N)).
    rewrite (proj2 (smem_In p (map fst parts)) I). unfold mris. fold (has m p a). split.
    - intros mri J Nm H. rewrite (proj2 (mris_spec (layout m) (rows_once _) p mri) J).
      destruct (String.eqb_spec mri "") as [E|_]; [contradiction|]. cbn [negb andb]. now rewrite (proj2 (smem_In _ _) H).
    - intros W. destruct (dget p _) as [mri|] eqn:D; [|reflexivity]. apply (mris_spec (layout m) (rows_once _)) in D.
      destruct (String.eqb_spec mri "") as [E|Nm]; [reflexivity|]. cbn [negb andb].
      destruct (smem a _) eqn:H; [|reflexivity]. apply smem_In in H. exfalso. apply (W mri). auto.
  Qed.

  Lemma mri_dec m p : (exists mri, In (p, mri, true) (layout m)) \/ forall mri, ~ In (p, mri, true) (layout m).
  Proof.
    destruct (dget p (mris children m)) as [mri|] eqn:D.
    - left. exists mri. now apply (mris_spec (layout m) (rows_once _)).
    - right. intros mri I. apply (mris_spec (layout m) (rows_once _)) in I. unfold mris in D. congruence.
  Qed.

  Lemma rows_give m : forall rows, (forall r, In r rows -> exists p a, fst r = (p ++ "." ++ a)%string /\ Pva2_Props.no_dot a /\ In p (map fst parts)) ->
    exists l, export_rows parts children m rows = Some l /\ gives (layout m) (has m) rows l.
  Proof.
    induction rows as [|[s n] rows IH]; intros K; [exists []; split; [reflexivity|constructor]|].
    destruct IH as (l & E & G); [intros r I; apply K; now right|]. destruct (K (s, n) (or_introl eq_refl)) as (p & a & Es & N & I). cbn [fst] in Es. subst s.
    destruct (export1_spec m p a n I N) as [X1 X2]. cbn [export_rows]. rewrite E.
    assert (Hd : has m p a \/ ~ has m p a) by (unfold has; destruct (in_dec string_dec a (match dget p (exportable m) with Some l => l | None => [] end)); auto).
    assert (Y : (exists mri, In (p, mri, true) (layout m) /\ mri <> ""%string /\ has m p a) \/ forall mri, ~ (In (p, mri, true) (layout m) /\ mri <> ""%string /\ has m p a)).
    { destruct Hd as [Hd|Hd]; [|right; tauto]. destruct (mri_dec m p) as [[mri J]|J]; [|right; intros mri (Z & _); now apply (J mri)].
      destruct (string_dec mri "") as [->|Nm]; [|left; eauto]. right. intros mri (Z & Nm & _). apply Nm.
      apply (mris_spec _ (rows_once _)) in J, Z. congruence. }
    destruct Y as [(mri & J & Nm & H)|Y].
    - rewrite (X1 mri J Nm H). eexists. split; [reflexivity|]. cbn [app]. constructor; [|exact G]. exists p. auto.
    - rewrite (X2 Y). eexists. split; [reflexivity|]. cbn [app]. constructor; [|exact G]. intros mri b (q & Eq & Nb & J & Nm & H).
      apply split_unique in Eq as [-> ->]; [|assumption..]. apply (Y mri). auto.
  Qed.

  Lemma hidden_spec m p : smem p (invisible children m) = hidden (layout m) p.
  Proof.
    unfold invisible, hidden. generalize (layout m) as rows. induction rows as [|[[q n] b] rows IH]; [reflexivity|]. cbn. rewrite <- IH.
    destruct b; cbn; [now rewrite andb_false_r|]. rewrite andb_true_r. unfold smem. cbn. now rewrite (String.eqb_sym q p).
  Qed.

  Lemma current_spec m : known m -> exists l, get_current m = Some (flat_map (fun p => if hidden (layout m) (fst p) then [] else map (fun f => (f, Own (fst p) f)) (snd p)) parts ++ l)
    /\ gives (layout m) (has m) (exports m) l.
  Proof.
    intros K. destruct (rows_give m (exports m) K) as (l & E & G). exists l. split; [|exact G]. unfold Xport_Model.get_current. rewrite E. do 2 f_equal.
    apply flat_map_ext. intros p. now rewrite hidden_spec.
  Qed.

  (* The fields of a block depend only on these. *)
  Lemma current_same m m' : visible m = visible m' -> exports m = exports m' ->
    (forall r p a, In r (exports m) -> fst r = (p ++ "." ++ a)%string -> Pva2_Props.no_dot a -> In p (map fst parts) -> has m p a <-> has m' p a) ->
    known m -> get_current m = get_current m'.
  Proof.
    intros V X H K. unfold Xport_Model.get_current. replace (invisible children m') with (invisible children m) by (unfold invisible; now rewrite V). rewrite <- X.
    replace (export_rows parts children m' (exports m)) with (export_rows parts children m (exports m)); [reflexivity|].
    unfold known in K. revert H K. generalize (exports m) as rows. clear X. induction rows as [|r rows IH]; intros H K; [reflexivity|]. cbn [export_rows].
    rewrite IH; [|intros q p a I; apply H; now right|intros q I; apply K; now right]. replace (export1 parts children m' r) with (export1 parts children m r); [reflexivity|].
    destruct (K r (or_introl eq_refl)) as (p & a & E & N & I). destruct r as [s n]. cbn [fst] in E. subst s. unfold export1. cbn [fst snd].
    rewrite (proj2 (Pva2_Props.rsplit1_some _ p a) (conj eq_refl N)). unfold mris. rewrite <- V. destruct (smem p (map fst parts)); [|reflexivity].
    destruct (dget p _) as [mri|]; [|reflexivity]. specialize (H _ p a (or_introl eq_refl) eq_refl N I).
    replace (smem a match dget p (exportable m') with Some l => l | None => [] end) with (smem a match dget p (exportable m) with Some l => l | None => [] end); [reflexivity|].
    apply eq_true_iff_eq. rewrite !smem_In. exact H.
  Qed.

  Lemma update_ok m : known m -> exists l, update_block_endpoints m = Some (mkMgr (ready m) (exportable m) (port_info m) (visible m) (exports m) (choices m) l) /\ get_current m = Some l.
  Proof.
    intros K. destruct (current_spec m K) as (l & E & _). unfold Xport_Model.update_block_endpoints. rewrite E. eauto.
  Qed.

  Lemma refresh_ok m : known m -> dotless m -> ready m = true ->
    exists l, refresh m = Some (mkMgr true (exportable m) (port_info m) (visible m) (exports m) (names m) l) /\
      ((forall m0, known m0 -> dotless m0 -> choices m = names m0 -> exports m0 = exports m -> visible m0 = visible m -> get_current m0 = Some (current m) -> get_current m = Some l)).
  Proof.
    intros K D R. unfold Xport_Model.refresh. rewrite R. destruct (changed (choices m) (names m) (map fst (exports m))) eqn:C.
    - set (m1 := mkMgr true (exportable m) (port_info m) (visible m) (exports m) (names m) (current m)).
      destruct (update_ok m1 K) as (l & U & G). rewrite U. exists l. split; [reflexivity|]. intros. rewrite (current_same m m1 eq_refl eq_refl (fun _ _ _ _ _ _ _ => iff_refl _) K). exact G.
    - exists (current m). split; [reflexivity|]. intros m0 K0 D0 Ec Ex Ev G. rewrite <- G. symmetry. apply current_same; [exact Ev|exact Ex| |exact K0].
      intros r p a I E N Ip. rewrite Ex in I. unfold changed in C. 
      assert (Z : xorb (smem (fst r) (choices m)) (smem (fst r) (names m)) = false).
      { destruct (xorb _ _) eqn:Z; [|reflexivity]. rewrite <- C. symmetry. apply existsb_exists. exists (fst r). split; [now apply in_map|exact Z]. }
      rewrite Ec, E in Z. apply xorb_eq in Z.
      assert (Q : In (p ++ "." ++ a)%string (names m0) <-> In (p ++ "." ++ a)%string (names m)) by (rewrite <- !smem_In, Z; reflexivity).
      rewrite (names_in m0 p a D0 N), (names_in m p a D N) in Q. tauto.
  Qed.

  Lemma run_app m os o : run m (os ++ [o]) = match run m os with Some m' => step m' o | None => None end.
  Proof.
    revert m. induction os as [|x os IH]; intros m; cbn; [now destruct (step m o)|]. destruct (step m x); [apply IH|reflexivity].
  Qed.
  Lemma reported_app p os o : reported p (os ++ [o]) = match o with Report q i => if String.eqb q p then fst i else reported p os | _ => reported p os end.
  Proof. unfold reported. now rewrite fold_left_app. Qed.
  Lemma reported_in p f os : In f (reported p os) -> exists i, In (Report p i) os /\ In f (fst i).
  Proof.
    induction os as [|o os IH] using rev_ind; [intros []|]. rewrite reported_app. intros I.
    assert (X : In f (reported p os) -> exists i, In (Report p i) (os ++ [o]) /\ In f (fst i)) by (intros J; destruct (IH J) as (i & A & B); exists i; rewrite in_app_iff; auto).
    destruct o as [q i| | | |]; auto. destruct (String.eqb_spec q p) as [->|_]; auto. exists i. rewrite in_app_iff. cbn. auto.
  Qed.
  Lemma settled_app os o : settled (os ++ [o]) -> o = MarkClean \/ settled os /\ forall v, o <> LoadExports v.
  Proof.
    intros S. assert (X : o <> MarkClean -> settled os).
    { intros N a w b ->. specialize (S a w (b ++ [o])). rewrite <- app_assoc in S. specialize (S eq_refl). apply in_app_or in S as [S|[S|[]]]; [exact S|contradiction]. }
    destruct o as [q i|v|v|v|]; [right|right|right|exfalso|now left]; try (split; [apply X|]; discriminate).
    exact (S os v [] eq_refl).
  Qed.

  Definition inv (os : list op) (m : mgr) : Prop :=
    (forall p, reported p os = match dget p (exportable m) with Some l => l | None => [] end) /\
    (ready m = true -> choices m = names m) /\ (ready m = false -> choices m = [] /\ exports m = []) /\ known m /\
    (ready m = true <-> exists v, In (Layout v) os) /\ (settled os -> ready m = true -> get_current m = Some (current m)).

  Lemma inv_dotless os m : inv os m -> undotted os -> dotless m.
  Proof. intros (A & _) U p a H. unfold has in H. rewrite <- A in H. apply reported_in in H as (i & I & J). exact (U p i a I J). Qed.

  Lemma known_valid m v : known m -> dotless m -> (ready m = true -> choices m = names m) -> (ready m = false -> choices m = []) -> valid m v = true -> known (put_exports v m).
  Proof.
    intros K D R1 R2 V r I. cbn in I. unfold valid in V. rewrite forallb_forall in V. specialize (V r I). apply smem_In in V.
    destruct (ready m); [rewrite R1 in V by reflexivity|rewrite R2 in V by reflexivity; destruct V].
    unfold Xport_Model.names in V. apply in_flat_map in V as (q & Iq & J). apply in_map_iff in J as (a & E & J). exists (fst q), a.
    split; [now symmetry|]. split; [apply (D (fst q)); exact J|now apply in_map].
  Qed.

  Lemma inv_step os m o : inv os m -> undotted (os ++ [o]) -> exists m', step m o = Some m' /\ inv (os ++ [o]) m'.
  Proof.
    intros I U. assert (U0 : undotted os) by (intros p i f J1 J2; apply (U p i f); [rewrite in_app_iff; auto|exact J2]). pose proof (inv_dotless os m I U0) as D. destruct I as (A & B1 & B2 & K & R & G).
    assert (Rl : forall w, (forall v, o <> Layout v) -> (w = true <-> exists v, In (Layout v) os) -> (w = true <-> exists v, In (Layout v) (os ++ [o]))).
    { intros w N W. rewrite W. split; intros [v H]; exists v; rewrite in_app_iff in *; [auto|]. destruct H as [H|[H|[]]]; [exact H|now apply N in H]. }
    assert (Same : (forall p i, o <> Report p i) -> forall p, reported p (os ++ [o]) = reported p os).
    { intros N p. rewrite reported_app. destruct o; auto. now destruct (N part i). }
    destruct o as [p i|v|v|v|]; cbn [Xport_Model.step].
    - (* a report *)
      unfold report. set (m1 := mkMgr (ready m) (dset p (fst i) (exportable m)) (dset p (snd i) (port_info m)) (visible m) (exports m) (choices m) (current m)).
      assert (A1 : forall q, reported q (os ++ [Report p i]) = match dget q (exportable m1) with Some l => l | None => [] end).
      { intros q. rewrite reported_app. cbn [exportable m1]. destruct (String.eqb_spec p q) as [->|Ne]; [now rewrite dget_dset_same|now rewrite dget_dset_other]. }
      assert (D1 : dotless m1). { intros q a H. unfold has in H. rewrite <- A1 in H. apply reported_in in H as (j & J1 & J2). exact (U q j a J1 J2). }
      assert (R1 : ready m1 = true <-> exists v, In (Layout v) (os ++ [Report p i])) by (apply Rl; [discriminate|exact R]).
      destruct (ready m) eqn:Em.
      + destruct (refresh_ok m1 K D1 eq_refl) as (l & E & C). rewrite E. eexists. split; [reflexivity|]. split; [exact A1|]. split; [reflexivity|]. split; [discriminate|]. split; [exact K|]. split; [exact R1|].
        intros S _. apply settled_app in S as [S|[S _]]; [discriminate|]. transitivity (get_current m1); [apply current_same; [reflexivity|reflexivity|intros; reflexivity|exact K]|].
        apply (C m); auto.
      + unfold Xport_Model.refresh. cbn [ready m1]. eexists. split; [reflexivity|]. split; [exact A1|]. split; [discriminate|]. split; [exact B2|]. split; [exact K|]. split; [exact R1|]. discriminate.
    - (* a layout *)
      unfold set_layout. set (m1 := mkMgr true (exportable m) (port_info m) v (exports m) (choices m) (current m)).
      assert (A1 : forall q, reported q (os ++ [Layout v]) = match dget q (exportable m1) with Some l => l | None => [] end) by (intros q; rewrite Same by discriminate; apply A).
      assert (R1 : true = true <-> exists w, In (Layout w) (os ++ [Layout v])) by (split; [intros _; exists v; rewrite in_app_iff; cbn; auto|reflexivity]).
      destruct (negb (ready m) || negb (same v (visible m))) eqn:C.
      + destruct (refresh_ok m1 K D eq_refl) as (l & E & _). rewrite E.
        match goal with |- context [update_block_endpoints ?x] => set (m2 := x) end.
        destruct (update_ok m2 K) as (l' & U' & G'). rewrite U'. eexists. split; [reflexivity|]. split; [exact A1|]. split; [reflexivity|]. split; [discriminate|]. split; [exact K|]. split; [exact R1|].
        intros _ _. etransitivity; [|exact G']. apply current_same; [reflexivity|reflexivity|intros; reflexivity|exact K || exact K1].
      + apply orb_false_iff in C as [C1 C2]. apply negb_false_iff in C1, C2.
        assert (V : v = visible m). { clear - C2. revert C2. generalize (visible m) as w. induction v as [|x v IH]; intros [|y w]; cbn; try discriminate; [reflexivity|]. rewrite andb_true_iff. intros [E1 E2]. apply eqb_prop in E1. f_equal; auto. }
        eexists. split; [reflexivity|]. split; [exact A1|]. split; [intros _; now apply B1|]. split; [discriminate|]. split; [exact K|]. split; [exact R1|].
        intros S _. apply settled_app in S as [S|[S _]]; [discriminate|]. change (current m1) with (current m). etransitivity; [|exact (G S C1)]. apply current_same; [exact V|reflexivity|intros; reflexivity|exact K].
    - (* a put to exports *)
      unfold set_exports. destruct (forallb _ v && valid m v) eqn:C.
      + apply andb_true_iff in C as [_ C]. assert (K1 : known (put_exports v m)) by (apply known_valid; auto; intros H; now apply B2).
        destruct (update_ok _ K1) as (l & U' & G'). rewrite U'. eexists. split; [reflexivity|]. split; [intros q; rewrite Same by discriminate; apply A|]. split; [exact B1|]. split; [|split; [exact K1|split; [apply Rl; [discriminate|exact R]|]]].
        * cbn. intros H. split; [now apply B2|]. destruct (B2 H) as [Ec _]. clear - C Ec. unfold valid in C. rewrite Ec in C. destruct v; [reflexivity|discriminate].
        * intros _ _. etransitivity; [|exact G']. apply current_same; [reflexivity|reflexivity|intros; reflexivity|exact K || exact K1].
      + eexists. split; [reflexivity|]. split; [intros q; rewrite Same by discriminate; apply A|]. split; [exact B1|]. split; [exact B2|]. split; [exact K|]. split; [apply Rl; [discriminate|exact R]|].
        intros S. apply settled_app in S as [S|[S _]]; [discriminate|]. auto.
    - (* the exports of a design *)
      eexists. split; [reflexivity|]. destruct (valid m v) eqn:C.
      + assert (K1 : known (put_exports v m)) by (apply known_valid; auto; intros H; now apply B2).
        split; [intros q; rewrite Same by discriminate; apply A|]. split; [exact B1|]. split; [|split; [exact K1|split; [apply Rl; [discriminate|exact R]|]]].
        * cbn. intros H. split; [now apply B2|]. destruct (B2 H) as [Ec _]. clear - C Ec. unfold valid in C. rewrite Ec in C. destruct v; [reflexivity|discriminate].
        * intros S. exfalso. exact (S os v [] eq_refl).
      + split; [intros q; rewrite Same by discriminate; apply A|]. split; [exact B1|]. split; [exact B2|]. split; [exact K|]. split; [apply Rl; [discriminate|exact R]|].
        intros S. exfalso. exact (S os v [] eq_refl).
    - (* the end of a load *)
      destruct (update_ok m K) as (l & U' & G'). rewrite U'. eexists. split; [reflexivity|]. split; [intros q; rewrite Same by discriminate; apply A|]. split; [exact B1|]. split; [exact B2|]. split; [exact K|]. split; [apply Rl; [discriminate|exact R]|].
      intros _ _. etransitivity; [|exact G']. apply current_same; [reflexivity|reflexivity|intros; reflexivity|exact K || exact K1].
  Qed.

  Lemma inv_run os : undotted os -> exists m, run new_mgr os = Some m /\ inv os m.
  Proof.
    induction os as [|o os IH] using rev_ind; intros U.
    - exists new_mgr. split; [reflexivity|]. split; [reflexivity|]. split; [discriminate|]. split; [auto|]. split; [intros r []|]. split; [split; [discriminate|intros [v []]]|]. discriminate.
    - destruct IH as (m & E & I); [intros p i f J1 J2; apply (U p i f); [rewrite in_app_iff; auto|exact J2]|]. destruct (inv_step os m o I U) as (m' & S & I'). exists m'. rewrite run_app, E. auto.
  Qed.

  (* ---- theorems ---- *)
  (* Nothing that happens is an error that nothing foresees. *)
  Theorem C94_total os : undotted os -> exists m, run new_mgr os = Some m.
  Proof. intros U. destruct (inv_run os U) as (m & E & _). eauto. Qed.

  (* Once there is a layout, what may be exported is what the parts last said that they have. *)
  Theorem C94_choices os m : undotted os -> run new_mgr os = Some m -> (exists v, In (Layout v) os) ->
    choices m = flat_map (fun p => map (fun a => (fst p ++ "." ++ a)%string) (reported (fst p) os)) parts.
  Proof.
    intros U E L. destruct (inv_run os U) as (m' & E' & A & B & _ & _ & R & _). rewrite E in E'. injection E' as <-. rewrite B by now apply R.
    apply flat_map_ext. intros p. now rewrite A.
  Qed.

  (* The fields of the block are those of the parts that are not hidden, and the exports whose
     source is a field that a visible part has. *)
  Theorem C94_shows os m : undotted os -> run new_mgr os = Some m -> (exists v, In (Layout v) os) -> settled os ->
    exists l, current m = flat_map (fun p => if hidden (layout m) (fst p) then [] else map (fun f => (f, Own (fst p) f)) (snd p)) parts ++ l
      /\ gives (layout m) (fun p a => In a (reported p os)) (exports m) l.
  Proof.
    intros U E L S. destruct (inv_run os U) as (m' & E' & A & B & _ & K & R & G). rewrite E in E'. injection E' as <-. specialize (G S (proj2 R L)).
    destruct (current_spec m K) as (l & C & V). rewrite G in C. injection C as C. exists l. split; [exact C|].
    assert (X : forall p a, In a (reported p os) <-> has m p a) by (intros p a; unfold has; now rewrite A). clear - V X.
    induction V as [|s n mri attr r l W V IH|s n r l W V IH]; constructor; auto.
    - destruct W as (p & W1 & W2 & W3 & W4 & W5). exists p. rewrite X. auto.
    - intros mri attr (p & W1 & W2 & W3 & W4 & W5). apply (W mri attr). exists p. rewrite <- X. auto.
  Qed.
End mgr.
Print Assumptions C94_total.
Print Assumptions C94_choices.
Print Assumptions C94_shows.

(* A case: two blocks and a part with a field of its own; one export of each block, one of them
   hidden; then the field of the other goes and comes back. *)
Definition ex_parts : list (string * list string) := [("DET", []); ("STATS", []); ("label", ["label"])].
Definition ex_children := [("DET", "BL:DET"); ("STATS", "BL:STATS")].
Definition ex_os := [Report "DET" (["health"; "exposure"], []); Layout [true; false]; Report "STATS" (["total"], []);
  Exports [("DET.exposure", "time"); ("STATS.total", "total")]].
Example C94_ex : undotted ex_os /\ settled ex_os /\ (exists v, In (Layout v) ex_os) /\ NoDup (map fst ex_children) /\
  exists m, run ex_parts ex_children new_mgr ex_os = Some m /\
    choices m = ["DET.health"; "DET.exposure"; "STATS.total"] /\
    current m = [("label", Own "label" "label"); ("time", Exported "BL:DET" "exposure")] /\
  exists m1, run ex_parts ex_children m [Report "DET" (["health"], [])] = Some m1 /\ current m1 = [("label", Own "label" "label")] /\
  exists m2, run ex_parts ex_children m1 [Report "DET" (["exposure"; "health"], []); Layout [true; true]] = Some m2 /\
    current m2 = [("label", Own "label" "label"); ("time", Exported "BL:DET" "exposure"); ("total", Exported "BL:STATS" "total")].
Proof.
  split; [|split; [|split; [|split]]].
  - intros p i f I J. apply Pva2_Props.rsplit1_none. cbn in I. decompose [or] I; try discriminate; try contradiction;
      match goal with H : _ = Report _ _ |- _ => injection H as <- <- end; cbn in J; decompose [or] J; subst; reflexivity || contradiction.
  - intros a v b E. assert (X : In (LoadExports v) ex_os) by (rewrite E, in_app_iff; cbn; auto). cbn in X. decompose [or] X; discriminate || contradiction.
  - exists [true; false]. cbn. auto.
  - repeat constructor; cbn; intuition discriminate.
  - eexists. split; [vm_compute; reflexivity|]. split; [reflexivity|]. split; [reflexivity|].
    eexists. split; [vm_compute; reflexivity|]. split; [reflexivity|]. eexists. split; vm_compute; reflexivity.
Qed.

(* A load that fails when the design has been read (in the LoadHook of a part): the exports of the
   design are in the table, and the block does not have them.  A reset leaves that so. *)
Theorem C94_failed_load_refuted : exists os m, undotted os /\ (exists v, In (Layout v) os) /\
  run ex_parts ex_children new_mgr os = Some m /\
  ~ exists l, current m = flat_map (fun p => if hidden (combine ex_children (visible m)) (fst p) then [] else map (fun f => (f, Own (fst p) f)) (snd p)) ex_parts ++ l
      /\ gives (combine ex_children (visible m)) (fun p a => In a (reported p os)) (exports m) l.
Proof.
  exists [Report "DET" (["health"; "exposure"], []); Layout [true; false]; LoadExports [("DET.exposure", "time")]].
  eexists. split; [|split; [|split; [vm_compute; reflexivity|]]].
  - intros p i f I J. apply Pva2_Props.rsplit1_none. cbn in I. decompose [or] I; try discriminate; try contradiction;
      match goal with H : _ = Report _ _ |- _ => injection H as <- <- end; cbn in J; decompose [or] J; subst; reflexivity || contradiction.
  - exists [true; false]. cbn. auto.
  - cbn. intros (l & E & G). injection E as E. subst l. inversion G as [| |s n r l W V]; subst. apply (W "BL:DET" "exposure").
    exists "DET". split; [reflexivity|]. split; [now apply Pva2_Props.rsplit1_none|]. split; [now left|]. split; [discriminate|]. cbn. auto.
Qed.
Print Assumptions C94_failed_load_refuted.
