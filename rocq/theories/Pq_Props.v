(* C104: the client knows of a PandA what it has, and a PandA is told what was meant. *)
From Coq Require Import String Ascii Bool Arith ZArith DecimalString DecimalNat Lia List Permutation Sorted.
From Verif Require Import Base Hdf_Model PField_Model Pq_Model Pq_Spec.
From Verif Require PField_Props.
Import ListNotations.
Local Open Scope nat_scope.
Local Open Scope string_scope.
Local Open Scope list_scope.

(* ---- text ---- *)
Lemma sa a b c : (a +++ b) +++ c = a +++ (b +++ c).
Proof. induction a as [|x a IH]; [reflexivity|]. cbn. now rewrite IH. Qed.
Lemma chars_app f a b : chars f (a +++ b) = chars f a && chars f b.
Proof. induction a as [|x a IH]; [reflexivity|]. cbn. rewrite IH, andb_assoc. reflexivity. Qed.
Lemma chars_imp (f g : ascii -> bool) s : (forall c, f c = true -> g c = true) -> chars f s = true -> chars g s = true.
Proof.
  intros H. induction s as [|c s IH]; [auto|]. cbn. intros A. apply andb_true_iff in A as [A B].
  rewrite (H c A). cbn. auto.
Qed.
Definition no (x : ascii) (c : ascii) : bool := negb (Ascii.eqb c x).
Lemma nc_code c : name_char c = true ->
  let n := nat_of_ascii c in (48 <= n /\ n <= 57) \/ (65 <= n /\ n <= 90) \/ (97 <= n /\ n <= 122) \/ n = 95.
Proof.
  unfold name_char. cbv zeta. rewrite !orb_true_iff, !andb_true_iff, !Nat.leb_le, Nat.eqb_eq. tauto.
Qed.
Lemma nc_no x c : name_char x = false -> name_char c = true -> no x c = true.
Proof. intros A B. unfold no. destruct (Ascii.eqb_spec c x); [congruence|reflexivity]. Qed.
Lemma nc_blank c : name_char c = true -> negb (blank c) = true.
Proof.
  intros H. apply nc_code in H. cbv zeta in H. unfold blank. cbv zeta.
  destruct (Nat.leb_spec 9 (nat_of_ascii c)), (Nat.leb_spec (nat_of_ascii c) 13), (Nat.leb_spec 28 (nat_of_ascii c)),
    (Nat.leb_spec (nat_of_ascii c) 32); cbn; auto; lia.
Qed.

Definition word (s : string) : Prop := s <> "" /\ chars (fun c => negb (blank c)) s = true.
Lemma ident_word s : ident s -> word s.
Proof. intros [A B]. split; [exact A|]. revert B. apply chars_imp. apply nc_blank. Qed.
Lemma ident_no x s : name_char x = false -> ident s -> chars (no x) s = true.
Proof. intros X [_ B]. revert B. apply chars_imp. intros c. apply nc_no. exact X. Qed.

Lemma words_last w : word w -> words w = [w].
Proof.
  intros [A B]. induction w as [|c w IH]; [congruence|]. cbn in B. apply andb_true_iff in B as [B1 B2].
  apply negb_true_iff in B1. cbn [words]. rewrite B1. destruct w as [|d w]; [reflexivity|].
  assert (B3 := B2). cbn in B3. apply andb_true_iff in B3 as [B3 _]. apply negb_true_iff in B3. rewrite B3.
  rewrite IH; [reflexivity|discriminate|exact B2].
Qed.
Lemma words_cons w s : word w -> words (w +++ String " " s) = w :: words s.
Proof.
  intros [A B]. induction w as [|c w IH]; [congruence|]. cbn in B. apply andb_true_iff in B as [B1 B2].
  apply negb_true_iff in B1. cbn [String.append words]. rewrite B1. destruct w as [|d w]; [reflexivity|].
  assert (B3 := B2). cbn in B3. apply andb_true_iff in B3 as [B3 _]. apply negb_true_iff in B3.
  cbn [String.append] in *. rewrite B3. rewrite IH; [reflexivity|discriminate|exact B2].
Qed.

Lemma num_ident n : ident (str n).
Proof.
  unfold str. split.
  - assert (H : Nat.to_uint n <> Decimal.Nil).
    { intros E. pose proof (Unsigned.of_to n) as O. rewrite E in O. cbn in O. subst n. discriminate E. }
    destruct (Nat.to_uint n); cbn; congruence.
  - generalize (Nat.to_uint n) as u. induction u; cbn; auto.
Qed.
Lemma num_digits n : digits (str n) = Some (Z.of_nat n).
Proof.
  pose proof (num_ident n) as [NE _]. unfold digits. destruct (str n) as [|c s] eqn:E; [congruence|].
  rewrite <- E. unfold str. rewrite NilEmpty.usu, Unsigned.of_to. reflexivity.
Qed.
Lemma num_int n : py_int (str n) = Some (Z.of_nat n).
Proof.
  pose proof (num_ident n) as [NE B]. pose proof (num_digits n) as D. unfold py_int. destruct (str n) as [|c s]; [congruence|].
  cbn in B. apply andb_true_iff in B as [B _].
  pose proof (nc_no "-" c eq_refl B) as N1. pose proof (nc_no "+" c eq_refl B) as N2.
  unfold no in N1, N2. apply negb_true_iff in N1. apply negb_true_iff in N2. rewrite N1, N2. exact D.
Qed.

Lemma split_on_last c s : chars (no c) s = true -> split_on c s = [s].
Proof.
  induction s as [|x s IH]; [reflexivity|]. cbn. intros A. apply andb_true_iff in A as [A B].
  unfold no in A. apply negb_true_iff in A. rewrite A, (IH B). reflexivity.
Qed.
Lemma split_on_cons c s r : chars (no c) s = true -> split_on c (s +++ String c r) = s :: split_on c r.
Proof.
  induction s as [|x s IH]; cbn; intros A; [rewrite Ascii.eqb_refl; reflexivity|].
  apply andb_true_iff in A as [A B]. unfold no in A. apply negb_true_iff in A. rewrite A, (IH B). reflexivity.
Qed.
Lemma dots_last s : chars (no ".") s = true -> dots s = [s].
Proof.
  induction s as [|x s IH]; [reflexivity|]. cbn. intros A. apply andb_true_iff in A as [A B].
  unfold no in A. apply negb_true_iff in A. rewrite A, (IH B). reflexivity.
Qed.
Lemma dots_cons s r : chars (no ".") s = true -> dots (s +++ String "." r) = s :: dots r.
Proof.
  induction s as [|x s IH]; cbn [String.append dots chars]; intros A; [reflexivity|].
  apply andb_true_iff in A as [A B]. unfold no in A. apply negb_true_iff in A. rewrite A, (IH B). reflexivity.
Qed.
Lemma question_app s : question (s +++ ("?" +++ nl)) = Some s.
Proof.
  induction s as [|c s IH]; [reflexivity|].
  change (question (String c (s +++ ("?" +++ nl))) = Some (String c s)).
  set (t := s +++ ("?" +++ nl)) in *. cbn [question].
  destruct (String.eqb_spec (String c t) ("?" +++ line_end)) as [E|E].
  - apply (f_equal String.length) in E. cbn in E.
    assert (L : forall a b, String.length (a +++ b) = String.length a + String.length b).
    { clear. induction a as [|x a IH]; intros b; [reflexivity|]. cbn. now rewrite IH. }
    unfold t in E. rewrite L in E. cbn in E. lia.
  - rewrite IH. reflexivity.
Qed.

(* ---- lookups ---- *)
Lemma find_here {A} (f : A -> string) x l : NoDup (map f l) -> In x l -> find_by f (f x) l = Some x.
Proof.
  induction l as [|y l IH]; intros ND I; [destruct I|]. inversion ND; subst. cbn.
  destruct (String.eqb_spec (f y) (f x)) as [E|E].
  - destruct I as [->|I]; [reflexivity|]. exfalso. apply H1. rewrite E. apply in_map. exact I.
  - destruct I as [->|I]; [congruence|]. apply IH; auto.
Qed.
Lemma dset_new {A} k (v : A) d : ~ In k (dkeys d) -> dset k v d = d ++ [(k, v)].
Proof.
  induction d as [|[x w] d IH]; intros N; [reflexivity|]. cbn. cbn in N.
  destruct (String.eqb_spec k x) as [->|E]; [exfalso; auto|]. rewrite IH; auto.
Qed.
Lemma collect_all {A B} (f : A -> result cerr B) (g : A -> B) l : (forall x, In x l -> f x = Ok (g x)) -> collect f l = Ok (map g l).
Proof.
  induction l as [|x l IH]; intros H; [reflexivity|]. cbn. rewrite (H x) by (cbn; auto).
  rewrite IH by (intros; apply H; cbn; auto). reflexivity.
Qed.
(* A loop that adds one new entry per line. *)
Lemma gather_new {A B} (step : dict B -> string -> result cerr (dict B)) (line : A -> string) (key : A -> string) (val : A -> B) l :
  (forall x d, In x l -> step d (line x) = Ok (dset (key x) (val x) d)) -> NoDup (map key l) ->
  gather step [] (map line l) = Ok (map (fun x => (key x, val x)) l).
Proof.
  intros H ND.
  assert (G : forall acc, (forall x, In x l -> ~ In (key x) (dkeys acc)) ->
    gather step acc (map line l) = Ok (acc ++ map (fun x => (key x, val x)) l)).
  { induction l as [|x l IH]; intros acc N; [cbn; rewrite app_nil_r; reflexivity|].
    inversion ND; subst. cbn. rewrite H by (cbn; auto). rewrite dset_new by (apply N; cbn; auto).
    rewrite IH.
    - rewrite <- app_assoc. reflexivity.
    - intros; apply H; cbn; auto.
    - assumption.
    - intros y I J. unfold dkeys in J. rewrite map_app in J. apply in_app_or in J as [J|[J|[]]].
      + apply (N y); [cbn; auto|exact J].
      + cbn in J. apply H2. rewrite J. apply in_map. exact I. }
  apply (G []). intros x _ [].
Qed.

(* ---- the answers ---- *)
Definition pieces (l : list string) : string := String.concat "." l.
Lemma dots_pieces l : l <> [] -> Forall (fun s => chars (no ".") s = true) l -> dots (pieces l) = l.
Proof.
  intros NE F. induction F as [|x l Hx F IH]; [congruence|]. destruct l as [|y l].
  - apply dots_last. exact Hx.
  - change (pieces (x :: y :: l)) with (x +++ String "." (pieces (y :: l))).
    rewrite dots_cons by exact Hx. rewrite IH by discriminate. reflexivity.
Qed.
Lemma plain_ident s : ident s -> chars (no ".") s = true.
Proof. apply ident_no. reflexivity. Qed.
Lemma ident_neq s t : ident s -> chars name_char t = false -> String.eqb s t = false.
Proof. intros [_ A] B. apply String.eqb_neq. intros ->. congruence. Qed.
Ltac pieces_tac := apply dots_pieces; [discriminate|repeat (constructor; [first [apply plain_ident; assumption|reflexivity]|]); constructor].

Section device.
  Variable d : device.
  Hypothesis D : device_ok d.
  Lemma the_block b : In b d -> find_by b_name (b_name b) d = Some b.
  Proof. apply find_here. apply D. Qed.
  Lemma block_fine b : In b d -> block_ok b.
  Proof. intros I. destruct D as [F _]. rewrite Forall_forall in F. auto. Qed.

  Lemma serve_blocks : serve d ("*BLOCKS?" +++ nl) = Lines (map (fun b => b_name b +++ " " +++ str (b_number b)) d).
  Proof. reflexivity. Qed.
  Lemma serve_desc b : In b d -> serve d ("*DESC." +++ b_name b +++ "?" +++ nl) = Line ("OK =" +++ b_desc b).
  Proof.
    intros I. pose proof (block_fine b I) as (N & _).
    change ("*DESC." +++ b_name b +++ "?" +++ nl) with (pieces ["*DESC"; b_name b] +++ ("?" +++ nl)).
    unfold serve. rewrite question_app.
    replace (dots (pieces ["*DESC"; b_name b])) with ["*DESC"; b_name b] by (symmetry; pieces_tac).
    cbn [String.eqb Ascii.eqb Bool.eqb]. rewrite (the_block b I). reflexivity.
  Qed.
  Lemma serve_fields b : In b d -> serve d (b_name b +++ ".*?" +++ nl) = Lines (map field_line (b_fields b)).
  Proof.
    intros I. pose proof (block_fine b I) as (N & _).
    replace (b_name b +++ ".*?" +++ nl) with (pieces [b_name b; "*"] +++ ("?" +++ nl)) by (cbn; rewrite sa; reflexivity).
    unfold serve. rewrite question_app.
    replace (dots (pieces [b_name b; "*"])) with [b_name b; "*"] by (symmetry; pieces_tac).
    rewrite (ident_neq _ "*DESC" N eq_refl). change (String.eqb "*" "*") with true. cbv iota. rewrite (the_block b I). reflexivity.
  Qed.
  Lemma the_field b f : In b d -> In f (b_fields b) -> field_of d (b_name b) (s_name f) = Some f.
  Proof.
    intros I J. unfold field_of. rewrite (the_block b I). apply find_here; [|exact J].
    apply (block_fine b I).
  Qed.
  Lemma field_ident b f : In b d -> In f (b_fields b) -> ident (s_name f).
  Proof.
    intros I J. pose proof (block_fine b I) as (_ & F & _). rewrite Forall_forall in F. apply (F f J).
  Qed.
  Lemma serve_field_desc b f : In b d -> In f (b_fields b) ->
    serve d ("*DESC." +++ b_name b +++ "." +++ s_name f +++ "?" +++ nl) = Line ("OK =" +++ s_desc f).
  Proof.
    intros I J. pose proof (block_fine b I) as (N & _). pose proof (field_ident b f I J) as N2.
    replace ("*DESC." +++ b_name b +++ "." +++ s_name f +++ "?" +++ nl)
      with (pieces ["*DESC"; b_name b; s_name f] +++ ("?" +++ nl)) by (cbn; rewrite !sa; reflexivity).
    unfold serve. rewrite question_app.
    replace (dots (pieces ["*DESC"; b_name b; s_name f])) with ["*DESC"; b_name b; s_name f] by (symmetry; pieces_tac).
    change (String.eqb "*DESC" "*DESC") with true. cbv iota. rewrite (the_field b f I J). reflexivity.
  Qed.
  Lemma serve_enums b f : In b d -> In f (b_fields b) ->
    serve d ("*ENUMS." +++ b_name b +++ "." +++ s_name f +++ "?" +++ nl) = Lines (s_labels f).
  Proof.
    intros I J. pose proof (block_fine b I) as (N & _). pose proof (field_ident b f I J) as N2.
    replace ("*ENUMS." +++ b_name b +++ "." +++ s_name f +++ "?" +++ nl)
      with (pieces ["*ENUMS"; b_name b; s_name f] +++ ("?" +++ nl)) by (cbn; rewrite !sa; reflexivity).
    unfold serve. rewrite question_app.
    replace (dots (pieces ["*ENUMS"; b_name b; s_name f])) with ["*ENUMS"; b_name b; s_name f] by (symmetry; pieces_tac).
    change (String.eqb "*ENUMS" "*DESC") with false. change (String.eqb "*ENUMS" "*ENUMS") with true. cbv iota.
    rewrite (the_field b f I J). reflexivity.
  Qed.
  Lemma serve_capture b f : In b d -> In f (b_fields b) ->
    serve d ("*ENUMS." +++ b_name b +++ "." +++ (s_name f +++ ".CAPTURE") +++ "?" +++ nl) = Lines (s_labels f).
  Proof.
    intros I J. pose proof (block_fine b I) as (N & _). pose proof (field_ident b f I J) as N2.
    replace ("*ENUMS." +++ b_name b +++ "." +++ (s_name f +++ ".CAPTURE") +++ "?" +++ nl)
      with (pieces ["*ENUMS"; b_name b; s_name f; "CAPTURE"] +++ ("?" +++ nl)) by (cbn; rewrite !sa; cbn; rewrite ?sa; reflexivity).
    unfold serve. rewrite question_app.
    replace (dots (pieces ["*ENUMS"; b_name b; s_name f; "CAPTURE"])) with ["*ENUMS"; b_name b; s_name f; "CAPTURE"]
      by (symmetry; pieces_tac).
    change (String.eqb "*ENUMS" "*DESC") with false. change (String.eqb "*ENUMS" "*ENUMS") with true. cbv iota.
    replace (column_of d (b_name b) (s_name f) "CAPTURE") with (@None scolumn).
    - change (String.eqb "CAPTURE" "CAPTURE") with true. cbv iota. rewrite (the_field b f I J). reflexivity.
    - unfold column_of. rewrite (the_block b I).
      assert (X : forall l, find_by (fun y : string * list scolumn => fst y +++ "[]") (s_name f) l = None).
      { induction l as [|y l IH]; [reflexivity|]. cbn [find_by].
        replace (String.eqb (fst y +++ "[]") (s_name f)) with false; [exact IH|]. symmetry. apply String.eqb_neq.
        intros E. destruct N2 as [_ N2]. rewrite <- E, chars_app in N2. apply andb_true_iff in N2 as [_ N2]. discriminate. }
      rewrite X. reflexivity.
  Qed.
  Lemma serve_bits b f : In b d -> In f (b_fields b) ->
    serve d ((b_name b +++ "." +++ s_name f) +++ ".BITS?" +++ nl) = Lines (s_bits f).
  Proof.
    intros I J. pose proof (block_fine b I) as (N & _). pose proof (field_ident b f I J) as N2.
    replace ((b_name b +++ "." +++ s_name f) +++ ".BITS?" +++ nl)
      with (pieces [b_name b; s_name f; "BITS"] +++ ("?" +++ nl)) by (cbn; rewrite !sa; cbn; rewrite ?sa; reflexivity).
    unfold serve. rewrite question_app.
    replace (dots (pieces [b_name b; s_name f; "BITS"])) with [b_name b; s_name f; "BITS"] by (symmetry; pieces_tac).
    rewrite (ident_neq _ "*DESC" N eq_refl), (ident_neq _ "*ENUMS" N eq_refl).
    change (String.eqb "BITS" "BITS") with true. cbv iota. rewrite (the_field b f I J). reflexivity.
  Qed.
  Lemma serve_columns b t cols : In b d -> ident t -> dget t (b_tables b) = Some cols ->
    serve d (b_name b +++ "." +++ t +++ ".FIELDS?" +++ nl) = Lines (map column_line cols).
  Proof.
    intros I Nt G. pose proof (block_fine b I) as (N & _).
    replace (b_name b +++ "." +++ t +++ ".FIELDS?" +++ nl)
      with (pieces [b_name b; t; "FIELDS"] +++ ("?" +++ nl)) by (cbn; rewrite !sa; cbn; rewrite ?sa; reflexivity).
    unfold serve. rewrite question_app.
    replace (dots (pieces [b_name b; t; "FIELDS"])) with [b_name b; t; "FIELDS"] by (symmetry; pieces_tac).
    rewrite (ident_neq _ "*DESC" N eq_refl), (ident_neq _ "*ENUMS" N eq_refl).
    change (String.eqb "FIELDS" "BITS") with false. change (String.eqb "FIELDS" "FIELDS") with true. cbv iota.
    rewrite (the_block b I), G. reflexivity.
  Qed.
  Lemma the_column b t cols c : In b d -> ident t -> dget t (b_tables b) = Some cols -> NoDup (map k_name cols) -> In c cols ->
    column_of d (b_name b) (t +++ "[]") (k_name c) = Some c.
  Proof.
    intros I Nt G ND J. unfold column_of. rewrite (the_block b I).
    assert (X : forall l, dget t l = Some cols -> find_by (fun y : string * list scolumn => fst y +++ "[]") (t +++ "[]") l = Some (t, cols)).
    { clear. induction l as [|[k v] l IH]; intros G; [discriminate|]. cbn in *.
      destruct (String.eqb_spec t k) as [->|E].
      - injection G as ->. rewrite String.eqb_refl. reflexivity.
      - destruct (String.eqb_spec (k +++ "[]") (t +++ "[]")) as [E'|_]; [|apply IH, G]. exfalso. apply E.
        clear - E'. revert k E'. induction t as [|x t IH]; intros [|y k] E'; auto; cbn in E'.
        + injection E' as -> E'. destruct k as [|z k]; [discriminate|]. destruct k; discriminate.
        + injection E' as -> E'. destruct t as [|z t]; [discriminate|]. destruct t; discriminate.
        + injection E' as -> E'. f_equal. apply IH. exact E'. }
    rewrite (X _ G). cbn [snd]. apply find_here; assumption.
  Qed.
  Lemma serve_column b t cols c : In b d -> ident t -> dget t (b_tables b) = Some cols -> NoDup (map k_name cols) -> In c cols ->
    ident (k_name c) ->
    serve d ("*DESC." +++ b_name b +++ "." +++ t +++ "[]." +++ k_name c +++ "?" +++ nl) = Line ("OK =" +++ k_desc c) /\
    serve d ("*ENUMS." +++ b_name b +++ "." +++ t +++ "[]." +++ k_name c +++ "?" +++ nl) = Lines (k_labels c).
  Proof.
    intros I Nt G ND J Nc. pose proof (block_fine b I) as (N & _).
    assert (Nt2 : chars (no ".") (t +++ "[]") = true) by (rewrite chars_app, (plain_ident t Nt); reflexivity).
    replace ("*DESC." +++ b_name b +++ "." +++ t +++ "[]." +++ k_name c +++ "?" +++ nl)
      with (pieces ["*DESC"; b_name b; t +++ "[]"; k_name c] +++ ("?" +++ nl)) by (cbn; rewrite !sa; cbn; rewrite ?sa; reflexivity).
    replace ("*ENUMS." +++ b_name b +++ "." +++ t +++ "[]." +++ k_name c +++ "?" +++ nl)
      with (pieces ["*ENUMS"; b_name b; t +++ "[]"; k_name c] +++ ("?" +++ nl)) by (cbn; rewrite !sa; cbn; rewrite ?sa; reflexivity).
    unfold serve. rewrite !question_app.
    assert (P : forall a, chars (no ".") a = true -> dots (pieces [a; b_name b; t +++ "[]"; k_name c]) = [a; b_name b; t +++ "[]"; k_name c]).
    { intros a A. apply dots_pieces; [discriminate|]. repeat constructor; auto; apply plain_ident; assumption. }
    rewrite !P by reflexivity.
    change (String.eqb "*DESC" "*DESC") with true. change (String.eqb "*ENUMS" "*DESC") with false.
    change (String.eqb "*ENUMS" "*ENUMS") with true. cbv iota.
    rewrite (the_column b t cols c I Nt G ND J). split; reflexivity.
  Qed.
End device.

(* ---- the blocks ---- *)
(* Fields that have labels: those that choose an input, enums, and captured outputs. *)
Definition has_labels (f : sfield) : bool :=
  String.eqb (s_type f) "bit_mux" || String.eqb (s_type f) "pos_mux" || String.eqb (s_subtype f) "enum"
  || String.eqb (s_type f) "ext_out".
Definition told (f : sfield) : string * field_data :=
  (s_name f, mkField (s_type f) (s_subtype f) (s_desc f) (if has_labels f then s_labels f else [])).

Lemma insert_map {A B} (g : A -> B) (key : B -> Z) x l :
  insert_by key (g x) (map g l) = map g (insert_by (fun a => key (g a)) x l).
Proof. induction l as [|y l IH]; [reflexivity|]. cbn. destruct (Z.leb _ _); [reflexivity|]. cbn. rewrite IH. reflexivity. Qed.
Lemma sort_map {A B} (g : A -> B) (key : B -> Z) l : sort_by key (map g l) = map g (sort_by (fun a => key (g a)) l).
Proof.
  unfold sort_by. induction l as [|x l IH]; [reflexivity|]. cbn. rewrite IH. apply insert_map.
Qed.
Lemma insert_perm {A} (key : A -> Z) x l : Permutation (x :: l) (insert_by key x l).
Proof.
  induction l as [|y l IH]; [apply Permutation_refl|]. cbn. destruct (Z.leb _ _); [apply Permutation_refl|].
  rewrite perm_swap. apply perm_skip. exact IH.
Qed.
Lemma sort_perm {A} (key : A -> Z) l : Permutation l (sort_by key l).
Proof.
  induction l as [|x l IH]; [apply perm_nil|]. cbn. rewrite <- insert_perm. apply perm_skip. exact IH.
Qed.
Lemma sort_sorted {A} (key : A -> Z) l : Sorted (fun a b => (key a <= key b)%Z) (sort_by key l).
Proof.
  induction l as [|x l IH]; [constructor|]. cbn. fold (sort_by key l). induction IH as [|y m S IH2 H]; [repeat constructor|].
  cbn. destruct (Z.leb_spec (key x) (key y)) as [L|L].
  - constructor; [constructor; auto|constructor; exact L].
  - constructor; [exact IH2|]. destruct m as [|z m]; cbn; [constructor; lia|].
    destruct (Z.leb _ _); constructor; [lia|]. inversion H; assumption.
Qed.

Definition raw (f : sfield) : string * (Z * string * string) := (s_name f, (Z.of_nat (s_index f), s_type f, s_subtype f)).
Lemma words_kind a f : word a -> kind f -> words (a +++ Pq_Spec.more f) = a :: match f with "" => [] | _ => [f] end.
Proof.
  intros W [->|K].
  - cbn [Pq_Spec.more]. replace (a +++ "") with a by (clear; induction a; cbn; congruence). apply words_last, W.
  - destruct f as [|c f]; [destruct K; congruence|]. cbn [Pq_Spec.more].
    change (" " +++ String c f) with (String " " (String c f)).
    rewrite (words_cons a _ W), (words_last _ (ident_word _ K)). reflexivity.
Qed.
Lemma parse_field_lines l :
  Forall (fun f => ident (s_name f) /\ ident (s_type f) /\ kind (s_subtype f)) l -> NoDup (map s_name l) ->
  parse_fields (map field_line l) = Ok (map raw l).
Proof.
  intros F ND. unfold parse_fields.
  apply (gather_new _ field_line s_name (fun f => (Z.of_nat (s_index f), s_type f, s_subtype f))); [|exact ND].
  intros f acc I. rewrite Forall_forall in F. destruct (F f I) as (N & T & K).
  unfold field_line.
  change (s_name f +++ " " +++ str (s_index f) +++ " " +++ s_type f +++ Pq_Spec.more (s_subtype f))
    with (s_name f +++ String " " (str (s_index f) +++ String " " (s_type f +++ Pq_Spec.more (s_subtype f)))).
  rewrite (words_cons _ _ (ident_word _ N)), (words_cons _ _ (ident_word _ (num_ident _))), (words_kind _ _ (ident_word _ T) K).
  destruct (s_subtype f) as [|c s]; rewrite num_int; reflexivity.
Qed.

Lemma enum_names (l : list sfield) f : Forall (fun f => ident (s_name f)) l -> NoDup (map s_name l) -> In f l ->
  smem (s_name f) (flat_map enum_field (map raw l)) =
    (smem (s_type f) ["bit_mux"; "pos_mux"] || String.eqb (s_subtype f) "enum") /\
  smem (s_name f +++ ".CAPTURE") (flat_map enum_field (map raw l)) =
    (negb (smem (s_type f) ["bit_mux"; "pos_mux"] || String.eqb (s_subtype f) "enum") && String.eqb (s_type f) "ext_out").
Proof.
  intros F ND I. rewrite Forall_forall in F.
  assert (ND' : forall g, In g l -> s_name g = s_name f -> g = f).
  { intros g J E. pose proof (find_here s_name f l ND I) as H1. pose proof (find_here s_name g l ND J) as H2. congruence. }
  assert (dotted : forall g a, In g l -> s_name g = a +++ ".CAPTURE" -> False).
  { intros g a J E. destruct (F g J) as [_ C]. rewrite E, chars_app in C. apply andb_true_iff in C as [_ C]. discriminate. }
  assert (inj : forall a b, a +++ ".CAPTURE" = b +++ ".CAPTURE" -> a = b).
  { clear. intros a b E.
    assert (L : forall x y, String.length (x +++ y) = String.length x + String.length y).
    { clear. induction x as [|c x IH]; intros y; [reflexivity|]. cbn. now rewrite IH. }
    assert (LE : String.length a = String.length b).
    { apply (f_equal String.length) in E. rewrite !L in E. cbn in E. lia. }
    revert b E LE. induction a as [|c a IH]; intros [|e b] E LE; try discriminate; [reflexivity|].
    cbn in E. injection E as -> E. f_equal. apply IH; [exact E|]. cbn in LE. lia. }
  assert (chars_in : forall x, In x (flat_map enum_field (map raw l)) <-> exists g, In g l /\
     ((smem (s_type g) ["bit_mux"; "pos_mux"] || String.eqb (s_subtype g) "enum" = true /\ x = s_name g) \/
      (smem (s_type g) ["bit_mux"; "pos_mux"] || String.eqb (s_subtype g) "enum" = false /\ String.eqb (s_type g) "ext_out" = true /\
       x = s_name g +++ ".CAPTURE"))).
  { intros x. rewrite in_flat_map. split.
    - intros (r & J & K). apply in_map_iff in J as (g & <- & J). exists g. split; [exact J|]. unfold raw, enum_field in K.
      destruct (smem (s_type g) _ || _); [destruct K as [<-|[]]; auto|].
      destruct (String.eqb (s_type g) "ext_out"); [destruct K as [<-|[]]; auto|destruct K].
    - intros (g & J & K). exists (raw g). split; [apply in_map, J|]. unfold raw, enum_field.
      destruct K as [[-> ->]|(-> & -> & ->)]; cbn; auto. }
  split.
  - apply eq_iff_eq_true. rewrite smem_In, chars_in. split.
    + intros (g & J & [[A E]|(_ & _ & E)]); [rewrite (ND' g J (eq_sym E)) in A; exact A|destruct (dotted f _ I E)].
    + intros A. exists f. auto.
  - apply eq_iff_eq_true. rewrite smem_In, chars_in, andb_true_iff, negb_true_iff. split.
    + intros (g & J & [[A E]|(A & B & E)]); [destruct (dotted g _ J (eq_sym E))|].
      apply inj in E. rewrite (ND' g J (eq_sym E)) in A, B. auto.
    + intros [A B]. exists f. split; [exact I|right; auto].
Qed.

Lemma strip_line x : strip_ok (Line ("OK =" +++ x)) = Ok x.
Proof. reflexivity. Qed.
Definition by_index (l : list sfield) : list sfield := sort_by (fun f => Z.of_nat (s_index f)) l.
Lemma read_one d numbers b : device_ok d -> In b d -> dget (b_name b) numbers = Some (Z.of_nat (b_number b)) ->
  read_block (serve d) numbers (b_name b) =
  Ok (b_name b, mkBlock (Z.of_nat (b_number b)) (b_desc b) (map told (by_index (b_fields b)))).
Proof.
  intros D I G. pose proof (block_fine d D b I) as (N & F & ND & _).
  unfold read_block. rewrite (serve_desc d D b I), strip_line. cbn [then_].
  unfold recv_lines. rewrite (serve_fields d D b I). cbn [then_].
  rewrite (parse_field_lines _ F ND). cbn [then_]. cbv zeta.
  rewrite (sort_map raw (fun f => fst (fst (snd f)))).
  change (sort_by (fun a => fst (fst (snd (raw a)))) (b_fields b)) with (by_index (b_fields b)).
  pose proof (sort_perm (fun f => Z.of_nat (s_index f)) (b_fields b)) as P. fold (by_index (b_fields b)) in P.
  set (l := by_index (b_fields b)) in *.
  assert (IN : forall f, In f l -> In f (b_fields b)) by (intros f J; apply (Permutation_in f (Permutation_sym P) J)).
  assert (NDl : NoDup (map s_name l)) by (apply (Permutation_NoDup (Permutation_map s_name P) ND)).
  assert (Fl : Forall (fun f => ident (s_name f)) l).
  { apply Forall_forall. intros f J. rewrite Forall_forall in F. apply (F f (IN f J)). }
  assert (C : collect (read_field (serve d) (b_name b) (flat_map enum_field (map raw l))) (map raw l) = Ok (map told l)).
  { assert (X : forall m, (forall f, In f m -> In f l) ->
      collect (read_field (serve d) (b_name b) (flat_map enum_field (map raw l))) (map raw m) = Ok (map told m)).
    { induction m as [|f m IH]; intros S; [reflexivity|].
      assert (J : In f l) by (apply S; cbn; auto). pose proof (IN f J) as J2.
      cbn [map collect]. rewrite IH by (intros; apply S; cbn; auto).
      destruct (enum_names l f Fl NDl J) as [E1 E2].
      unfold read_field at 1. cbn [raw]. cbv zeta. rewrite E1, E2.
      rewrite (serve_field_desc d D b f I J2), strip_line.
      unfold recv_lines. rewrite (serve_enums d D b f I J2), (serve_capture d D b f I J2).
      assert (SM : smem (s_type f) ["bit_mux"; "pos_mux"] = String.eqb (s_type f) "bit_mux" || String.eqb (s_type f) "pos_mux").
      { apply eq_iff_eq_true. rewrite smem_In, orb_true_iff, !String.eqb_eq. cbn. intuition. }
      rewrite SM. unfold told, has_labels.
      destruct (String.eqb (s_type f) "bit_mux"); [reflexivity|].
      destruct (String.eqb (s_type f) "pos_mux"); [reflexivity|].
      destruct (String.eqb (s_subtype f) "enum"); [reflexivity|].
      destruct (String.eqb (s_type f) "ext_out"); reflexivity. }
    apply X. auto. }
  rewrite C. cbn [then_]. rewrite G. reflexivity.
Qed.

(* ---- theorems ---- *)
(* Of a PandA the client gets all its blocks in the order of their names, with their numbers and descriptions, and all
   their fields in the order of their indices, with types, descriptions and the labels of those that have some. *)
Theorem C104_blocks : forall d, device_ok d ->
  exists l, get_blocks_data (serve d) = Ok l /\
    Permutation (map b_name d) (map fst l) /\ Sorted (fun a b => String.leb a b = true) (map fst l) /\
    forall b, In b d -> exists x fs, dget (b_name b) l = Some x /\ bd_number x = Z.of_nat (b_number b) /\
      bd_desc x = b_desc b /\ bd_fields x = map told fs /\
      Permutation (b_fields b) fs /\ Sorted (fun f g => s_index f <= s_index g) fs.
Proof.
  intros d D. pose proof D as [F ND].
  assert (NB : get_block_numbers (serve d) = Ok (map (fun b => (b_name b, Z.of_nat (b_number b))) d)).
  { unfold get_block_numbers, recv_lines. rewrite serve_blocks. cbn [then_].
    apply (gather_new _ (fun b => b_name b +++ " " +++ str (b_number b)) b_name (fun b => Z.of_nat (b_number b))); [|exact ND].
    intros b acc I. pose proof (block_fine d D b I) as (N & _).
    change (b_name b +++ " " +++ str (b_number b)) with (b_name b +++ String " " (str (b_number b))).
    rewrite (words_cons _ _ (ident_word _ N)), (words_last _ (ident_word _ (num_ident _))), num_int. reflexivity. }
  set (block := fun b => (b_name b, mkBlock (Z.of_nat (b_number b)) (b_desc b) (map told (by_index (b_fields b))))).
  set (numbers := map (fun b => (b_name b, Z.of_nat (b_number b))) d) in *.
  assert (K : dkeys numbers = map b_name d) by (unfold numbers, dkeys; rewrite map_map; reflexivity).
  set (ns := PField_Model.sorted (map b_name d)).
  assert (P : Permutation (map b_name d) ns) by apply PField_Props.sorted_perm.
  assert (R : forall b, In b d -> read_block (serve d) numbers (b_name b) = Ok (block b)).
  { intros b I. apply read_one; auto. apply dget_In_nodup; [rewrite K; exact ND|].
    unfold numbers. apply in_map_iff. exists b. auto. }
  set (pick := fun n => match find_by b_name n d with Some b => block b | None => (n, mkBlock 0 "" []) end).
  assert (C : collect (read_block (serve d) numbers) ns = Ok (map pick ns)).
  { apply collect_all. intros n J. apply (Permutation_in n (Permutation_sym P)) in J.
    apply in_map_iff in J as (b & <- & I). rewrite (R b I). unfold pick. rewrite (the_block d D b I). reflexivity. }
  exists (map pick ns). unfold get_blocks_data. rewrite NB. cbn [then_]. rewrite K. fold ns.
  split; [exact C|].
  assert (FS : map fst (map pick ns) = ns).
  { rewrite map_map. rewrite <- (map_id ns) at 2. apply map_ext_in. intros n J.
    apply (Permutation_in n (Permutation_sym P)) in J. apply in_map_iff in J as (b & <- & I).
    unfold pick. rewrite (the_block d D b I). reflexivity. }
  rewrite FS. split; [exact P|]. split.
  - unfold ns, PField_Model.sorted. clear. induction (map b_name d) as [|x l IH]; [constructor|]. cbn.
    apply PField_Props.insert_sorted. exact IH.
  - intros b I. exists (snd (block b)), (by_index (b_fields b)).
    split.
    { apply dget_In_nodup.
      - unfold dkeys. rewrite FS. apply (Permutation_NoDup P ND).
      - apply in_map_iff. exists (b_name b). split.
        + unfold pick. rewrite (the_block d D b I). reflexivity.
        + apply (Permutation_in _ P). apply in_map. exact I. }
    repeat split; [apply sort_perm|].
    pose proof (sort_sorted (fun f => Z.of_nat (s_index f)) (b_fields b)) as S. fold (by_index (b_fields b)) in S.
    induction S as [|x m S IH H]; [constructor|]. constructor; [exact IH|].
    inversion H; constructor. lia.
Qed.
Print Assumptions C104_blocks.

(* ---- tables ---- *)
Definition told_column (c : scolumn) : string * column :=
  (k_name c, mkColumn (Z.of_nat (k_hi c)) (Z.of_nat (k_lo c)) (k_desc c)
                      (if String.eqb (k_kind c) "enum" then Some (k_labels c) else None) (String.eqb (k_kind c) "int")).
Definition bits_text (c : scolumn) : string := str (k_hi c) +++ ":" +++ str (k_lo c).
Lemma column_words c : ident (k_name c) -> kind (k_kind c) ->
  words (column_line c) = bits_text c :: k_name c :: match k_kind c with "" => [] | _ => [k_kind c] end.
Proof.
  intros N K.
  replace (column_line c) with (bits_text c +++ String " " (k_name c +++ Pq_Spec.more (k_kind c))).
  - rewrite words_cons.
    + rewrite (words_kind _ _ (ident_word _ N) K). reflexivity.
    + unfold bits_text. destruct (ident_word _ (num_ident (k_hi c))) as [A B], (ident_word _ (num_ident (k_lo c))) as [A2 B2].
      split; [destruct (str (k_hi c)); [congruence|discriminate]|]. rewrite chars_app, B. cbn. exact B2.
  - unfold column_line, bits_text. rewrite sa. reflexivity.
Qed.
Lemma parse_column_lines l : Forall (fun c => ident (k_name c) /\ kind (k_kind c)) l -> NoDup (map k_name l) ->
  exists en, parse_columns (map column_line l) =
    Ok (map (fun c => (k_name c, (bits_text c, String.eqb (k_kind c) "int"))) l, en) /\
    forall x, In x en <-> exists c, In c l /\ k_name c = x /\ k_kind c = "enum".
Proof.
  intros F ND. unfold parse_columns. match goal with |- context [gather ?s _ _] => set (step := s) end.
  assert (G : forall m acc en, (forall c, In c m -> In c l) -> NoDup (map k_name m) ->
    (forall c, In c m -> ~ In (k_name c) (dkeys acc)) ->
    exists en', gather step (acc, en) (map column_line m) =
      Ok (acc ++ map (fun c => (k_name c, (bits_text c, String.eqb (k_kind c) "int"))) m, en') /\
      forall x, In x en' <-> In x en \/ exists c, In c m /\ k_name c = x /\ k_kind c = "enum").
  { induction m as [|c m IH]; intros acc en S NDm NI.
    - exists en. cbn. rewrite app_nil_r. split; [reflexivity|]. intros x. split; [auto|]. intros [H|(c & [] & _)]. exact H.
    - inversion NDm; subst. rewrite Forall_forall in F. destruct (F c (S c (or_introl eq_refl))) as [N K].
      set (en2 := if String.eqb (k_kind c) "enum" then k_name c :: en else en).
      assert (ST : step (acc, en) (column_line c) = Ok (acc ++ [(k_name c, (bits_text c, String.eqb (k_kind c) "int"))], en2)).
      { unfold step. rewrite (column_words c N K). cbn [fst snd].
        rewrite dset_new by (apply NI; cbn; auto). unfold en2. destruct (k_kind c); reflexivity. }
      cbn [map gather]. rewrite ST.
      destruct (IH (acc ++ [(k_name c, (bits_text c, String.eqb (k_kind c) "int"))]) en2) as (en' & E & M); auto.
      + intros e J. apply S. cbn; auto.
      + intros e J H. unfold dkeys in H. rewrite map_app in H. apply in_app_or in H as [H|[H|[]]].
        * apply (NI e); [cbn; auto|exact H].
        * cbn in H. apply H1. rewrite H. apply in_map. exact J.
      + exists en'. split; [etransitivity; [exact E|]; rewrite <- app_assoc; reflexivity|]. intros x. rewrite M. unfold en2.
        destruct (String.eqb_spec (k_kind c) "enum") as [EE|EE].
        * cbn. split; [intros [[<-|H]|(e & J & H)]; eauto; right; exists c; auto|].
          intros [H|(e & [<-|J] & A & B)]; auto. right. exists e. auto.
        * split; [intros [H|(e & J & H)]; eauto; right; exists e; cbn; tauto|].
          intros [H|(e & [<-|J] & A & B)]; auto; [congruence|]. right. exists e. auto. }
  destruct (G l [] [] (fun c H => H) ND (fun _ _ H => H)) as (en & E & M).
  exists en. split; [exact E|]. intros x. rewrite M. cbn. tauto.
Qed.

(* Of a table it gets the columns in their order, with their bits, descriptions, labels and sign. *)
Theorem C104_table : forall d b t cols, device_ok d -> In b d -> dget t (b_tables b) = Some cols ->
  get_table_fields (serve d) (b_name b) t = Ok (map told_column cols).
Proof.
  intros d b t cols D I G. pose proof (block_fine d D b I) as (N & _ & _ & FT).
  rewrite Forall_forall in FT. destruct (FT (t, cols) (dget_Some_In _ _ G)) as (Nt & ND & FC). cbn [fst snd] in *.
  unfold get_table_fields, recv_lines. rewrite (serve_columns d D b t cols I Nt G). cbn [then_].
  destruct (parse_column_lines cols FC ND) as (en & E & M). rewrite E. cbn [then_ fst snd].
  assert (X : forall m, (forall c, In c m -> In c cols) ->
    collect (fun f : string * (string * bool) => match f with (name, (bits, signed)) =>
        match map py_int (split_on ":" bits) with
        | [Some hi; Some lo] =>
            then_ (strip_ok (serve d ("*DESC." +++ b_name b +++ "." +++ t +++ "[]." +++ name +++ "?" +++ nl))) (fun desc =>
            then_ (if smem name en
                  then then_ (match serve d ("*ENUMS." +++ b_name b +++ "." +++ t +++ "[]." +++ name +++ "?" +++ nl) with
                              | Lines l => Ok l | Line _ => Err COther | Error _ => Err CValue end)
                            (fun l => Ok (Some l))
                  else Ok None) (fun labels =>
            Ok (name, mkColumn hi lo desc labels signed)))
        | _ => Err CValue
        end end)
      (map (fun c => (k_name c, (bits_text c, String.eqb (k_kind c) "int"))) m) = Ok (map told_column m)).
  { induction m as [|c m IH]; intros S; [reflexivity|].
    assert (J : In c cols) by (apply S; cbn; auto).
    rewrite Forall_forall in FC. destruct (FC c J) as [Nc Kc].
    destruct (serve_column d D b t cols c I Nt G ND J Nc) as [S1 S2].
    cbn [map collect]. rewrite IH by (intros; apply S; cbn; auto).
    unfold bits_text at 1. change (str (k_hi c) +++ ":" +++ str (k_lo c)) with (str (k_hi c) +++ String ":" (str (k_lo c))).
    rewrite split_on_cons by (apply ident_no; [reflexivity|apply num_ident]).
    rewrite split_on_last by (apply ident_no; [reflexivity|apply num_ident]).
    cbn [map]. rewrite !num_int, S1, strip_line. cbn [then_]. rewrite S2.
    assert (SM : smem (k_name c) en = String.eqb (k_kind c) "enum").
    { apply eq_iff_eq_true. rewrite smem_In, M, String.eqb_eq. split.
      - intros (e & Je & Ee & K). pose proof (find_here k_name c cols ND J) as H1. pose proof (find_here k_name e cols ND Je) as H2.
        rewrite Ee in H2. congruence.
      - intros K. exists c. auto. }
    rewrite SM. unfold told_column. destruct (String.eqb (k_kind c) "enum"); reflexivity. }
  apply X. auto.
Qed.
Print Assumptions C104_table.

(* Of PCAP it gets the groups of bits, each with the names of its bits, and nothing else. *)
Theorem C104_bits : forall d b, device_ok d -> In b d -> b_name b = "PCAP" ->
  exists l, get_pcap_bits_fields (serve d) = Ok l /\ NoDup (dkeys l) /\
    forall k v, dget k l = Some v <->
      exists f, In f (b_fields b) /\ s_type f = "ext_out" /\ s_subtype f = "bits" /\ k = "PCAP." +++ s_name f +++ ".CAPTURE" /\ v = s_bits f.
Proof.
  intros d b D I EN. pose proof (block_fine d D b I) as (N & F & ND & _).
  unfold get_pcap_bits_fields.
  pose proof (serve_fields d D b I) as SF. rewrite EN in SF. unfold recv_lines at 1.
  change ("PCAP.*?" +++ nl) with ("PCAP" +++ ".*?" +++ nl). rewrite SF. cbn [then_]. cbv zeta.
  set (sel := filter (fun f => String.eqb (s_type f) "ext_out" && String.eqb (s_subtype f) "bits") (b_fields b)).
  assert (FM : forall l, Forall (fun f => ident (s_name f) /\ ident (s_type f) /\ kind (s_subtype f)) l ->
    flat_map (fun line => match words line with
      | [f; _; t; s] => if String.eqb t "ext_out" && String.eqb s "bits" then ["PCAP." +++ f] else [] | _ => [] end) (map field_line l)
    = map (fun f => "PCAP." +++ s_name f) (filter (fun f => String.eqb (s_type f) "ext_out" && String.eqb (s_subtype f) "bits") l)).
  { clear. induction 1 as [|f l (N & T & K) FA IH]; [reflexivity|]. cbn [map flat_map filter].
    replace (words (field_line f)) with (s_name f :: str (s_index f) :: s_type f :: match s_subtype f with "" => [] | _ => [s_subtype f] end).
    - rewrite IH. destruct (s_subtype f) as [|c s]; [rewrite andb_false_r; reflexivity|].
      destruct (_ && _); reflexivity.
    - unfold field_line.
      change (s_name f +++ " " +++ str (s_index f) +++ " " +++ s_type f +++ Pq_Spec.more (s_subtype f))
        with (s_name f +++ String " " (str (s_index f) +++ String " " (s_type f +++ Pq_Spec.more (s_subtype f)))).
      rewrite (words_cons _ _ (ident_word _ N)), (words_cons _ _ (ident_word _ (num_ident _))), (words_kind _ _ (ident_word _ T) K).
      reflexivity. }
  rewrite (FM _ F). fold sel.
  set (ks := PField_Model.sorted (map (fun f => "PCAP." +++ s_name f) sel)).
  assert (P : Permutation (map (fun f => "PCAP." +++ s_name f) sel) ks) by apply PField_Props.sorted_perm.
  assert (SE : forall f, In f sel <-> In f (b_fields b) /\ s_type f = "ext_out" /\ s_subtype f = "bits").
  { intros f. unfold sel. rewrite filter_In, andb_true_iff, !String.eqb_eq. tauto. }
  assert (NDs : NoDup (map s_name sel)).
  { clear - ND. unfold sel. induction (b_fields b) as [|f l IH]; [constructor|]. inversion ND; subst. cbn.
    destruct (_ && _); [|auto]. cbn. constructor; [|auto]. intros H. apply H1. apply in_map_iff in H as (g & E & J).
    apply filter_In in J as [J _]. rewrite <- E. apply in_map, J. }
  assert (NDk : NoDup ks).
  { apply (Permutation_NoDup P). clear - NDs. induction sel as [|f l IH]; [constructor|]. inversion NDs; subst. cbn.
    constructor; [|auto]. intros H. apply H1. apply in_map_iff in H as (g & E & J). cbn in E. injection E as E. rewrite <- E.
    apply in_map, J. }
  assert (EX : forall k, In k ks -> exists f, In f sel /\ k = "PCAP." +++ s_name f).
  { intros k J. apply (Permutation_in k (Permutation_sym P)) in J. apply in_map_iff in J as (f & <- & J). eauto. }
  set (val := fun k => (k +++ ".CAPTURE", match find_by (fun f => "PCAP." +++ s_name f) k sel with Some f => s_bits f | None => [] end)).
  assert (NDp : NoDup (map (fun f => "PCAP." +++ s_name f) sel)) by (apply (Permutation_NoDup (Permutation_sym P) NDk)).
  rewrite (collect_all _ val).
  - cbn [then_].
    assert (FO : forall l acc, NoDup (map fst l) -> (forall x, In x (map fst l) -> ~ In x (dkeys acc)) ->
      fold_left (fun dd kv => dset (fst kv) (snd kv) dd) l acc = acc ++ (l : dict (list string))).
    { clear. induction l as [|[k v] l IH]; intros acc ND NI; [cbn; rewrite app_nil_r; reflexivity|].
      inversion ND; subst. cbn [fold_left fst snd]. rewrite dset_new by (apply NI; cbn; auto). rewrite IH.
      - rewrite <- app_assoc. reflexivity.
      - assumption.
      - intros x J H. unfold dkeys in H. rewrite map_app in H. apply in_app_or in H as [H|[H|[]]].
        + apply (NI x); [cbn; auto|exact H].
        + cbn in H. subst x. contradiction. }
    assert (NDv : NoDup (map fst (map val ks))).
    { rewrite map_map. cbn. clear - NDk. induction ks as [|k l IH]; [constructor|]. inversion NDk; subst. cbn. constructor; [|auto].
      intros H. apply H1. apply in_map_iff in H as (k' & E & J).
      assert (inj : forall a b, a +++ ".CAPTURE" = b +++ ".CAPTURE" -> a = b).
      { clear. intros a b E.
        assert (L : forall x y, String.length (x +++ y) = String.length x + String.length y).
        { clear. induction x as [|c x IH]; intros y; [reflexivity|]. cbn. now rewrite IH. }
        assert (LE : String.length a = String.length b).
        { apply (f_equal String.length) in E. rewrite !L in E. cbn in E. lia. }
        revert b E LE. induction a as [|c a IH]; intros [|e b] E LE; try discriminate; [reflexivity|].
        cbn in E. injection E as -> E. f_equal. apply IH; [exact E|]. cbn in LE. lia. }
      apply inj in E. subst k'. exact J. }
    exists (map val ks). rewrite (FO (map val ks) []); [|exact NDv|intros x _ []]. split; [reflexivity|].
    split; [exact NDv|]. intros k v. split.
    + intros H. apply dget_Some_In in H. apply in_map_iff in H as (k' & E & J). destruct (EX k' J) as (f & Jf & ->).
      unfold val in E. rewrite (find_here (fun f => "PCAP." +++ s_name f) f sel NDp Jf) in E. injection E as E1 E2.
      exists f. apply SE in Jf as (A & B & C). split; [exact A|]. split; [exact B|]. split; [exact C|].
      split; [rewrite <- E1; reflexivity|auto].
    + intros (f & A & B & C & -> & ->). apply dget_In_nodup; [exact NDv|].
      apply in_map_iff. exists ("PCAP." +++ s_name f).
      assert (Jf : In f sel) by (apply SE; auto). split.
      * unfold val. rewrite (find_here (fun f => "PCAP." +++ s_name f) f sel NDp Jf). reflexivity.
      * apply (Permutation_in _ P). apply in_map_iff. exists f. auto.
  - intros k J. destruct (EX k J) as (f & Jf & ->).
    pose proof (SE f) as [SE1 _]. destruct (SE1 Jf) as (A & _).
    pose proof (serve_bits d D b f I A) as SB. rewrite EN in SB. unfold recv_lines.
    change (("PCAP." +++ s_name f) +++ ".BITS?" +++ nl) with (("PCAP" +++ "." +++ s_name f) +++ ".BITS?" +++ nl). rewrite SB.
    cbn [then_]. unfold val. rewrite (find_here (fun f => "PCAP." +++ s_name f) f sel NDp Jf). reflexivity.
Qed.
Print Assumptions C104_bits.

(* ---- changes ---- *)
Lemma free_chars c s : free c s <-> chars (no c) s = true.
Proof.
  unfold free. induction s as [|x s IH]; cbn.
  - split; [reflexivity|]. intros _ (a & b & E). destruct a; discriminate.
  - unfold no at 1. destruct (Ascii.eqb_spec x c) as [->|NE].
    + cbn. split; [|discriminate]. intros H. exfalso. apply H. exists "", s. reflexivity.
    + cbn. rewrite <- IH. split; intros H (a & b & E).
      * apply H. exists (String x a), b. cbn. now rewrite E.
      * destruct a as [|y a]; cbn in E; injection E as E1 E2; [congruence|]. apply H. eauto.
Qed.
Lemma split1_here c a b : free c a -> split1 c (a +++ String c b) = Some (a, b).
Proof.
  rewrite free_chars. induction a as [|x a IH]; cbn.
  - now rewrite Ascii.eqb_refl.
  - unfold no at 1. intros H. apply andb_true_iff in H as [H1 H2]. apply negb_true_iff in H1. now rewrite H1, IH.
Qed.
Lemma split1_none c a : free c a -> split1 c a = None.
Proof.
  rewrite free_chars. induction a as [|x a IH]; cbn; [reflexivity|].
  unfold no at 1. intros H. apply andb_true_iff in H as [H1 H2]. apply negb_true_iff in H1. now rewrite H1, IH.
Qed.
Lemma free_app c a b : free c a -> free c b -> free c (a +++ b).
Proof. rewrite !free_chars, chars_app. intros -> ->. reflexivity. Qed.
Lemma last_char_app s c : last_char (s +++ String c "") = Some (s, c).
Proof.
  induction s as [|x s IH]; [reflexivity|]. cbn. rewrite IH. destruct s; reflexivity.
Qed.
Lemma last_char_some s : s <> "" -> exists a c, last_char s = Some (a, c) /\ s = a +++ String c "".
Proof.
  induction s as [|x s IH]; [congruence|]. intros _. destruct s as [|y s].
  - exists "", x. split; reflexivity.
  - destruct IH as (a & c & E & F); [discriminate|]. exists (String x a), c. cbn in *. rewrite E. rewrite F. split; reflexivity.
Qed.
Lemma ends_with_app p s : ends_with p (s +++ p) = true.
Proof.
  induction s as [|x s IH]; cbn.
  - destruct p; cbn; rewrite ?Ascii.eqb_refl, ?String.eqb_refl; reflexivity.
  - rewrite IH. apply orb_true_r.
Qed.
Lemma ends_with_inv p s : ends_with p s = true -> exists a, s = a +++ p.
Proof.
  induction s as [|x s IH]; cbn [ends_with]; intros H.
  - apply orb_true_iff in H as [H|H]; [|discriminate]. apply String.eqb_eq in H. exists "". now rewrite H.
  - apply orb_true_iff in H as [H|H].
    + apply String.eqb_eq in H. exists "". now rewrite <- H.
    + destruct (IH H) as (a & ->). exists (String x a). reflexivity.
Qed.
Definition given (errors : bool) (n : news) : list (string * change) :=
  match n with
  | HasValue f v => [(f, Value v)]
  | Written f => [(f, Pending)]
  | Unreadable f => if errors then [(f, Failed)] else []
  | Other _ => []
  end.
Definition tables_of (l : list news) : list string := flat_map (fun n => match n with Written f => [f] | _ => [] end) l.
Lemma first_given errors l : Forall news_ok l ->
  first_changes errors (map news_line l) = (flat_map (given errors) l, tables_of l, None).
Proof.
  induction 1 as [|n l O FA IH]; [reflexivity|]. cbn [map first_changes]. rewrite IH. destruct n as [f v|f|f|x]; cbn [news_line given] in *.
  - change (f +++ "=" +++ v) with (f +++ String "=" v). rewrite split1_here by exact O. reflexivity.
  - rewrite split1_none by (apply free_app; [exact O|rewrite free_chars; reflexivity]).
    rewrite last_char_app. reflexivity.
  - destruct O as [O1 O2]. rewrite split1_none by (apply free_app; [exact O1|rewrite free_chars; reflexivity]).
    replace (f +++ " (error)") with ((f +++ " (error") +++ String ")" "") by (rewrite sa; reflexivity).
    rewrite last_char_app.
    replace ((f +++ " (error") +++ String ")" "") with ((f +++ " ") +++ "(error)") by (rewrite !sa; reflexivity).
    rewrite ends_with_app. cbn [Ascii.eqb]. replace ((f +++ " ") +++ "(error)") with (f +++ String " " "(error)") by (rewrite sa; reflexivity).
    rewrite split1_here by exact O2. destruct errors; reflexivity.
  - destruct O as (O1 & O2 & O3 & O4). rewrite split1_none by exact O2.
    destruct (last_char_some x O1) as (a & c & E & F). rewrite E.
    destruct (Ascii.eqb_spec c "<") as [->|NE]; [exfalso; apply (O3 a); exact F|].
    destruct (ends_with "(error)" x) eqn:EW; [apply ends_with_inv in EW as (b & EW); exfalso; apply (O4 b EW)|].
    reflexivity.
Qed.
Lemma once_spec l : forall seen, NoDup (once seen l) /\ forall x, In x (once seen l) <-> In x l /\ ~ In x seen.
Proof.
  induction l as [|y l IH]; intros seen; cbn [once].
  - split; [constructor|]. cbn. tauto.
  - destruct (smem y seen) eqn:S.
    + apply smem_In in S. destruct (IH seen) as [A B]. split; [exact A|]. intros x. rewrite B. cbn. split; [tauto|].
      intros [[<-|H] K]; tauto.
    + apply smem_false in S. destruct (IH (y :: seen)) as [A B]. split.
      * constructor; [|exact A]. rewrite B. cbn. tauto.
      * intros x. cbn [In]. rewrite B. cbn [In]. destruct (String.string_dec y x) as [->|NE]; [tauto|]. tauto.
Qed.

(* Every piece of news is given in its order, and then each table that was written once, with what it now holds. *)
Theorem C104_changes : forall srv errors l rows, srv ("*CHANGES?" +++ nl) = Lines (map news_line l) -> Forall news_ok l ->
  (forall f, In (Written f) l -> srv (f +++ "?" +++ nl) = Lines (rows f)) ->
  exists ts, get_changes srv errors = (flat_map (given errors) l ++ map (fun f => (f, Table (rows f))) ts, None) /\
    NoDup ts /\ forall f, In f ts <-> In (Written f) l.
Proof.
  intros srv errors l rows S F T. unfold get_changes, recv_lines at 1. rewrite S, (first_given errors l F).
  destruct (once_spec (tables_of l) []) as [A B].
  assert (TW : forall f, In f (once [] (tables_of l)) <-> In (Written f) l).
  { intros f. rewrite B. unfold tables_of. rewrite in_flat_map. split.
    - intros ((n & J & K) & _). destruct n; try contradiction. destruct K as [<-|[]]. exact J.
    - intros J. split; [|intros []]. exists (Written f). cbn. auto. }
  exists (once [] (tables_of l)). split; [|split; assumption].
  assert (X : forall m, (forall f, In f m -> In (Written f) l) -> second_changes srv m = (map (fun f => (f, Table (rows f))) m, None)).
  { induction m as [|f m IH]; intros H; [reflexivity|]. cbn [second_changes map]. unfold recv_lines.
    rewrite (T f (H f (or_introl eq_refl))). rewrite IH by (intros; apply H; cbn; auto). reflexivity. }
  rewrite X by (intros f J; apply TW, J). reflexivity.
Qed.
Print Assumptions C104_changes.

(* ---- sets ---- *)
Lemma lines_more a r : free (ascii_of_nat 10) a -> lines (a +++ nl +++ r) = a :: lines r.
Proof.
  rewrite free_chars. change (nl +++ r) with (String (ascii_of_nat 10) r).
  induction a as [|x a IH]; [reflexivity|].
  cbn [chars String.append lines]. intros H. apply andb_true_iff in H as [H1 H2]. unfold no in H1. apply negb_true_iff in H1.
  rewrite H1, IH by exact H2. reflexivity.
Qed.
Lemma lines_some s : exists x l, lines s = x :: l.
Proof. destruct s as [|c s]; cbn; [eauto|]. destruct (Ascii.eqb _ _); [eauto|]. destruct (lines s); eauto. Qed.
Lemma action_here f c v : free "=" f -> free "<" f -> free "?" f -> c = "="%char \/ c = "<"%char \/ c = "?"%char ->
  action (f +++ String c v) = Some (f, c, v).
Proof.
  rewrite !free_chars. intros A B C K. induction f as [|x f IH].
  - destruct K as [->|[->| ->]]; reflexivity.
  - cbn in *. apply andb_true_iff in A as [A1 A2], B as [B1 B2], C as [C1 C2].
    unfold no in A1, B1, C1. apply negb_true_iff in A1, B1, C1. rewrite A1, B1, C1. cbn. now rewrite IH.
Qed.
Lemma commands_table x r y l f : action x = Some (f, "<"%char, "") -> lines r = y :: l ->
  commands None (x :: lines r) = commands (Some (f, [])) (lines r).
Proof. intros A ->. cbn [commands]. rewrite A. reflexivity. Qed.
Definition field_name (f : string) : Prop := free "=" f /\ free "<" f /\ free "?" f /\ free (ascii_of_nat 10) f.
(* A PandA reads as many commands as there are fields, each with the name and the value that was meant. *)
Theorem C104_sets : forall fv, Forall (fun f => field_name (fst f) /\ free (ascii_of_nat 10) (snd f)) fv ->
  reads (String.concat "" (set_fields_text fv)) = map (fun f => Assign (fst f) (snd f)) fv.
Proof.
  assert (CC : forall x l, String.concat "" (x :: l) = x +++ String.concat "" l).
  { intros x [|y l]; [cbn; symmetry; induction x as [|c x IH]; cbn; [reflexivity|now rewrite IH]|reflexivity]. }
  intros fv F. unfold reads. induction F as [|[f v] fv ((F1 & F2 & F3 & F4) & V) FA IH]; [reflexivity|].
  cbn [fst snd] in *. cbn [set_fields_text map fst snd] in *. rewrite CC.
  replace ((f +++ "=" +++ v +++ nl) +++ String.concat "" (map (fun f => fst f +++ "=" +++ snd f +++ nl) fv))
    with ((f +++ String "=" v) +++ nl +++ String.concat "" (map (fun f => fst f +++ "=" +++ snd f +++ nl) fv))
    by (rewrite !sa; reflexivity).
  rewrite lines_more.
  - destruct (lines_some (String.concat "" (map (fun f => fst f +++ "=" +++ snd f +++ nl) fv))) as (x & l & E).
    unfold set_fields_text in IH. rewrite E in *. cbn [commands]. rewrite action_here by auto. rewrite <- IH. reflexivity.
  - apply free_app; [exact F4|]. rewrite free_chars in V |- *. cbn. exact V.
Qed.
Print Assumptions C104_sets.
(* It ends well exactly when every answer was OK. *)
Theorem C104_answers : forall l, set_fields_end l = None <-> Forall (fun r => r = Line "OK") l.
Proof.
  induction l as [|r l IH]; cbn; [split; auto|]. split.
  - destruct r as [s|s|s]; try discriminate. destruct (String.eqb_spec s "OK") as [->|]; [|discriminate].
    intros H. constructor; [reflexivity|]. now apply IH.
  - intros H. inversion H; subst. cbn. now apply IH.
Qed.
Print Assumptions C104_answers.
(* A PandA reads one command, with the table and the numbers that were meant. *)
Theorem C104_set_table : forall block field values, field_name block -> field_name field ->
  reads (set_table_text block field values) = [Overwrite (block +++ "." +++ field) (map str values)].
Proof.
  intros b f vs (B1 & B2 & B3 & B4) (F1 & F2 & F3 & F4). unfold reads, set_table_text.
  assert (CC : forall x l, String.concat "" (x :: l) = x +++ String.concat "" l).
  { intros x [|y l]; [cbn; symmetry; induction x as [|c x IH]; cbn; [reflexivity|now rewrite IH]|reflexivity]. }
  assert (D : forall c, free c b -> free c f -> chars (no c) "." = true -> free c (b +++ "." +++ f)).
  { intros c H1 H2 H3. apply free_app; [exact H1|]. apply free_app; [apply free_chars, H3|exact H2]. }
  set (body := String.concat "" (map (fun v => str v +++ nl) vs) +++ nl).
  replace (b +++ "." +++ f +++ "<" +++ nl +++ body) with (((b +++ "." +++ f) +++ String "<" "") +++ nl +++ body)
    by (rewrite !sa; reflexivity).
  rewrite lines_more by (apply free_app; [apply D; auto; reflexivity|apply free_chars; reflexivity]).
  destruct (lines_some body) as (x & l & E).
  rewrite (commands_table _ body x l (b +++ "." +++ f));
    [|apply action_here; [apply D; auto; reflexivity|apply D; auto; reflexivity|apply D; auto; reflexivity|auto]|exact E].
  clear E x l.
  change [Overwrite (b +++ "." +++ f) (map str vs)] with [Overwrite (b +++ "." +++ f) (rev [] ++ map str vs)].
  unfold body. clear body. generalize (@nil string) as seen. induction vs as [|v vs IH]; intros seen.
  - cbn. rewrite app_nil_r. reflexivity.
  - cbn [map]. rewrite CC.
    replace (((str v +++ nl) +++ String.concat "" (map (fun v => str v +++ nl) vs)) +++ nl)
      with (str v +++ nl +++ (String.concat "" (map (fun v => str v +++ nl) vs) +++ nl)) by (rewrite !sa; reflexivity).
    rewrite lines_more by (apply free_chars, ident_no; [reflexivity|apply num_ident]).
    destruct (lines_some (String.concat "" (map (fun v => str v +++ nl) vs) +++ nl)) as (x & l & E).
    pose proof (IH (str v :: seen)) as IH'. rewrite E in *. cbn [commands].
    destruct (ident_word _ (num_ident v)) as [NE _]. cbn [rev] in IH'. rewrite <- app_assoc in IH'. cbn [app] in IH'.
    destruct (str v) as [|c s]; [congruence|]. exact IH'.
Qed.
Print Assumptions C104_set_table.
(* A value with a line end in it is read as a second command, which sets a field nobody named; there are then more
   answers than messages. *)
Theorem C104_any_value_refuted : exists f v g w, field_name f /\
  reads (String.concat "" (set_fields_text [(f, v)])) = [Assign f "1"; Assign g w] /\ g <> f.
Proof.
  exists "LABEL", ("1" +++ nl +++ "PCAP.ARM=1"), "PCAP.ARM", "1". split; [|split; [vm_compute; reflexivity|discriminate]].
  split; [|split; [|split]]; apply free_chars; reflexivity.
Qed.
Print Assumptions C104_any_value_refuted.

(* ---- a case ---- *)
Definition ex_device : device :=
  [mkSB "SEQ" 2 "Sequencer" [mkSF "TABLE" 2 "table" "" "The lines" [] []; mkSF "ENABLE" 0 "bit_mux" "" "Go" ["ZERO"; "ONE"] []]
     [("TABLE", [mkSC "REPEATS" 15 0 "" "Times" []; mkSC "TRIGGER" 19 16 "enum" "When" ["Immediate"; "BITA=0"];
                 mkSC "POSITION" 63 32 "int" "Where" []])];
   mkSB "PCAP" 1 "Capture" [mkSF "BITS1" 1 "ext_out" "bits" "More" ["No"; "Value"] ["C"; "D"];
                            mkSF "BITS0" 0 "ext_out" "bits" "Some" ["No"; "Value"] ["A"; "B"];
                            mkSF "ARM" 2 "action" "" "Arm = go" [] []] []].
Example C104_ex_ok : device_ok ex_device.
Proof.
  unfold device_ok, ex_device, block_ok, ident, kind. cbn.
  repeat match goal with
  | |- _ /\ _ => split
  | |- Forall _ _ => constructor
  | |- NoDup _ => constructor
  | |- ~ _ => cbn; intuition discriminate
  | |- _ \/ _ => solve [left; reflexivity | right; split; [discriminate|reflexivity]]
  | |- _ => first [discriminate | reflexivity]
  | |- _ => cbn
  end.
Qed.
Example C104_ex_blocks : get_blocks_data (serve ex_device) =
  Ok [("PCAP", mkBlock 1 "Capture" [("BITS0", mkField "ext_out" "bits" "Some" ["No"; "Value"]);
                                 ("BITS1", mkField "ext_out" "bits" "More" ["No"; "Value"]);
                                 ("ARM", mkField "action" "" "Arm = go" [])]);
      ("SEQ", mkBlock 2 "Sequencer" [("ENABLE", mkField "bit_mux" "" "Go" ["ZERO"; "ONE"]); ("TABLE", mkField "table" "" "The lines" [])])].
Proof. vm_compute. reflexivity. Qed.
Example C104_ex_table : get_table_fields (serve ex_device) "SEQ" "TABLE" =
  Ok [("REPEATS", mkColumn 15 0 "Times" None false); ("TRIGGER", mkColumn 19 16 "When" (Some ["Immediate"; "BITA=0"]) false);
      ("POSITION", mkColumn 63 32 "Where" None true)].
Proof. vm_compute. reflexivity. Qed.
Example C104_ex_bits : get_pcap_bits_fields (serve ex_device) =
  Ok [("PCAP.BITS0.CAPTURE", ["A"; "B"]); ("PCAP.BITS1.CAPTURE", ["C"; "D"])].
Proof. vm_compute. reflexivity. Qed.
Definition ex_news : list news :=
  [HasValue "SEQ1.ENABLE" "a=b"; Written "SEQ1.TABLE"; Unreadable "TTLIN1.VAL"; Other "what?"; Written "SEQ1.TABLE"].
Example C104_ex_changes : Forall news_ok ex_news /\
  get_changes (fun q => if String.eqb q ("*CHANGES?" +++ nl) then Lines (map news_line ex_news) else Lines ["1"; "2"]) true =
  ([("SEQ1.ENABLE", Value "a=b"); ("SEQ1.TABLE", Pending); ("TTLIN1.VAL", Failed); ("SEQ1.TABLE", Pending);
    ("SEQ1.TABLE", Table ["1"; "2"])], None).
Proof.
  split; [|vm_compute; reflexivity]. unfold ex_news. repeat constructor; cbn [news_ok].
  - apply free_chars; reflexivity.
  - apply free_chars; reflexivity.
  - apply free_chars; reflexivity.
  - apply free_chars; reflexivity.
  - discriminate.
  - apply free_chars; reflexivity.
  - intros f E. pose proof (last_char_app f "<") as L. rewrite <- E in L. discriminate L.
  - intros f E. pose proof (ends_with_app "(error)" f) as L. rewrite <- E in L. discriminate L.
  - apply free_chars; reflexivity.
Qed.
Example C104_ex_sets :
  reads (String.concat "" (set_fields_text [("SEQ1.ENABLE", "ONE"); ("*METADATA.LABEL_SEQ1", "a=b < c?")])) =
    [Assign "SEQ1.ENABLE" "ONE"; Assign "*METADATA.LABEL_SEQ1" "a=b < c?"] /\
  reads (set_table_text "SEQ1" "TABLE" [7; 12]) = [Overwrite "SEQ1.TABLE" ["7"; "12"]] /\
  set_fields_end [Line "OK"; Error "ERR no"; Line "OK"] = Some CValue.
Proof. vm_compute. auto. Qed.
