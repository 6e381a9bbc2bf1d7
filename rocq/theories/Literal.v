(** C85: literals and script arguments. *)
From stdpp Require Import base numbers sorting list sets.
From Coq Require Import Lia QArith Qpower.
From Verif Require Import CppBase PromoteModel PromoteSpec PromoteProofs CsvModel LiteralModel LiteralSpec LiteralProofs.
Open Scope nat_scope.

(** ** Integers *)
(** An integer literal is the number its digits say, whatever separators there are, in the
    type of its suffix; a number that is too large is an error, except 2^63 without suffix. *)
Theorem C85_int s v x : numeral s v ->
  visit_literal (s ++ suffix_text x) =
    if decide (v <= suffix_max x)%Z then Ok (CInt (suffix_type x) v)
    else if decide (x = Plain0 /\ v = 2 ^ 63)%Z then Ok (CInt SI64 (- 2 ^ 63)) else Throw.
Proof. intros H. unfold visit_literal. rewrite (is_int_numeral s v x H). apply visit_int_numeral, H. Qed.
(** Every integer token is a numeral with a suffix. *)
Theorem C85_int_tokens s : is_int s = true <-> exists body v x, numeral body v /\ s = body ++ suffix_text x.
Proof. split; [apply is_int_inv|]. intros (body & v & x & N & ->). apply (is_int_numeral body v x N). Qed.
Lemma print_numeral_digs n : forall v, (0 < v < 10 ^ Z.of_nat n)%Z -> exists s k, digs s v k /\ head s <> Some 48.
Proof.
  induction n as [|n IH]; intros v H; [cbn in H; lia|]. destruct (decide (v < 10)%Z) as [L0|L0].
  - exists [48 + Z.to_nat v], 1. split; [|cbn; intros [= X]; lia]. replace v with (Z.of_nat (Z.to_nat v)) at 2 by lia. apply digs_one. lia.
  - destruct (IH (v / 10)%Z) as (s & k & D & N).
    { rewrite Nat2Z.inj_succ, Z.pow_succ_r in H by lia. split; [apply Z.div_str_pos; lia|]. apply Z.div_lt_upper_bound; lia. }
    exists (s ++ [48 + Z.to_nat (v mod 10)]), (S k). pose proof (Z.mod_pos_bound v 10 ltac:(lia)) as B. split.
    + replace v with (10 * (v / 10) + Z.of_nat (Z.to_nat (v mod 10)))%Z at 2; [apply digs_more; [exact D|lia]|]. rewrite Z2Nat.id by lia. symmetry. apply Z.div_mod. lia.
    + destruct (digs_head s _ _ D) as (d & t & _ & -> & _). exact N.
Qed.
Lemma numerals v : (0 <= v)%Z -> exists s, numeral s v.
Proof.
  intros H. destruct (decide (v = 0)%Z) as [->|N]; [exists [48], 1; split; [exact (digs_one 0 ltac:(lia))|left; reflexivity]|].
  destruct (print_numeral_digs (Z.to_nat v) v) as (s & k & D & Hd).
  { split; [lia|]. rewrite Z2Nat.id by exact H. apply Z.pow_gt_lin_r; lia. }
  exists s, k. split; [exact D|right; exact Hd].
Qed.
(** Every number of si64 can be written as a literal, negative ones with a minus in front. *)
Theorem C85_all_integers z : (- 2 ^ 63 <= z < 2 ^ 63)%Z -> exists s, numeral s (Z.abs z) /\
  (let* c := visit_literal s in if decide (z < 0)%Z then minus c else Ok c) = Ok (CInt SI64 z).
Proof.
  intros B. destruct (numerals (Z.abs z) ltac:(lia)) as [s N]. exists s. split; [exact N|]. pose proof (C85_int s _ Plain0 N) as E. cbn [suffix_text suffix_max suffix_type] in E. rewrite app_nil_r in E. rewrite E.
  destruct (decide (z < 0)%Z) as [L0|L0].
  - destruct (decide (Z.abs z <= 2 ^ 63 - 1)%Z) as [L1|L1].
    + cbn [obind minus]. f_equal. f_equal. rewrite Z.mod_small by lia. lia.
    + rewrite decide_True by (split; [reflexivity|lia]). cbn [obind minus]. assert (z = - 2 ^ 63)%Z as -> by lia. reflexivity.
  - rewrite decide_True by lia. cbn [obind]. f_equal. f_equal. lia.
Qed.
(** FAILS: 9223372036854775808 is a negative number. *)
Theorem C85_int_refuted s : numeral s (2 ^ 63) -> visit_literal s = Ok (CInt SI64 (- 2 ^ 63)).
Proof. intros N. pose proof (C85_int s _ Plain0 N) as E. cbn [suffix_text] in E. rewrite app_nil_r in E. rewrite E. rewrite decide_False by (cbn; lia). rewrite decide_True by auto. reflexivity. Qed.
(** FAILS: size_t has numbers that no literal with the suffix z denotes; and -2^63 cannot be written with
    the suffix l. *)
Theorem C85_suffix_refuted s v : numeral s v -> (2 ^ 63 <= v < 2 ^ 64)%Z ->
  visit_literal (s ++ [122]) = Throw /\ visit_literal (s ++ [108]) = Throw /\ visit_literal (s ++ [117]) = Ok (CInt UI64 v).
Proof.
  intros N B. pose proof (C85_int s v Z0 N) as E1. pose proof (C85_int s v L N) as E2. pose proof (C85_int s v U N) as E3. cbn [suffix_text suffix_max suffix_type] in *. rewrite E1, E2, E3.
  rewrite !(decide_False (P := (v <= 2 ^ 63 - 1)%Z)) by lia. rewrite !decide_False by (intros [X _]; discriminate X). rewrite decide_True by lia. repeat split.
Qed.

(** ** Floating-point numbers *)
Theorem C85_float s q : floating s q -> exists m e, (decimal m e == q)%Q /\
  visit_literal s = Ok (CFlt F64 false m e) /\
  (~ beyond_float q -> visit_literal (s ++ [102]) = Ok (CFlt F32 false m e)) /\
  (beyond_float q -> visit_literal (s ++ [102]) = Throw).
Proof.
  intros H. destruct (floating_reads s q H) as (m & e & R). destruct (floating_ends s q H) as [(d & t & D & Eh) (s' & d' & D' & El)].
  exists m, e. destruct (R [] (or_introl eq_refl)) as (A1 & A2 & A3 & A4 & _). destruct (R [102] (or_intror eq_refl)) as (B1 & B2 & B3 & _ & _). rewrite app_nil_r in A1, A2, A3.
  split; [exact A4|]. assert (Hd : forall u, s ++ u <> NAN /\ s ++ u <> NANF /\ s ++ u <> INF /\ s ++ u <> INFF).
  { intros u. rewrite Eh. cbn [app]. unfold NAN, NANF, INF, INFF. repeat split; intros [= X]; lia. }
  split; [|split].
  - unfold visit_literal. rewrite A1, A2. unfold visit_float. specialize (Hd []). rewrite app_nil_r in Hd. destruct Hd as (N1 & N2 & N3 & N4). rewrite !decide_False by assumption.
    assert (Bk : back s = 48 + d') by (rewrite El; apply back_snoc). rewrite Bk. rewrite (proj2 (Nat.eqb_neq (48 + d') 102)) by lia. rewrite A3. reflexivity.
  - intros NB. unfold visit_literal. rewrite B1, B2. unfold visit_float. destruct (Hd [102]) as (N1 & N2 & N3 & N4). rewrite !decide_False by assumption.
    rewrite back_snoc. cbn [Nat.eqb]. rewrite B3. destruct (stof_error m e) eqn:Er; [|reflexivity]. exfalso. apply NB. apply (stof_error_spec m e q A4), Er.
  - intros Be. unfold visit_literal. rewrite B1, B2. unfold visit_float. destruct (Hd [102]) as (N1 & N2 & N3 & N4). rewrite !decide_False by assumption.
    rewrite back_snoc. cbn [Nat.eqb]. rewrite B3. rewrite (proj2 (stof_error_spec m e q A4) Be). reflexivity.
Qed.
(** nan and inf; FAILS: nanf and inff are of type f64, too. *)
Theorem C85_special_refuted :
  visit_literal NAN = Ok (CNan F64) /\ visit_literal INF = Ok (CInf F64 false) /\
  visit_literal NANF = Ok (CNan F64) /\ visit_literal INFF = Ok (CInf F64 false) /\
  visit_literal TRUE = Ok (CBool true) /\ visit_literal FALSE = Ok (CBool false).
Proof. repeat split; vm_compute; reflexivity. Qed.

(** ** Strings *)
(** Every string token is a sequence of characters and escape sequences in quotation marks. *)
Theorem C85_string_tokens s : is_str s = true <-> exists l, Forall item_ok l /\ s = quoted l.
Proof. split; [apply is_str_inv|]. intros (l & F & ->). apply is_str_quoted, F. Qed.
(** A string literal means what it says exactly if it has no escaped backslash in front of one of
    the letters b, f, n, r, t. *)
Theorem C85_string l : Forall item_ok l ->
  visit_literal (quoted l) = Ok (CStr (meaning l)) <-> forall a c b, c ∈ letters -> l <> a ++ Es 92 :: Pl c :: b.
Proof.
  intros F. rewrite (visit_quoted l F). split.
  - intros [= E] a c b Hc ->. apply (unescape_never (raw (a ++ Es 92 :: Pl c :: b))). unfold raw in *. rewrite E. exists (meaning a), c, (meaning b). split; [|exact Hc].
    unfold meaning. rewrite map_app. reflexivity.
  - intros H. rewrite unescape_items; [reflexivity|exact F|]. intros x Hx. apply calm_iff. intros a b. apply H, Hx.
Qed.
(** FAILS: no string literal yields a string with a backslash in front of one of these letters; all
    other strings have a literal. *)
Theorem C85_string_refuted s : (exists l, Forall item_ok l /\ visit_literal (quoted l) = Ok (CStr s)) <-> ~ back_letter s.
Proof.
  split.
  - intros (l & F & E). rewrite (visit_quoted l F) in E. injection E as <-. apply unescape_never.
  - intros H. destruct (spell_string s H) as (l & F & M & C). exists l. split; [exact F|]. rewrite (visit_quoted l F), unescape_items by assumption. rewrite M. reflexivity.
Qed.

(** ** Script arguments *)
(** The arguments after the script and the pieces of --args between commas have the form name=value with
    different names, and each name has its value; otherwise there is an error. *)
Theorem C85_args after dashed pss : Forall2 pieces dashed pss ->
  (forall m, script_args after dashed = Ok m <-> Forall2 (fun it e => named it (fst e) (snd e)) (after ++ concat pss) m /\ NoDup (map fst m)) /\
  script_args after dashed <> UB.
Proof.
  intros P. assert (concat (map commas dashed) = concat pss) as Ec. { f_equal. induction P as [|s ps dashed pss H P IH]; [reflexivity|]. cbn [map]. rewrite IH. rewrite (pieces_unique s ps H). reflexivity. }
  unfold script_args. rewrite Ec. destruct (parse_args_spec after [] (NoDup_nil_2)) as [A1 A2]. destruct (parse_args after []) as [m0| |] eqn:E; cbn [obind].
  - destruct (proj1 (A1 m0) eq_refl) as (l & Em & F & N). cbn [app] in Em. subst l. destruct (parse_args_spec (concat pss) m0 N) as [B1 B2]. split; [|exact B2]. intros m. rewrite B1. split.
    + intros (l & -> & F' & N'). split; [apply Forall2_app; assumption|exact N'].
    + intros [F' N']. apply Forall2_app_inv_l in F' as (m1 & m2 & G1 & G2 & ->). exists m2. split; [|split; assumption]. f_equal.
      assert (X : Ok m0 = Ok m1). { apply A1. exists m1. split; [reflexivity|]. split; [exact G1|]. rewrite map_app in N'. apply NoDup_app in N' as [N' _]. exact N'. } injection X as ->. reflexivity.
  - split; [|discriminate]. intros m. split; [discriminate|]. intros [F' N']. apply Forall2_app_inv_l in F' as (m1 & m2 & G1 & G2 & ->).
    assert (X : Throw = Ok m1). { apply A1. exists m1. split; [reflexivity|]. split; [exact G1|]. rewrite map_app in N'. apply NoDup_app in N' as [N' _]. exact N'. } discriminate X.
  - contradiction.
Qed.
(** $name is the literal given as the value, or its negative; an argument that is not given is an
    error. *)
Theorem C85_arg_value m n v : NoDup (map fst m) -> (n, v) ∈ m ->
  (forall c, head v <> Some 45 -> visit_literal v = Ok c -> arg_expr m n = Ok c) /\
  (forall v' c c', v = 45 :: v' -> visit_literal v' = Ok c -> negated c c' -> (forall z, c = CInt SI64 z -> (- 2 ^ 63 < z)%Z) -> (forall t z, c = CInt t z -> (z < 2 ^ 63)%Z) -> arg_expr m n = Ok c').
Proof.
  intros ND H. apply (find_arg_some m n v ND) in H. unfold arg_expr. rewrite H. split.
  - intros c Hh Hv. destruct v as [|a v]; [discriminate Hv|]. rewrite <- Hv. cbn in Hh. do 45 (destruct a as [|a]; [reflexivity|]). destruct a as [|a]; [exfalso; apply Hh; reflexivity|reflexivity].
  - intros v' c c' -> Hv Ng Hz Hu. rewrite Hv. cbn [obind]. destruct c as [t z|t b mm e|t b|t|b|s0], c' as [t' z'|t' b' mm' e'|t' b'|t'|b'|s']; cbn in Ng |- *; try contradiction; try (destruct t; contradiction).
    + destruct t; try contradiction. destruct t'; try contradiction. subst z'. specialize (Hz z eq_refl). specialize (Hu SI64 z eq_refl). f_equal. f_equal. rewrite Z.mod_small by lia. lia.
    + destruct Ng as (-> & -> & -> & ->). reflexivity.
    + destruct Ng as (-> & ->). reflexivity.
    + subst. reflexivity.
Qed.
Theorem C85_arg_missing m n : n ∉ map fst m -> arg_expr m n = Throw.
Proof. intros H. apply find_arg_none in H. unfold arg_expr. rewrite H. reflexivity. Qed.
(** FAILS: a value with a comma cannot be given with --args. *)
Theorem C85_comma_refuted n a b : 44 ∉ b -> 61 ∉ b -> script_args [] [n ++ 61 :: a ++ 44 :: b] = Throw.
Proof.
  intros C E. unfold script_args. cbn [parse_args obind map concat]. rewrite app_nil_r.
  assert (X : exists ps, commas (n ++ 61 :: a ++ 44 :: b) = ps ++ [b]).
  { change (n ++ 61 :: a ++ 44 :: b) with (n ++ [61] ++ a ++ 44 :: b). rewrite !app_assoc. generalize ((n ++ [61]) ++ a) as l. clear -C. intros l. induction l as [|c l [ps IH]]; cbn [app commas].
    - change (44 =? COMMAB) with true. cbn iota. exists [[]]. f_equal. symmetry. apply (pieces_unique b [b]). split; [discriminate|]. split; [reflexivity|]. constructor; [exact C|constructor].
    - destruct (c =? COMMAB); [exists ([] :: ps); rewrite IH; reflexivity|]. rewrite IH. destruct ps as [|p ps]; [|exists ((c :: p) :: ps); reflexivity].
      exfalso. cbn [app] in IH. pose proof (commas_pieces (l ++ 44 :: b)) as (_ & J & F). rewrite IH in J, F. cbn [join] in J. apply Forall_inv in F. apply F. rewrite J. apply elem_of_app. right. apply elem_of_list_here. }
  destruct X as [ps ->]. generalize (@nil (list byte * list byte)) as m. induction ps as [|p ps IH]; intros m; cbn [app parse_args].
  - assert (Y : cut EQ b = None) by (apply cut_none; exact E). rewrite Y. reflexivity.
  - destruct (cut EQ p) as [[n' v']|]; [|reflexivity]. destruct (find_arg m n'); [reflexivity|]. apply IH.
Qed.

(** ** Matrices and frames *)
(** A matrix literal has its elements in row-major order, converted to the highest-ranking of their
    types, whether or not they are constants, and the shape that is asked for. *)
Theorem C85_matrix es rows cols r c t : es <> [] -> Forall number_el es -> (Z.of_nat (length es) < 2 ^ 64)%Z -> highest (map e_t es) t ->
  shape (Z.of_nat (length es)) rows cols r c ->
  exists vals, matrix_literal es rows cols = Ok (t, (r, c, vals)) /\ Forall2 (converted t) es vals.
Proof.
  intros NE F Ln H Sh. destruct (numbers_storable t es F H) as [T St]. destruct (build_col_spec t es T St) as (vals & Bv & Cv). exists vals. split; [|exact Cv].
  unfold matrix_literal. rewrite (dims_shape _ _ _ r c) by (first [exact Sh|destruct es; [contradiction|cbn [length] in *; lia]]). cbn [obind]. rewrite decide_False by exact NE.
  rewrite (highest_most _ t H). cbn [obind]. rewrite T. cbn [orb]. rewrite Bv. cbn [obind fst snd]. rewrite reshape_fits; [reflexivity|]. destruct Sh as (_ & _ & -> & _). f_equal. apply (Forall2_length _ _ _ Cv).
Qed.
(** If all types involved can be mixed without loss (C80), the cells are the elements. *)
Theorem C85_matrix_exact t e v x : converted t e v -> e_val e = Num x -> keeps (e_t e) t -> holds (e_t e) x -> v = e_val e.
Proof. intros (x' & y & E & C & ->) V K Ho. assert (x' = x) as -> by congruence. rewrite (K x Ho) in C. injection C as <-. symmetry. exact E. Qed.
(** There is an error if there is no such shape. *)
Theorem C85_matrix_error es rows cols t : es <> [] -> Forall number_el es -> (Z.of_nat (length es) < 2 ^ 64)%Z -> highest (map e_t es) t ->
  moderate rows cols -> (forall r c, ~ shape (Z.of_nat (length es)) rows cols r c) -> matrix_literal es rows cols = Throw.
Proof.
  intros NE F Ln H M N. destruct (numbers_storable t es F H) as [T St]. destruct (build_col_spec t es T St) as (vals & Bv & Cv). unfold matrix_literal.
  assert (Lp : (0 < Z.of_nat (length es) < 2 ^ 64)%Z) by (destruct es; [contradiction|cbn [length] in *; lia]).
  destruct (dims (Z.of_nat (length es)) rows cols) as [[r c]| |] eqn:D; [|reflexivity|exfalso; unfold dims in D; destruct rows, cols; try discriminate D; destruct (decide _); discriminate D].
  destruct (dims_moderate _ _ _ r c Lp M D) as (D1 & D2 & D3 & D4). cbn [obind]. rewrite decide_False by exact NE. rewrite (highest_most _ t H). cbn [obind]. rewrite T. cbn [orb]. rewrite Bv. cbn [obind fst snd].
  pose proof (Forall2_length _ _ _ Cv) as Lv. rewrite reshape_bad; [reflexivity|split; [apply Z.mul_nonneg_nonneg; assumption|exact D3]|rewrite <- Lv; lia|]. rewrite <- Lv. intros E. exact (N r c (D4 E)).
Qed.
(** FAILS: negative dimensions can be accepted: [x](-1, -1) has 2^64-1 rows and columns. *)
Theorem C85_dims_refuted e t : number_el e -> t = e_t e -> exists vals, matrix_literal [e] (Some (-1))%Z (Some (-1))%Z = Ok (t, (2 ^ 64 - 1, 2 ^ 64 - 1, vals))%Z.
Proof.
  intros Ne ->. assert (H : highest (map e_t [e]) (e_t e)). { split; [apply elem_of_list_here|]. intros u Hu. apply elem_of_list_singleton in Hu as ->. apply below_gen. lia. }
  destruct (numbers_storable (e_t e) [e] ltac:(constructor; [exact Ne|constructor]) H) as [T St]. destruct (build_col_spec _ _ T St) as (vals & Bv & Cv). exists vals.
  unfold matrix_literal. cbn [dims obind]. rewrite decide_False by discriminate. rewrite (highest_most _ _ H). cbn [obind]. rewrite T. cbn [orb]. rewrite Bv. cbn [obind].
  change (size64 (-1)) with (2 ^ 64 - 1)%Z. cbn [fst snd]. unfold reshape_col. rewrite <- (Forall2_length _ _ _ Cv). rewrite decide_False by (cbn; lia). rewrite decide_True by reflexivity. reflexivity.
Qed.
(** FAILS: an element of the type of sizes, such as nrow(X), is refused, although it could be converted. *)
Theorem C85_size_refuted es rows cols e : Forall (fun e => number_el e \/ e_t e = IDX /\ exists x, e_val e = Num x) es -> e ∈ es -> e_t e = IDX -> matrix_literal es rows cols = Throw.
Proof.
  intros F He Ei. unfold matrix_literal. destruct (dims (Z.of_nat (length es)) rows cols) as [d| |] eqn:D; [|reflexivity|exfalso; unfold dims in D; destruct rows, cols; try discriminate D; destruct (decide _); discriminate D].
  cbn [obind]. destruct (decide (es = [])) as [->|NE]; [reflexivity|]. destruct (most_general_total (map e_t es)) as [t Ht]; [destruct es; [contradiction|discriminate]|]. rewrite Ht. cbn [obind].
  apply most_general_highest in Ht as [H1 H2]. rewrite Forall_forall in F. assert (Ts : t <> STR).
  { intros ->. apply elem_of_list_In, in_map_iff in H1 as (e' & Et & I'). apply elem_of_list_In in I'. destruct (F e' I') as [[X _]|[X _]]; rewrite Et in X; [|discriminate X]. repeat (apply elem_of_cons in X as [X|X]; [discriminate X|]). apply elem_of_nil in X as []. }
  rewrite (bool_decide_eq_false_2 (t = STR)) by exact Ts. rewrite orb_false_r. destruct (el_type t) eqn:T; [|reflexivity].
  unfold build_col. rewrite (fill_bad t es e 0); [reflexivity|exact Ts|exact He|rewrite Ei; reflexivity|]. apply Forall_forall. intros e' I' El.
  assert (X : exists x, e_val e' = Num x) by (destruct (F e' I') as [[_ X]|[_ X]]; exact X). destruct X as [x X]. destruct (conv_ok t e' x X El) as (y & _ & Y); [|exact T|exists (Num y); exact Y].
  apply below_gen, H2, elem_of_list_In, in_map_iff. exists e'. split; [reflexivity|apply elem_of_list_In, I'].
Qed.
(** String matrices consist of string constants; FAILS: an element that is a string but not a constant is refused. *)
Theorem C85_text_refuted es : es <> [] -> Forall (fun e => e_t e = STR) es ->
  (Forall (fun e => e_const e = true) es -> matrix_literal es None None = Ok (STR, (Z.of_nat (length es), 1%Z, map e_val es))) /\
  (forall e, e ∈ es -> e_const e = false -> matrix_literal es None None = Throw).
Proof.
  intros NE F. assert (H : highest (map e_t es) STR).
  { destruct es as [|e es]; [contradiction|]. split; [cbn [map]; rewrite (Forall_inv F); apply elem_of_list_here|]. intros u Hu. apply elem_of_list_In, in_map_iff in Hu as (e' & <- & I'). rewrite Forall_forall in F. rewrite (F e') by (apply elem_of_list_In, I'). apply below_gen. lia. }
  unfold matrix_literal. cbn [dims obind]. rewrite decide_False by exact NE. rewrite (highest_most _ _ H). cbn [obind el_type orb]. rewrite bool_decide_eq_true_2 by reflexivity. split.
  - intros C. assert (X : forall i, fill STR i es = Ok (map e_val es, [])).
    { clear NE H. induction es as [|e es IH]; intros i; [reflexivity|]. cbn [fill map]. rewrite decide_True by reflexivity. rewrite decide_True by exact (Forall_inv F). rewrite (Forall_inv C). cbn [obind]. rewrite (IH (Forall_inv_tail F) (Forall_inv_tail C)). reflexivity. }
    unfold build_col. rewrite X. cbn [obind fst snd patch]. rewrite reshape_fits; [reflexivity|]. rewrite map_length. lia.
  - intros e He Ce. assert (X : forall i, fill STR i es = Throw).
    { clear NE H. induction es as [|e' es IH]; intros i; [apply elem_of_nil in He as []|]. cbn [fill]. rewrite decide_True by reflexivity. rewrite decide_True by exact (Forall_inv F).
      apply elem_of_cons in He as [<-|He]; [rewrite Ce; reflexivity|]. destruct (e_const e'); [|reflexivity]. cbn [obind]. rewrite (IH (Forall_inv_tail F) He). reflexivity. }
    unfold build_col. rewrite X. reflexivity.
Qed.
(** A frame literal of rows: column j consists of the j-th elements of the rows, converted to the
    highest-ranking of their types. *)
Theorem C85_frame labels rows n : length labels = n -> n <> 0 -> rows <> [] -> Forall (fun l => e_t l = STR) labels ->
  Forall (fun row => length row = n) rows -> Forall (Forall number_el) rows ->
  exists cols, frame_literal labels rows = Ok (cols, map e_val labels) /\ length cols = n /\
    forall j, j < n -> exists t vals, cols !! j = Some (t, vals) /\ length vals = length rows /\
      (exists ts, highest ts t /\ forall u, u ∈ ts <-> exists row e, row ∈ rows /\ row !! j = Some e /\ e_t e = u) /\
      forall i row e, rows !! i = Some row -> row !! j = Some e -> exists v, vals !! i = Some v /\ converted t e v.
Proof.
  intros Ln N0 NR FL Fr Fe. unfold frame_literal. rewrite Ln. rewrite decide_False by tauto.
  assert (X : forallb (fun l => bool_decide (e_t l = STR)) labels = true). { apply forallb_forall. intros l Hl. apply bool_decide_eq_true_2. rewrite Forall_forall in FL. apply FL, elem_of_list_In, Hl. }
  rewrite X. destruct (add_rows_spec n rows Fr (replicate n []) ltac:(apply replicate_length)) as (cols' & E & L' & G). rewrite E. cbn [obind].
  assert (Q : forall j, j < n -> exists t vals, frame_col (column j rows) = Ok (t, vals) /\ highest (map e_t (column j rows)) t /\ Forall2 (converted t) (column j rows) vals).
  { intros j Hj. destruct (column_lookup n rows j Fr Hj) as [Lc Kc]. assert (Nc : map e_t (column j rows) <> []) by (destruct (column j rows); [destruct rows; [contradiction|discriminate Lc]|discriminate]).
    destruct (most_general_total _ Nc) as [t Ht]. pose proof (most_general_highest _ _ Ht) as Hh.
    assert (Fc : Forall number_el (column j rows)).
    { apply Forall_lookup. intros i e He. rewrite Kc in He. destruct (rows !! i) as [row|] eqn:Er; [|discriminate He]. cbn in He. rewrite Forall_lookup in Fe. specialize (Fe i row Er). rewrite Forall_lookup in Fe. exact (Fe j e He). }
    destruct (numbers_storable t _ Fc Hh) as [T St]. destruct (build_col_spec t _ T St) as (vals & Bv & Cv). exists t, vals. split; [|split; assumption]. unfold frame_col. rewrite Ht. cbn [obind]. rewrite T, Bv. reflexivity. }
  assert (G' : forall j, j < n -> cols' !! j = Some (column j rows)). { intros j Hj. rewrite (G j []) by (apply lookup_replicate; split; [reflexivity|exact Hj]). reflexivity. }
  assert (M : exists cs, mapo frame_col cols' = Ok cs /\ length cs = n /\ forall j, j < n -> exists p, cs !! j = Some p /\ frame_col (column j rows) = Ok p).
  { assert (M0 : forall (l : list (list el)), (forall j c, l !! j = Some c -> exists p, frame_col c = Ok p) -> exists cs, mapo frame_col l = Ok cs /\ length cs = length l /\ forall j c, l !! j = Some c -> exists p, cs !! j = Some p /\ frame_col c = Ok p).
    { clear. induction l as [|c l IH]; intros H; [exists []; repeat split; intros j c Hc; discriminate Hc|]. destruct (H 0 c eq_refl) as [p Hp]. destruct (IH (fun j => H (S j))) as (cs & E & Lc & K). exists (p :: cs). cbn [mapo]. rewrite Hp. cbn [obind]. rewrite E. split; [reflexivity|]. split; [cbn [length]; lia|].
      intros [|j] c' Hc; cbn in Hc; [injection Hc as <-; exists p; split; [reflexivity|exact Hp]|apply (K j c' Hc)]. }
    destruct (M0 cols') as (cs & E1 & E2 & E3). { intros j c Hc. assert (Hj : j < n) by (rewrite <- L'; eapply lookup_lt_Some; exact Hc). rewrite (G' j Hj) in Hc. injection Hc as <-. destruct (Q j Hj) as (t & vals & Hq & _). eauto. }
    exists cs. split; [exact E1|]. split; [lia|]. intros j Hj. apply E3, G', Hj. }
  destruct M as (cs & E1 & E2 & E3). rewrite E1. cbn [obind]. exists cs. split; [reflexivity|]. split; [exact E2|]. intros j Hj. destruct (E3 j Hj) as (p & Hp & Fp). destruct (Q j Hj) as (t & vals & Fq & Hh & Cv). assert (p = (t, vals)) as -> by congruence.
  destruct (column_lookup n rows j Fr Hj) as [Lc Kc]. exists t, vals. split; [exact Hp|]. split; [rewrite <- (Forall2_length _ _ _ Cv); exact Lc|]. split.
  - exists (map e_t (column j rows)). split; [exact Hh|]. intros u. split.
    + intros Hu. apply elem_of_list_In, in_map_iff in Hu as (e & <- & He). apply elem_of_list_In, elem_of_list_lookup in He as [i He]. rewrite Kc in He. destruct (rows !! i) as [row|] eqn:Er; [|discriminate He]. exists row, e. split; [eapply elem_of_list_lookup_2; exact Er|]. split; [exact He|reflexivity].
    + intros (row & e & Hr & He & <-). apply elem_of_list_In, in_map_iff. exists e. split; [reflexivity|]. apply elem_of_list_lookup in Hr as [i Hr]. apply elem_of_list_In, elem_of_list_lookup. exists i. rewrite Kc, Hr. exact He.
  - intros i row e Hr He. assert (Hc : column j rows !! i = Some e) by (rewrite Kc, Hr; exact He). destruct (Forall2_lookup_l _ _ _ _ _ Cv Hc) as (v & Hv & Ce). exists v. split; assumption.
Qed.
(** FAILS: strings cannot occur in a frame literal of rows. *)
Theorem C85_frame_text_refuted labels rows i row j e : rows !! i = Some row -> row !! j = Some e -> e_t e = STR ->
  Forall (fun row => length row = length labels) rows -> frame_literal labels rows = Throw \/ frame_literal labels rows = UB.
Proof.
  intros Hr He Et Fr. unfold frame_literal. destruct (decide _) as [|ND]; [left; reflexivity|]. destruct (forallb _ labels); [|left; reflexivity].
  set (n := length labels) in *. destruct (add_rows_spec n rows Fr (replicate n []) ltac:(apply replicate_length)) as (cols' & E & L' & G). rewrite E. cbn [obind].
  assert (Hj : j < n). { apply lookup_lt_Some in He. rewrite Forall_lookup in Fr. rewrite <- (Fr i row Hr). exact He. }
  assert (Hc : cols' !! j = Some (column j rows)). { rewrite (G j []) by (apply lookup_replicate; split; [reflexivity|exact Hj]). reflexivity. }
  assert (Bad : forall p, frame_col (column j rows) <> Ok p).
  { intros p. destruct (column_lookup n rows j Fr Hj) as [Lc Kc]. assert (Ie : e ∈ column j rows) by (apply elem_of_list_lookup; exists i; rewrite Kc, Hr; exact He). unfold frame_col.
    destruct (most_general (map e_t (column j rows))) as [t| |] eqn:Ht; cbn [obind]; [|discriminate|discriminate]. apply most_general_highest in Ht as [_ H2].
    assert (B : below STR t) by (apply H2, elem_of_list_In, in_map_iff; exists e; split; [exact Et|apply elem_of_list_In, Ie]). apply below_gen in B. destruct t; cbn in B |- *; try lia; discriminate. }
  assert (X : forall cs, mapo frame_col cols' <> Ok cs).
  { clear -Hc Bad. revert Hc Bad. generalize (column j rows) as k. intros k. revert j. induction cols' as [|c cols' IH]; intros j Hc Bad cs; [discriminate Hc|]. cbn [mapo]. destruct j as [|j]; cbn in Hc.
    - injection Hc as ->. destruct (frame_col k) as [p| |] eqn:E; [exfalso; exact (Bad p eq_refl)|discriminate|discriminate].
    - destruct (frame_col c) as [p| |]; cbn [obind]; [|discriminate|discriminate]. destruct (mapo frame_col cols') as [cs'| |] eqn:E; cbn [obind]; [|discriminate|discriminate]. exfalso. eapply IH; [exact Hc|exact Bad|reflexivity]. }
  destruct (mapo frame_col cols') as [cs| |] eqn:E2; cbn [obind]; [exfalso; exact (X cs eq_refl)|left; reflexivity|right; reflexivity].
Qed.

(** ** Examples *)
(** 1'000_000u; -4.5e-3f; a path with an escaped backslash in front of n; a=-5 as an argument. *)
Theorem C85_example :
  visit_literal [49; 39; 48; 48; 48; 95; 48; 48; 48; 117] = Ok (CInt UI64 1000000) /\
  visit_literal [52; 46; 53; 101; 45; 51; 102] = Ok (CFlt F32 false 45 (-4)) /\
  visit_literal (quoted [Pl 67; Es 92; Pl 110]) = Ok (CStr [67; 92; 10]) /\
  visit_literal (quoted [Pl 67; Es 92; Es 92; Pl 65; Es 110]) = Ok (CStr [67; 92; 92; 65; 10]) /\
  (let* m := script_args [[97; 61; 45; 53]] [[98; 61; 49; 44; 99; 61; 116; 114; 117; 101]] in arg_expr m [97]) = Ok (CInt SI64 (-5)) /\
  matrix_literal [mkEl SI64 true (Num one); mkEl F64 false (Num (3 * one)); mkEl SI64 true (Num (5 * one)); mkEl B1 false (Num one)] (Some 2%Z) None
    = Ok (F64, (2%Z, 2%Z, [Num one; Num (3 * one); Num (5 * one); Num one])).
Proof. repeat split; vm_compute; reflexivity. Qed.
Theorem C85_float_example : floating [52; 46; 53; 101; 45; 51] ((inject_Z 4 + inject_Z 5 * inject_Z 10 ^ (-1)) * inject_Z 10 ^ (-3)).
Proof.
  assert (D : forall d, d < 10 -> d <> 0 -> numeral [48 + d] (Z.of_nat d)) by (intros d H N; exists 1; split; [apply digs_one, H|right; cbn; intros [= X]; lia]).
  apply (fl_frac_exp [52] 4 [53] 5 1 [45; 51] (-3) 101); [exact (D 4 ltac:(lia) ltac:(lia))|exact (digs_one 5 ltac:(lia))| |left; reflexivity].
  exists [51], 3%Z. split; [exact (D 3 ltac:(lia) ltac:(lia))|]. split; [set_solver|]. split; [set_solver|]. right. right. split; reflexivity.
Qed.

Print Assumptions C85_int.
Print Assumptions C85_all_integers.
Print Assumptions C85_float.
Print Assumptions C85_string.
Print Assumptions C85_string_refuted.
Print Assumptions C85_args.
Print Assumptions C85_matrix.
Print Assumptions C85_frame.
