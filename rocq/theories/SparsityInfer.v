(** C82: the sparsity and symmetry the compiler infers, and sparsity(). *)
From stdpp Require Import base numbers list.
From Coq Require Import ZArith QArith Qcanon Lia.
From Verif Require Import CppBase SparsityModel SparsitySpec SparsityProofs.
Open Scope Z_scope.

Section shapes.
Context (rk ck : exp -> bool).

Lemma call_eq e : sparsity_call rk ck e = sparsity_of rk ck e.
Proof. unfold sparsity_call. destruct (decide _) as [H|H]; [reflexivity|]. destruct (decide (sparsity_of rk ck e = unknown)) as [E|E]; [rewrite E; reflexivity|contradiction]. Qed.
Lemma exact_call e : exact_exp rk e -> sparsity_call rk ck e = fraction (eval e).
Proof. rewrite call_eq. apply exact_sound. Qed.
Lemma exact_known e : exact_exp rk e -> sparsity_of rk ck e <> unknown.
Proof. intros H. rewrite (exact_sound rk ck e H). apply not_unknown, fraction_ge0, (exact_cells rk e H). Qed.

(** For literals, files with the right number of non-zeros, random matrices,
    diagonal matrices of vectors of known length, transposed and reshaped ones,
    sparsity() is exactly the fraction of non-zero cells. *)
Theorem C82_exact e : exact_exp rk e -> sparsity_call rk ck e = fraction (eval e).
Proof. apply exact_call. Qed.

(** Outer products as well. *)
Lemma rsum_scale f g c : forall n lo, (forall i, g i = f i * c)%nat -> rsum g lo n = (rsum f lo n * c)%nat.
Proof. induction n as [|n IH]; intros lo H; [reflexivity|]. cbn [rsum]. rewrite (IH (S lo) H), H. lia. Qed.
Lemma nnz_outer a b : nc (eval a) = 1%nat -> nr (eval b) = 1%nat -> nnz (eval (MatMulE a b)) = (nnz (eval a) * nnz (eval b))%nat.
Proof.
  intros Ca Rb. rewrite !nnz_rows. rewrite Rb. cbn [eval nr rsum]. rewrite Nat.add_0_r.
  apply rsum_scale. intros i. unfold row_nnz. cbn [nc cell]. rewrite Ca.
  cbn [dot seq]. rewrite filter_cons. destruct (decide (cell (eval a) i 0 <> 0)) as [N|N].
  - rewrite filter_nil. cbn [length]. rewrite Nat.mul_1_l. f_equal. apply list_filter_iff. intros j. split; nia.
  - rewrite filter_nil. cbn [length]. rewrite Nat.mul_0_l.
    assert (E : cell (eval a) i 0%nat = 0) by lia. rewrite E.
    generalize (seq 0 (nc (eval b))). intros l. induction l as [|x l IH]; [reflexivity|]. rewrite filter_cons, decide_False by lia. exact IH.
Qed.
Theorem C82_outer_product a b : exact_exp rk a -> exact_exp rk b -> nc (eval a) = 1%nat -> nr (eval b) = 1%nat ->
  ck a = true \/ rk b = true ->
  sparsity_call rk ck (MatMulE a b) = fraction (eval (MatMulE a b)).
Proof.
  intros Ha Hb Ca Rb K. rewrite call_eq. cbn [sparsity_of]. unfold mm_sparsity.
  rewrite decide_False by (intros [E|E]; [exact (exact_known a Ha E)|exact (exact_known b Hb E)]).
  assert (Ek : match k_cols ck a with Some k => Some k | None => k_rows rk b end = Some 1%nat).
  { unfold k_cols, k_rows. rewrite Ca, Rb. destruct (ck a); [reflexivity|]. destruct K as [K|K]; [discriminate K|rewrite K; reflexivity]. }
  rewrite Ek. cbn [qpow]. rewrite qz_1, (exact_sound rk ck a Ha), (exact_sound rk ck b Hb).
  destruct (exact_cells rk a Ha) as [A1 A2]. destruct (exact_cells rk b Hb) as [B1 B2].
  unfold fraction. rewrite nnz_outer by assumption. cbn [eval nr nc]. rewrite Ca, Rb. rewrite !qn_mul. change (qn 1) with 1%Qc.
  field. repeat split; apply qn_pos; assumption.
Qed.

(** If the arguments are proper, sparsity() is -1 or a fraction. *)
Theorem C82_range e : proper rk e -> sparsity_call rk ck e = qz (-1) \/ (qz 0 <= sparsity_call rk ck e <= qz 1)%Qc.
Proof. rewrite call_eq. intros H. exact (range_sound rk ck e H). Qed.

(** The estimate for an elementwise product is the average of the fraction of
    non-zeros over all ways to place the non-zeros of the second argument. *)
Theorem C82_product_average a b Bs :
  exact_exp rk a -> exact_exp rk b -> nr (eval b) = nr (eval a) -> nc (eval b) = nc (eval a) ->
  all_placements (nr (eval a)) (nc (eval a)) (nnz (eval b)) Bs ->
  total (map (fun B => fraction (eval (MulE a (Other B)))) Bs) = (qn (length Bs) * sparsity_call rk ck (MulE a b))%Qc.
Proof.
  intros Ha Hb R C P. rewrite call_eq. cbn [sparsity_of]. unfold ew_either.
  rewrite decide_True by (split; apply exact_known; assumption).
  rewrite (exact_sound rk ck a Ha), (exact_sound rk ck b Hb). unfold fraction. rewrite R, C.
  set (A := eval a) in *. set (N := (nr A * nc A)%nat).
  assert (HN : (0 < N)%nat) by (destruct (exact_cells rk a Ha); unfold N, A in *; nia).
  rewrite (map_ext_in _ (fun B => qn (trues (band (pattern A) (pattern B))) / qn N)%Qc).
  2:{ intros B HB. apply elem_of_list_In in HB. destruct P as [P _]. destruct (P B HB) as (R' & C' & _). cbn [eval]. fold A. unfold nnz.
      rewrite pattern_mul by congruence. reflexivity. }
  rewrite total_frac.
  destruct (placements_sum _ _ _ _ (fun p => trues (band (pattern A) p)) P) as [E1 E2]. rewrite E1, E2.
  pose proof (both_avg (pattern A) (nnz (eval b))) as E. rewrite pattern_length in E. fold N in E. fold N.
  change (trues (pattern A)) with (nnz A) in E. apply (f_equal qn) in E. rewrite !qn_mul in E.
  pose proof (qn_pos N HN) as NN.
  replace (qn (nsum (map (fun p => trues (band (pattern A) p)) (pats N (nnz (eval b))))))
    with (qn (nnz A) * qn (nnz (eval b)) * qn (length (pats N (nnz (eval b)))) / qn N)%Qc by (rewrite <- E; field; exact NN).
  field. exact NN.
Qed.

(** The estimate for a sum is the average as well, if nothing cancels out. *)
Theorem C82_sum_average a b Bs :
  exact_exp rk a -> exact_exp rk b -> nr (eval b) = nr (eval a) -> nc (eval b) = nc (eval a) ->
  nonneg (eval a) -> (forall B, B ∈ Bs -> nonneg B) ->
  all_placements (nr (eval a)) (nc (eval a)) (nnz (eval b)) Bs ->
  total (map (fun B => fraction (eval (AddE a (Other B)))) Bs) = (qn (length Bs) * sparsity_call rk ck (AddE a b))%Qc.
Proof.
  intros Ha Hb R C NA NB P. rewrite call_eq. cbn [sparsity_of]. unfold ew_both.
  rewrite decide_True by (split; apply exact_known; assumption).
  rewrite (exact_sound rk ck a Ha), (exact_sound rk ck b Hb). unfold fraction. rewrite R, C.
  set (A := eval a) in *. set (N := (nr A * nc A)%nat).
  assert (HN : (0 < N)%nat) by (destruct (exact_cells rk a Ha); unfold N, A in *; nia).
  rewrite (map_ext_in _ (fun B => qn (trues (bor (pattern A) (pattern B))) / qn N)%Qc).
  2:{ intros B HB. apply elem_of_list_In in HB. pose proof (NB B HB). destruct P as [P _]. destruct (P B HB) as (R' & C' & _). cbn [eval]. fold A. unfold nnz.
      rewrite pattern_add by (congruence || assumption). reflexivity. }
  rewrite total_frac.
  destruct (placements_sum _ _ _ _ (fun p => trues (bor (pattern A) p)) P) as [E1 E2]. rewrite E1, E2.
  pose proof (either_avg (pattern A) (nnz (eval b))) as E. rewrite pattern_length in E. fold N in E. fold N.
  change (trues (pattern A)) with (nnz A) in E. apply (f_equal qn) in E. rewrite qn_add, !qn_mul, qn_add in E.
  pose proof (qn_pos N HN) as NN.
  set (S := qn (nsum _)) in *. set (L := qn (length _)) in *. set (x := qn (nnz A)) in *. set (y := qn (nnz (eval b))) in *. set (q := qn N) in *.
  assert (E' : S = ((q * (x + y) * L - x * y * L) / q)%Qc).
  { replace (q * (x + y) * L - x * y * L)%Qc with (q * S)%Qc by (rewrite <- E; ring). field. exact NN. }
  rewrite E'. field. exact NN.
Qed.

(** A matrix is inferred to be symmetric, or not to be, only if that is so. *)
Theorem C82_symmetry e :
  (symmetric_of rk ck e = BTrue -> symmetric (eval e)) /\ (symmetric_of rk ck e = BFalse -> ~ symmetric (eval e)).
Proof. apply sym_sound. Qed.

(** * Where sparsity() is not the fraction of non-zeros *)
(** Whenever nothing is inferred, sparsity() is -1, which is never right. *)
Theorem C82_unknown_refuted v n m : (0 < n)%nat -> (0 < m)%nat ->
  sparsity_call rk ck (FillE v n m) = qz (-1) /\ fraction (eval (FillE v n m)) <> qz (-1).
Proof.
  intros Hn Hm. rewrite call_eq. split; [reflexivity|]. apply not_unknown, fraction_ge0. split; assumption.
Qed.

(** What is unknown stays unknown in sums, products of matrices, and all operations
    with one argument except diagonal matrices and branches. *)
Theorem C82_unknown_operands_refuted M a b n m z upper diag values : sparsity_call rk ck a = qz (-1) ->
  sparsity_call rk ck (Rand None M) = qz (-1) /\ sparsity_call rk ck (ReadE None M) = qz (-1) /\
  sparsity_call rk ck (Lit false M) = qz (-1) /\ sparsity_call rk ck (Other M) = qz (-1) /\
  Forall (fun e => sparsity_call rk ck e = qz (-1))
    [AddE a b; AddE b a; SubE a b; SubE b a; MatMulE a b; MatMulE b a; TransE a; ReshapeE a n m; TriE upper diag values a; MulSca a z; AddSca b z; MulE a a] /\
  sparsity_call rk ck (MulE a b) = sparsity_call rk ck b /\ sparsity_call rk ck (MulE b a) = sparsity_call rk ck b.
Proof.
  rewrite call_eq. intros U. change (qz (-1)) with unknown in *. rewrite !call_eq. split; [reflexivity|]. split; [reflexivity|]. split; [reflexivity|]. split; [reflexivity|].
  split; [|cbn [sparsity_of]; unfold ew_either; rewrite U; split].
  - repeat (apply Forall_cons; split); try apply Forall_nil_2; rewrite call_eq; cbn [sparsity_of]; unfold ew_both, ew_either, mm_sparsity, tri_sparsity; rewrite ?U;
      try reflexivity; try (rewrite decide_False by tauto; reflexivity); try (rewrite decide_True by tauto; reflexivity).
  - rewrite decide_False by tauto. rewrite decide_False by tauto.
    destruct (decide (sparsity_of rk ck b <> unknown)) as [N|N]; [reflexivity|]. destruct (decide (sparsity_of rk ck b = unknown)) as [E|E]; [symmetry; exact E|contradiction].
  - rewrite decide_False by tauto.
    destruct (decide (sparsity_of rk ck b <> unknown)) as [N|N]; [reflexivity|]. rewrite decide_False by tauto.
    destruct (decide (sparsity_of rk ck b = unknown)) as [E|E]; [symmetry; exact E|contradiction].
Qed.

Lemma qc_lt_irrefl q : ~ (q < q)%Qc.
Proof. intros H. exact (Qclt_not_eq _ _ H eq_refl). Qed.
Lemma same_pattern_fraction M N : nr M = nr N -> nc M = nc N -> (forall i j, cell M i j = 0 <-> cell N i j = 0) -> fraction M = fraction N.
Proof.
  intros R C H. unfold fraction, nnz, pattern, cells. rewrite R, C. f_equal. f_equal. f_equal. apply map_ext. intros [i j]. cbn [fst snd].
  apply bool_decide_ext. rewrite H. reflexivity.
Qed.
Lemma zero_fraction M : (forall i j, cell M i j = 0) -> fraction M = qz 0.
Proof.
  intros H. unfold fraction. rewrite nnz_filter.
  assert (E : filter (fun p : nat * nat => cell M (fst p) (snd p) <> 0) (cells M) = []).
  { generalize (cells M). intros l. induction l as [|x l IH]; [reflexivity|]. rewrite filter_cons, decide_False by (rewrite H; lia). exact IH. }
  rewrite E. cbn [length]. change (qn 0) with 0%Qc. rewrite qz_0. unfold Qcdiv. ring.
Qed.

(** Operations on the same matrix are not independent: for every matrix with some
    zeros and some non-zeros, X + X is said to have more, X * X fewer and X - X
    and X * 0 more non-zeros than they have. *)
Theorem C82_dependent_refuted e : exact_exp rk e -> (qz 0 < fraction (eval e) < qz 1)%Qc ->
  (fraction (eval (AddE e e)) < sparsity_call rk ck (AddE e e))%Qc /\
  (sparsity_call rk ck (MulE e e) < fraction (eval (MulE e e)))%Qc /\
  (fraction (eval (SubE e e)) < sparsity_call rk ck (SubE e e))%Qc /\
  (fraction (eval (MulSca e 0)) < sparsity_call rk ck (MulSca e 0))%Qc.
Proof.
  intros He [H0 H1]. rewrite qz_0 in H0. rewrite qz_1 in H1. rewrite !call_eq. cbn [sparsity_of].
  pose proof (exact_known e He) as K. unfold ew_both, ew_either.
  rewrite !(decide_True (P := sparsity_of rk ck e <> unknown /\ sparsity_of rk ck e <> unknown)) by (split; exact K).
  rewrite decide_False by tauto. rewrite decide_True by exact K. rewrite (exact_sound rk ck e He).
  rewrite (same_pattern_fraction (eval (AddE e e)) (eval e)) by (try reflexivity; cbn [eval cell]; intros; lia).
  rewrite (same_pattern_fraction (eval (MulE e e)) (eval e)) by (try reflexivity; cbn [eval cell]; intros; nia).
  rewrite (zero_fraction (eval (SubE e e))) by (cbn [eval cell]; intros; lia).
  rewrite (zero_fraction (eval (MulSca e 0))) by (cbn [eval cell]; intros; lia). rewrite qz_0.
  set (s := fraction (eval e)) in *.
  assert (D : (0 < s * (1 - s))%Qc).
  { replace 0%Qc with (0 * (1 - s))%Qc by ring. apply Qcmult_lt_compat_r; [|exact H0]. apply (proj1 (Qclt_minus_iff s 1)), H1. }
  assert (P : (s < s + s - s * s)%Qc).
  { apply Qclt_minus_iff. replace (s + s - s * s + - s)%Qc with (s * (1 - s))%Qc by ring. exact D. }
  split; [exact P|]. split; [|split; [|exact H0]].
  - apply Qclt_minus_iff. replace (s + - (s * s))%Qc with (s * (1 - s))%Qc by ring. exact D.
  - eapply Qclt_trans; [exact H0|exact P].
Qed.

Lemma nnz_lt M i j : (i < nr M)%nat -> (j < nc M)%nat -> cell M i j = 0 -> (nnz M < nr M * nc M)%nat.
Proof.
  intros Hi Hj Hz. rewrite <- cells_length, nnz_filter.
  assert (G : forall l : list (nat * nat), (i, j) ∈ l -> (length (filter (fun p : nat * nat => cell M (fst p) (snd p) <> 0%Z) l) < length l)%nat).
  { induction l as [|x l IH]; intros Hl; [apply elem_of_nil in Hl as []|]. rewrite filter_cons.
    pose proof (filter_length (fun p : nat * nat => cell M (fst p) (snd p) <> 0) l) as LE.
    apply elem_of_cons in Hl as [<-|Hl].
    - rewrite decide_False by (cbn [fst snd]; lia). cbn [length]. lia.
    - specialize (IH Hl). destruct (decide _); cbn [length]; lia. }
  apply G. apply elem_cells. split; assumption.
Qed.
(** A sequence is said to have no zeros; seq(0, 9, 1) has one. *)
Theorem C82_seq_refuted M i j : (i < nr M)%nat -> (j < nc M)%nat -> cell M i j = 0 ->
  sparsity_call rk ck (SeqE M) = qz 1 /\ (fraction (eval (SeqE M)) < qz 1)%Qc.
Proof.
  intros Hi Hj Hz. rewrite call_eq. split; [reflexivity|]. cbn [eval]. pose proof (nnz_lt M i j Hi Hj Hz) as L.
  destruct (Qcle_lt_or_eq _ _ (frac_le1 (nnz M) (nr M * nc M) ltac:(nia) ltac:(lia))) as [?|E]; [assumption|].
  exfalso. replace 1%Qc with (qn 1 / qn 1)%Qc in E by reflexivity. apply frac_eq in E; nia.
Qed.

(** The diagonal matrix of a vector of unknown sparsity is taken to have a full
    diagonal; if the length is not known either, the sparsity is negative. *)
Theorem C82_diag_refuted k e : (0 < k)%nat -> rk (FillE 0 k 1) = true ->
  exact_exp rk e -> rk e = false ->
  (sparsity_call rk ck (DiagE (FillE 0 k 1)) = qn 1 / qn k /\ fraction (eval (DiagE (FillE 0 k 1))) = qz 0)%Qc /\
  sparsity_call rk ck (DiagE e) = (- fraction (eval e))%Qc.
Proof.
  intros Hk K He Ke. rewrite !call_eq. cbn [sparsity_of]. unfold diag_sparsity, k_rows. rewrite K, Ke.
  rewrite decide_True by reflexivity. rewrite (decide_False (P := sparsity_of rk ck e = unknown)) by (apply exact_known, He).
  split; [split; [reflexivity|]|].
  - apply zero_fraction. intros i j. cbn [eval cell]. destruct (decide _); reflexivity.
  - rewrite (exact_sound rk ck e He). change (qz (-1)) with (- (1))%Qc. field. intros E; discriminate E.
Qed.

(** Triangular parts of a full square matrix are said to have half of the cells,
    with or without the diagonal: never right. *)
Definition ones (n : nat) : mat := mkMat n n (fun _ _ => 1).
Definition d1 (b : bool) : nat := if b then 1%nat else 0%nat.
Lemma count_lower d i n : length (filter (fun j => (if in_tri false d i j then 1 else 0) <> 0) (seq 0 n)) = Nat.min n (i + d1 d).
Proof.
  induction n as [|n IH]; [reflexivity|]. rewrite seq_S, filter_app, app_length, IH. cbn [Nat.add]. rewrite filter_cons, filter_nil.
  unfold in_tri. destruct (Nat.ltb_spec n i), (Nat.eqb_spec i n), d; cbn [orb andb d1];
    try (rewrite decide_True by lia); try (rewrite decide_False by lia); cbn [length]; lia.
Qed.
Lemma count_upper d i n : length (filter (fun j => (if in_tri true d i j then 1 else 0) <> 0) (seq 0 n)) = (n - (i + 1 - d1 d))%nat.
Proof.
  induction n as [|n IH]; [reflexivity|]. rewrite seq_S, filter_app, app_length, IH. cbn [Nat.add]. rewrite filter_cons, filter_nil.
  unfold in_tri. destruct (Nat.ltb_spec i n), (Nat.eqb_spec i n), d; cbn [orb andb d1];
    try (rewrite decide_True by lia); try (rewrite decide_False by lia); cbn [length]; lia.
Qed.
Lemma rsum_lower n d k : forall lo, (lo + k <= n)%nat -> (2 * rsum (fun i => Nat.min n (i + d1 d)) lo k = k * (2 * lo + k - 1 + 2 * d1 d))%nat.
Proof.
  induction k as [|k IH]; intros lo H; [reflexivity|]. cbn [rsum]. rewrite Nat.mul_add_distr_l, IH by lia.
  rewrite Nat.min_r by (destruct d; cbn [d1]; lia). destruct d; cbn [d1]; nia.
Qed.
Lemma rsum_upper n d k : forall lo, (lo + k = n)%nat -> (2 * rsum (fun i => n - (i + 1 - d1 d)) lo k = k * (k - 1 + 2 * d1 d))%nat.
Proof.
  induction k as [|k IH]; intros lo H; [reflexivity|]. cbn [rsum]. rewrite Nat.mul_add_distr_l, IH by lia.
  destruct d; cbn [d1]; nia.
Qed.
Lemma rsum_ext f g n : forall lo, (forall i, f i = g i) -> rsum f lo n = rsum g lo n.
Proof. induction n as [|n IH]; intros lo H; [reflexivity|]. cbn [rsum]. rewrite H, (IH (S lo) H). reflexivity. Qed.
Lemma filter_len_ext {A} (P Q : A -> Prop) `{forall x, Decision (P x)} `{forall x, Decision (Q x)} l :
  (forall x, P x <-> Q x) -> length (filter P l) = length (filter Q l).
Proof.
  intros E. induction l as [|x l IH]; [reflexivity|]. rewrite !filter_cons.
  destruct (decide (P x)) as [HP|HP], (decide (Q x)) as [HQ|HQ]; cbn [length]; rewrite ?IH; try reflexivity; exfalso; rewrite E in HP; contradiction.
Qed.
Lemma nnz_tri_ones n up d v : (2 * nnz (eval (TriE up d v (Lit true (ones n)))) = n * (n - 1 + 2 * d1 d))%nat.
Proof.
  rewrite nnz_rows. cbn [eval nr nc ones].
  destruct up.
  - rewrite (rsum_ext _ (fun i => n - (i + 1 - d1 d))%nat); [apply rsum_upper; lia|]. intros i. rewrite <- count_upper. unfold row_nnz. cbn [nc cell ones].
    apply filter_len_ext. intros j. destruct v; reflexivity.
  - rewrite (rsum_ext _ (fun i => Nat.min n (i + d1 d))).
    + rewrite rsum_lower by lia. destruct n; lia.
    + intros i. rewrite <- count_lower. unfold row_nnz. cbn [nc cell ones]. apply filter_len_ext. intros j. destruct v; reflexivity.
Qed.
Lemma nnz_ones n : nnz (ones n) = (n * n)%nat.
Proof.
  unfold nnz, pattern. rewrite (map_ext _ (fun _ => true)) by reflexivity.
  change (n * n)%nat with (nr (ones n) * nc (ones n))%nat. rewrite <- cells_length. generalize (cells (ones n)). intros l.
  induction l as [|x l IH]; [reflexivity|]. cbn [map]. rewrite trues_cons, IH. reflexivity.
Qed.
Theorem C82_tri_refuted n upper diag values : (0 < n)%nat ->
  sparsity_call rk ck (TriE upper diag values (Lit true (ones n))) = (qn 1 / qn 2)%Qc /\
  fraction (eval (TriE upper diag values (Lit true (ones n)))) = (qn (if diag then n + 1 else n - 1) / qn (2 * n))%Qc /\
  sparsity_call rk ck (TriE upper diag values (Lit true (ones n))) <> fraction (eval (TriE upper diag values (Lit true (ones n)))).
Proof.
  intros Hn. rewrite call_eq. cbn [sparsity_of]. unfold tri_sparsity. rewrite lit_exact.
  assert (E1 : fraction (ones n) = 1%Qc).
  { unfold fraction. rewrite nnz_ones. cbn [nr nc ones]. field. apply qn_pos. nia. }
  rewrite E1. rewrite decide_False by (apply in01_known, in01_1).
  assert (E2 : fraction (eval (TriE upper diag values (Lit true (ones n)))) = (qn (if diag then n + 1 else n - 1) / qn (2 * n))%Qc).
  { unfold fraction. pose proof (nnz_tri_ones n upper diag values) as E. set (z := nnz _) in *. cbn [eval nr nc ones].
    apply frac_eq; [nia|lia|]. destruct diag; cbn [d1] in E; nia. }
  split; [reflexivity|]. split; [exact E2|]. rewrite E2. change (1 / qz 2)%Qc with (qn 1 / qn 2)%Qc. rewrite frac_eq by lia.
  destruct diag; lia.
Qed.

(** After an if-then-else, a sparsity of less than 1 in both branches becomes 0,
    whatever the fractions are, even if they are the same. *)
Theorem C82_branches_refuted c a b : exact_exp rk a -> exact_exp rk b ->
  (fraction (eval a) < qz 1)%Qc -> (fraction (eval b) < qz 1)%Qc ->
  sparsity_call rk ck (IfE c a b) = qz 0.
Proof.
  intros Ha Hb La Lb. rewrite call_eq. cbn [sparsity_of]. unfold merge_sparsity.
  rewrite (exact_sound rk ck a Ha), (exact_sound rk ck b Hb).
  assert (T : forall e, exact_exp rk e -> (fraction (eval e) < qz 1)%Qc -> to_ssize (fraction (eval e)) = 0).
  { intros e He Le. destruct (to_ssize_01 (fraction (eval e))) as [T _].
    - split; [apply fraction_ge0, (exact_cells rk e He)|apply Qclt_le_weak, Le].
    - apply T. intros E. rewrite E in Le. exact (qc_lt_irrefl _ Le). }
  rewrite (T a Ha La), (T b Hb Lb). rewrite decide_True by reflexivity. reflexivity.
Qed.
(** What does hold of them: branches that are both full, or both unknown. *)
Theorem C82_branches c a b : exact_exp rk a -> exact_exp rk b -> fraction (eval a) = qz 1 -> fraction (eval b) = qz 1 ->
  sparsity_call rk ck (IfE c a b) = fraction (eval (IfE c a b)).
Proof.
  intros Ha Hb Fa Fb. rewrite call_eq. cbn [sparsity_of]. unfold merge_sparsity.
  rewrite (exact_sound rk ck a Ha), (exact_sound rk ck b Hb), Fa, Fb. cbn [eval]. destruct c; [rewrite Fa|rewrite Fb]; reflexivity.
Qed.

(** The estimate for products of matrices is not exact: the square of the identity
    is said to have 7/16 of its cells non-zero. *)
Definition identity (n : nat) : mat := mkMat n n (fun i j => if (i =? j)%nat then 1 else 0).
Theorem C82_matmul_refuted : ck (Lit true (identity 2)) = true ->
  sparsity_call rk ck (MatMulE (Lit true (identity 2)) (Lit true (identity 2))) = (qn 7 / qn 16)%Qc /\
  fraction (eval (MatMulE (Lit true (identity 2)) (Lit true (identity 2)))) = (qn 1 / qn 2)%Qc.
Proof.
  intros K. rewrite call_eq. cbn [sparsity_of]. unfold k_cols. rewrite K. split; apply Qc_is_canon; vm_compute; reflexivity.
Qed.

(** * Cases that meet the hypotheses *)
Definition v3 : mat := mkMat 3 1 (fun i _ => if (i =? 1)%nat then 0 else 5).
Example C82_exact_case : rk (Lit true v3) = true ->
  exact_exp rk (ReshapeE (TransE (DiagE (Lit true v3))) 1 9) /\
  sparsity_call rk ck (ReshapeE (TransE (DiagE (Lit true v3))) 1 9) = (qn 2 / qn 9)%Qc.
Proof.
  intros K. assert (E : exact_exp rk (ReshapeE (TransE (DiagE (Lit true v3))) 1 9)).
  { apply ex_reshape; [|reflexivity]. apply ex_trans, ex_diag; [|exact K|reflexivity]. apply ex_lit. split; cbn; lia. }
  split; [exact E|]. rewrite (C82_exact _ E). apply Qc_is_canon. vm_compute. reflexivity.
Qed.
Definition row (a b c : Z) : mat := mkMat 1 3 (fun _ j => match j with 0%nat => a | 1%nat => b | _ => c end).
Definition pairs3 : list mat := [row 1 2 0; row 3 0 1; row 0 1 7].
Example C82_average_case :
  all_placements 1 3 2 pairs3 /\ (forall B, B ∈ pairs3 -> nonneg B) /\
  total (map (fun B => fraction (eval (MulE (Lit true (row 0 4 4)) (Other B)))) pairs3) = (qn 4 / qn 3)%Qc.
Proof.
  split; [split; [|split]|split].
  - intros B HB. unfold pairs3 in HB. rewrite !elem_of_cons, elem_of_nil in HB. destruct HB as [->|[->|[->|[]]]]; vm_compute; repeat split.
  - apply (bool_decide_unpack _). vm_compute. exact I.
  - intros p L T. destruct p as [|[] [|[] [|[] [|]]]]; try discriminate L; try discriminate T; vm_compute; repeat constructor.
  - intros B HB i j. unfold pairs3 in HB. rewrite !elem_of_cons, elem_of_nil in HB.
    destruct HB as [->|[->|[->|[]]]]; cbn; destruct j as [|[|]]; lia.
  - apply Qc_is_canon. vm_compute. reflexivity.
Qed.
Example C82_dependent_case : exact_exp rk (Lit true (row 0 4 4)) /\ (qz 0 < fraction (row 0 4 4) < qz 1)%Qc.
Proof. split; [apply ex_lit; split; cbn; lia|]. split; vm_compute; reflexivity. Qed.
Example C82_symmetry_case : symmetric_of (fun _ => true) (fun _ => true) (IfE false (FillE 3 4 4) (TransE (FillE 1 5 5))) = BTrue /\
  symmetric_of (fun _ => true) (fun _ => true) (FillE 3 4 5) = BFalse.
Proof. split; reflexivity. Qed.
Example C82_range_case : rk (Lit true v3) = true -> proper rk (AddE (DiagE (Lit true v3)) (MatMulE (ReadE (Some 2%nat) (identity 3)) (Rand (Some (qz 1)) (identity 3)))).
Proof.
  intros K. cbn [proper]. repeat split; try exact K; cbn; try lia; vm_compute; discriminate.
Qed.
End shapes.

Print Assumptions C82_exact.
Print Assumptions C82_outer_product.
Print Assumptions C82_range.
Print Assumptions C82_product_average.
Print Assumptions C82_sum_average.
Print Assumptions C82_symmetry.
Print Assumptions C82_unknown_refuted.
Print Assumptions C82_unknown_operands_refuted.
Print Assumptions C82_dependent_refuted.
Print Assumptions C82_seq_refuted.
Print Assumptions C82_diag_refuted.
Print Assumptions C82_tri_refuted.
Print Assumptions C82_branches_refuted.
Print Assumptions C82_branches.
Print Assumptions C82_matmul_refuted.
