(** C47-C50: reversing, diagonals, triangular parts, binding and reshaping. *)
From stdpp Require Import base numbers sorting list list_numbers.
From Coq Require Import ZArith Lia.
From Verif Require Import CppBase Mem CSRModel CSRSpec CSRProofs CSRView SparseLoops SparseSpec SinkProofs SparseBuild ReorgModel.
Local Open Scope nat_scope.

(** * Specification *)
(** Cell (r, c) lies in the upper or lower triangle, with or without the diagonal. *)
Definition in_triangle (upper diag : bool) (r c : nat) : bool :=
  if upper then bool_decide (r < c) || (diag && bool_decide (r = c)) else bool_decide (c < r) || (diag && bool_decide (r = c)).
(** Its value in the result: zero outside of the triangle; inside, the value of the argument, or one for every non-zero value. *)
Definition tri_cell {V} `{Val V} (one : V) (upper diag values : bool) (x : nat -> nat -> V) (r c : nat) : V :=
  if in_triangle upper diag r c then (if viszero (x r c) then vzero else if values then x r c else one) else vzero.
Definition diag_cell {V} `{Val V} (x : nat -> nat -> V) (r c : nat) : V := if decide (r = c) then x r 0 else vzero.
Definition above {V} (n1 : nat) (x y : nat -> nat -> V) (r c : nat) : V := if decide (r < n1) then x r c else y (r - n1) c.
Definition beside {V} (m1 : nat) (x y : nat -> nat -> V) (r c : nat) : V := if decide (c < m1) then x r c else y r (c - m1).
(** The cells in row-major order, arranged in rows of length [m'] instead of [m]. *)
Definition reshaped {V} (m m' : nat) (x : nat -> nat -> V) (r c : nat) : V := x ((r * m' + c) / m) ((r * m' + c) mod m).

(** * Dense *)
Lemma rows_copy {V} (b0 src : list V) n m (f : nat -> nat) g : length b0 = n * m -> (forall r, r < n -> f r + m <= length src) -> (forall r c, r < n -> c < m -> src !! (f r + c) = Some (g r c)) ->
  exists b, for_up 0 n (fun r b => copy_range b (r * m) src (f r) m) b0 = Ok b /\ tabulated n m g b.
Proof.
  intros Hl Hf Hg.
  match goal with |- context [for_up 0 n ?F ?s0] => destruct (for_up_inv (fun i b => length b = n * m /\ forall r c, r < i -> c < m -> b !! (r * m + c) = Some (g r c)) 0 n F s0) as (b & E & Hb) end.
  - lia.
  - split; [done|]. intros; lia.
  - intros r b Hr [Hlb Hb]. destruct (copy_range_spec b (r * m) src (f r) m) as (b' & -> & Hl' & H1 & H2); [nia|apply Hf; lia|]. eexists. split; [done|]. split; [lia|]. intros r' c Hr' Hc. destruct (decide (r' = r)) as [->|].
    + rewrite H1 by done. apply Hg; [lia|done].
    + rewrite H2 by nia. apply Hb; [lia|done].
  - exists b. split; [done|]. exact Hb.
Qed.

Lemma copy_range_spec' {V} (dst : list V) d src s n : d + n <= length dst -> n = 0 \/ s + n <= length src ->
  exists b', copy_range dst d src s n = Ok b' /\ length b' = length dst /\ (forall j, j < n -> b' !! (d + j) = src !! (s + j)) /\ (forall j, ~ (d <= j < d + n) -> b' !! j = dst !! j).
Proof. intros Hd [->|Hs]; [|by apply copy_range_spec]. exists dst. split; [done|]. split; [done|]. split; [lia|done]. Qed.

Section Dense.
  Context {V : Type} `{Val V} (junk : nat -> list V) (Hjunk : forall k, length (junk k) = k).
  Implicit Types (a u l : dmat V).
  Lemma dense_row_in a n m x r : is_dense a n m x -> r < n -> m_off a + r * m_skip a + m <= length (m_buf a).
  Proof. intros (_ & _ & _ & [->|H1] & _) Hr; [lia|]. nia. Qed.

  Lemma reverse_ok a n m x : is_dense a n m x -> 0 < m \/ m_skip a <> 1 -> exists res, reverse_dense junk a = Ok res /\ is_dense res n m (fun r c => x (n - 1 - r) c).
  Proof.
    intros Ha Hm. pose proof Ha as (Hr & Hc & Hs & Hb & Hx). unfold reverse_dense. cbv zeta. rewrite Hr, Hc. case_decide as Hd.
    - assert (Hm1 : m = 1) by lia. rewrite Hm1 in *. destruct (for_up_write (n * 1) (fun i b => let* v := rd (m_buf a) (m_off a + (n - 1 - i)) in wr b i v) (fun i => x (n - 1 - i) 0) (junk (n * 1))) as (b & E & Hl & Hb'); [done| |].
      + intros i b Hi Hl. specialize (Hx (n - 1 - i) 0 ltac:(lia) ltac:(lia)). rewrite Hd in Hx. replace (m_off a + (n - 1 - i) * 1 + 0) with (m_off a + (n - 1 - i)) in Hx by lia. by rewrite (rd_Ok _ _ _ Hx).
      + rewrite Nat.mul_1_r in E at 1. rewrite E. cbn [obind]. eexists. split; [done|]. apply tabulated_is_dense. split; [done|]. intros r c Hr' Hc'. replace c with 0 by lia. rewrite Nat.mul_1_r, Nat.add_0_r. apply Hb'. lia.
    - destruct (rows_copy (junk (n * m)) (m_buf a) n m (fun r => m_off a + (n - 1 - r) * m_skip a) (fun r c => x (n - 1 - r) c)) as (b & -> & Ht).
      + done.
      + intros r Hr'. eapply dense_row_in; [done|lia].
      + intros r c Hr' Hc'. apply Hx; lia.
      + cbn [obind]. eexists. split; [done|]. by apply tabulated_is_dense.
  Qed.

  Lemma zeros_tab n m (P : nat -> nat -> V) : (forall r c, r < n -> c < m -> P r c = vzero) -> tabulated n m P (replicate (n * m) vzero).
  Proof. intros HP. split; [apply replicate_length|]. intros r c Hr Hc. rewrite HP by done. apply lookup_replicate_2. by apply pos_lt. Qed.
  Lemma tab_set n m (P : nat -> nat -> V) b r c v : tabulated n m P b -> r < n -> c < m -> exists b', wr b (r * m + c) v = Ok b' /\ tabulated n m (fun r' c' => if decide (r' = r /\ c' = c) then v else P r' c') b'.
  Proof.
    intros [Hl Hb] Hr Hc. pose proof (pos_lt n m r c Hr Hc). rewrite wr_Ok by lia. eexists. split; [done|]. split; [by rewrite insert_length|]. intros r' c' Hr' Hc'. case_decide as Hd.
    - destruct Hd as [-> ->]. apply list_lookup_insert. lia.
    - rewrite list_lookup_insert_ne; [by apply Hb|]. intros E. apply pos_inj in E; [|done|done]. lia.
  Qed.
  Lemma tab_ext n m (P Q : nat -> nat -> V) b : tabulated n m P b -> (forall r c, r < n -> c < m -> P r c = Q r c) -> tabulated n m Q b.
  Proof. intros [Hl Hb] He. split; [done|]. intros r c Hr Hc. rewrite Hb by done. f_equal. by apply He. Qed.

  Lemma diag_matrix_ok a n x : is_dense a n 1 x -> exists res, diag_matrix_dense a = Ok res /\ is_dense res n n (diag_cell x).
  Proof.
    intros Ha. pose proof Ha as (Hr & Hc & Hs & Hb & Hx). unfold diag_matrix_dense. cbv zeta. rewrite Hr, Hc. rewrite decide_False by lia.
    match goal with |- context [for_up 0 n ?F ?s0] => destruct (for_up_inv (fun i b => tabulated n n (fun r c => if decide (r < i) then diag_cell x r c else vzero) b) 0 n F s0) as (b & E & Ht) end.
    - lia.
    - apply zeros_tab. intros r c _ _. by rewrite decide_False by lia.
    - intros r b Hr' Ht. specialize (Hx r 0 ltac:(lia) ltac:(lia)). rewrite Nat.add_0_r in Hx. rewrite (rd_Ok _ _ _ Hx). cbn [obind]. replace (r * (n + 1)) with (r * n + r) by lia. destruct (tab_set n n _ b r r (x r 0) Ht ltac:(lia) ltac:(lia)) as (b' & -> & Ht'). eexists. split; [done|]. eapply tab_ext; [exact Ht'|]. intros r' c' _ _. cbn beta. unfold diag_cell. destruct (decide (r' = r /\ c' = r)) as [[-> ->]|Hn].
      + rewrite decide_True by lia. by rewrite decide_True.
      + destruct (decide (r' < r)); [by rewrite (decide_True (P := r' < 1 + r)) by lia|]. destruct (decide (r' < 1 + r)); [|done]. by rewrite decide_False by lia.
    - rewrite E. cbn [obind]. eexists. split; [done|]. apply tabulated_is_dense. eapply tab_ext; [exact Ht|]. intros r c Hr' _. cbn beta. by rewrite decide_True.
  Qed.
  Lemma diag_vector_ok a n x : is_dense a n n x -> 0 < n -> exists res, diag_vector_dense junk a = Ok res /\ is_dense res n 1 (fun r _ => x r r).
  Proof.
    intros Ha Hn. pose proof Ha as (Hr & Hc & Hs & Hb & Hx). unfold diag_vector_dense. cbv zeta. rewrite Hr, Hc. rewrite decide_False by tauto. rewrite decide_False by lia.
    destruct (for_up_write (n * 1) (fun r b => let* v := rd (m_buf a) (m_off a + (r + r * m_skip a)) in wr b r v) (fun i => x i i) (junk (n * 1))) as (b & E & Hl & Hb'); [done| |].
    - intros i b Hi Hl. specialize (Hx i i ltac:(lia) ltac:(lia)). replace (m_off a + i * m_skip a + i) with (m_off a + (i + i * m_skip a)) in Hx by lia. by rewrite (rd_Ok _ _ _ Hx).
    - rewrite Nat.mul_1_r in E at 1. rewrite E. cbn [obind]. eexists. split; [done|]. apply tabulated_is_dense. split; [done|]. intros r c Hr' Hc'. replace c with 0 by lia. rewrite Nat.mul_1_r, Nat.add_0_r. apply Hb'. lia.
  Qed.
  Lemma in_tri_bounds upper diag n r c : r < n -> c < n -> in_triangle upper diag r c = bool_decide (tri_start upper diag r <= c < tri_end upper diag n r).
  Proof.
    intros Hr Hc. unfold in_triangle, tri_start, tri_end. destruct upper, diag; cbn [andb orb]; rewrite ?orb_false_r; apply bool_decide_ext || (rewrite <- bool_decide_or; apply bool_decide_ext); lia.
  Qed.
  Lemma tri_dense_ok one upper diag values a n x : is_dense a n n x -> exists res, tri_dense one upper diag values a = Ok res /\ is_dense res n n (tri_cell one upper diag values x).
  Proof.
    intros Ha. pose proof Ha as (Hr & Hc & Hs & Hb & Hx). unfold tri_dense. cbv zeta. rewrite Hr, Hc. rewrite decide_False by tauto.
    match goal with |- context [for_up 0 n ?F ?s0] => destruct (for_up_inv (fun i b => tabulated n n (fun r c => if decide (r < i) then tri_cell one upper diag values x r c else vzero) b) 0 n F s0) as (b & E & Ht) end.
    - lia.
    - apply zeros_tab. intros r c _ _. by rewrite decide_False by lia.
    - intros r b Hr' Ht. set (st := tri_start upper diag r). set (en := tri_end upper diag n r). assert (Hen : en <= n) by (unfold en, tri_end; destruct upper, diag; lia).
      destruct (decide (st <= en)) as [Hse|Hse].
      + match goal with |- context [for_up st en ?F ?s0] => destruct (for_up_inv (fun j b => tabulated n n (fun r' c' => if decide (r' < r \/ r' = r /\ c' < j) then tri_cell one upper diag values x r' c' else vzero) b) st en F s0) as (b' & -> & Ht') end.
        * done.
        * eapply tab_ext; [exact Ht|]. intros r' c' _ Hc'. cbn beta. destruct (decide (r' < r)); [by rewrite decide_True by lia|]. destruct (decide (r' < r \/ r' = r /\ c' < st)) as [Hd|]; [|done]. unfold tri_cell. rewrite (in_tri_bounds _ _ n) by lia. rewrite bool_decide_eq_false_2; [done|]. replace r' with r by lia. fold st. lia.
        * intros c b' Hc' Ht'. rewrite (rd_Ok _ _ _ (Hx r c ltac:(lia) ltac:(lia))). cbn [obind]. assert (Hin : in_triangle upper diag r c = true) by (rewrite (in_tri_bounds _ _ n) by lia; apply bool_decide_eq_true_2; fold st en; lia). destruct (viszero (x r c)) eqn:Ez.
          -- eexists. split; [done|]. eapply tab_ext; [exact Ht'|]. intros r' c' _ _. cbn beta. destruct (decide (r' < r \/ r' = r /\ c' < c)); [by rewrite decide_True by lia|]. destruct (decide (r' < r \/ r' = r /\ c' < 1 + c)); [|done]. replace r' with r by lia. replace c' with c by lia. unfold tri_cell. by rewrite Hin, Ez.
          -- destruct (tab_set n n _ b' r c (if values then x r c else one) Ht' ltac:(lia) ltac:(lia)) as (b'' & -> & Ht''). eexists. split; [done|]. eapply tab_ext; [exact Ht''|]. intros r' c' _ _. cbn beta. destruct (decide (r' = r /\ c' = c)) as [[-> ->]|].
             ++ rewrite decide_True by lia. unfold tri_cell. by rewrite Hin, Ez.
             ++ destruct (decide (r' < r \/ r' = r /\ c' < c)); [by rewrite decide_True by lia|by rewrite decide_False by lia].
        * eexists. split; [done|]. eapply tab_ext; [exact Ht'|]. intros r' c' _ Hc'. cbn beta. destruct (decide (r' < r \/ r' = r /\ c' < en)); [by rewrite decide_True by lia|]. destruct (decide (r' < 1 + r)); [|done]. unfold tri_cell. rewrite (in_tri_bounds _ _ n) by lia. rewrite bool_decide_eq_false_2; [done|]. replace r' with r by lia. fold en. lia.
      + unfold for_up. replace (en - st) with 0 by lia. cbn [forn]. eexists. split; [done|]. eapply tab_ext; [exact Ht|]. intros r' c' _ Hc'. cbn beta. destruct (decide (r' < r)); [by rewrite decide_True by lia|]. destruct (decide (r' < 1 + r)); [|done]. unfold tri_cell. rewrite (in_tri_bounds _ _ n) by lia. rewrite bool_decide_eq_false_2; [done|]. replace r' with r by lia. fold st en. lia.
    - rewrite E. cbn [obind]. eexists. split; [done|]. apply tabulated_is_dense. eapply tab_ext; [exact Ht|]. intros r c Hr' _. cbn beta. by rewrite decide_True.
  Qed.
  Lemma row_bind_ok u l n1 n2 m x y : is_dense u n1 m x -> is_dense l n2 m y -> (m_skip u = m \/ n1 <= 1) -> (m_skip l = m \/ n2 <= 1) -> exists res, row_bind_dense junk u l = Ok res /\ is_dense res (n1 + n2) m (above n1 x y).
  Proof.
    intros (Hr1 & Hc1 & Hs1 & Hb1 & Hx) (Hr2 & Hc2 & Hs2 & Hb2 & Hy) Hk1 Hk2. unfold row_bind_dense. cbv zeta. rewrite Hr1, Hc1, Hr2, Hc2. rewrite decide_False by tauto.
    destruct (copy_range_spec' (junk ((n1 + n2) * m)) 0 (m_buf u) (m_off u) (m * n1)) as (b1 & -> & Hl1 & F1 & G1).
    { rewrite Hjunk. nia. } { destruct Hb1 as [->|Hb1]; [left; lia|right]. destruct Hk1 as [Hk1|Hk1]; [rewrite Hk1 in Hb1; nia|destruct n1 as [|[|]]; nia]. }
    cbn [obind]. rewrite Hjunk in *.
    destruct (copy_range_spec' b1 (n1 * m) (m_buf l) (m_off l) (m * n2)) as (b2 & -> & Hl2 & F2 & G2).
    { nia. } { destruct Hb2 as [->|Hb2]; [left; lia|right]. destruct Hk2 as [Hk2|Hk2]; [rewrite Hk2 in Hb2; nia|destruct n2 as [|[|]]; nia]. }
    cbn [obind]. eexists. split; [done|]. apply tabulated_is_dense. split; [lia|]. intros r c Hr Hc. unfold above. case_decide as Hd.
    - rewrite G2 by nia. change (r * m + c) with (0 + (r * m + c)). rewrite F1 by nia. rewrite <- (Hx r c) by done. f_equal. destruct Hk1 as [Hk1|Hk1]; [rewrite Hk1; lia|]. replace r with 0 by lia. lia.
    - replace (r * m + c) with (n1 * m + ((r - n1) * m + c)) by nia. rewrite F2 by nia. rewrite <- (Hy (r - n1) c) by lia. f_equal. destruct Hk2 as [Hk2|Hk2]; [rewrite Hk2; lia|]. replace (r - n1) with 0 by lia. lia.
  Qed.
  Lemma col_bind_ok u l n m1 m2 x y : is_dense u n m1 x -> is_dense l n m2 y -> exists res, col_bind_dense junk u l = Ok res /\ is_dense res n (m1 + m2) (beside m1 x y).
  Proof.
    intros Hu Hv. pose proof Hu as (Hr1 & Hc1 & Hs1 & Hb1 & Hx). pose proof Hv as (Hr2 & Hc2 & Hs2 & Hb2 & Hy). unfold col_bind_dense. cbv zeta. rewrite Hr1, Hc1, Hr2, Hc2. rewrite decide_False by tauto.
    match goal with |- context [for_up 0 n ?F ?s0] => destruct (for_up_inv (fun i b => length b = n * (m1 + m2) /\ forall r c, r < i -> c < m1 + m2 -> b !! (r * (m1 + m2) + c) = Some (beside m1 x y r c)) 0 n F s0) as (b & -> & Hb) end.
    - lia.
    - split; [done|]. intros; lia.
    - intros r b Hr [Hl Hb].
      destruct (copy_range_spec b (r * (m1 + m2)) (m_buf u) (m_off u + r * m_skip u) m1) as (b1 & -> & Hl1 & F1 & G1); [nia|eapply dense_row_in; [done|lia]|]. cbn [obind].
      destruct (copy_range_spec b1 (r * (m1 + m2) + m1) (m_buf l) (m_off l + r * m_skip l) m2) as (b2 & -> & Hl2 & F2 & G2); [nia|eapply dense_row_in; [done|lia]|].
      eexists. split; [done|]. split; [lia|]. intros r' c Hr' Hc. destruct (decide (r' = r)) as [->|].
      + unfold beside. case_decide as Hd.
        * rewrite G2 by lia. rewrite F1 by done. apply Hx; [lia|done].
        * replace (r * (m1 + m2) + c) with (r * (m1 + m2) + m1 + (c - m1)) by lia. rewrite F2 by lia. apply Hy; lia.
      + rewrite G2 by nia. rewrite G1 by nia. apply Hb; [lia|done].
    - cbn [obind]. eexists. split; [done|]. by apply tabulated_is_dense.
  Qed.
  Lemma reshape_ok a n m n' m' x : is_dense a n m x -> m_off a <= length (m_buf a) -> n' * m' = n * m -> exists res, reshape_dense junk a n' m' = Ok res /\ is_dense res n' m' (reshaped m m' x).
  Proof.
    intros Ha Hoff E. pose proof Ha as (Hr & Hc & Hs & Hb & Hx). unfold reshape_dense. cbv zeta. rewrite Hr, Hc.
    assert (Hre : forall r c, r < n' -> c < m' -> exists q k, q < n /\ k < m /\ r * m' + c = q * m + k /\ reshaped m m' x r c = x q k).
    { intros r c Hr' Hc'. pose proof (pos_lt n' m' r c Hr' Hc') as Hp. rewrite E in Hp. destruct (pos_split n m _ Hp) as (q & k & Hq & Hk & Eq). exists q, k. split; [done|]. split; [done|]. split; [done|]. unfold reshaped. rewrite Eq. rewrite Nat.div_add_l by lia. rewrite Nat.div_small by lia. rewrite Nat.add_0_r. f_equal. rewrite Nat.add_comm, Nat.mod_add by lia. by apply Nat.mod_small. }
    case_decide as Hd.
    - destruct Hd as [-> ->]. eexists. split; [done|]. eapply is_dense_ext; [done|]. intros r c Hr' Hc'. destruct (Hre r c Hr' Hc') as (q & k & Hq & Hk & Eq & ->). apply pos_inj in Eq as [-> ->]; done.
    - rewrite decide_False by (unfold mul64; rewrite <- !Nat2Z.inj_mul, E; tauto). case_decide as Hk.
      + eexists. split; [done|]. split; [done|]. split; [done|]. split; [done|]. cbn. split.
        * destruct (decide (n' = 0)) as [|Hn']; [by left|right]. destruct (decide (m' = 0)) as [->|Hm']; [lia|]. destruct Hb as [->|Hb]; [nia|]. destruct Hk as [Hk| ->]; [rewrite Hk in Hb; nia|]. nia.
        * intros r c Hr' Hc'. destruct (Hre r c Hr' Hc') as (q & k & Hq & Hk' & Eq & ->). rewrite <- (Hx q k) by done. f_equal. destruct Hk as [Hk| ->]; [rewrite Hk; lia|]. replace q with 0 in * by lia. lia.
      + destruct (rows_copy (junk (n' * m')) (m_buf a) n m (fun r => m_off a + r * m_skip a) x) as (b & -> & Hl & Ht).
        * rewrite Hjunk. done.
        * intros r Hr'. by eapply dense_row_in.
        * done.
        * cbn [obind]. eexists. split; [done|]. apply tabulated_is_dense. split; [lia|]. intros r c Hr' Hc'. destruct (Hre r c Hr' Hc') as (q & k & Hq & Hk' & -> & ->). by apply Ht.
  Qed.
End Dense.

(** * Sparse *)
Section Sparse.
  Context {V : Type} `{Val V} (junk : nat -> list V) (Hjunk : forall k, length (junk k) = k) (alloc : nat -> nat -> csrbuf V).
  Context (Halloc : forall n nnz, length (bvals (alloc n nnz)) = nnz /\ length (bcols (alloc n nnz)) = nnz /\ length (broff (alloc n nnz)) = n + 1).
  Implicit Types (a : dmat V) (b : csrbuf V) (h : csrh).
  Lemma start_ok n cap : exists s : cst (V := V), start (alloc n cap) = Ok s /\ built cap n [] [] s.
  Proof. destruct (Halloc n cap) as (H1 & H2 & H3). unfold start. rewrite wr_Ok by lia. cbn [obind]. eexists. split; [done|]. apply built_init; [done|done|by rewrite insert_length|]. apply list_lookup_insert. lia. Qed.
  Lemma put_ok cap n d cur (s : cst (V := V)) c v : built cap n d cur s -> stored d + length cur < cap -> exists s', put c v s = Ok s' /\ built cap n d (cur ++ [(c, v)]) s'.
  Proof. destruct s as [[[ro cs] vs] pos]. intros Hb Hlt. destruct (built_push _ _ _ _ _ _ _ _ c v Hb Hlt) as (vs' & cs' & E1 & E2 & Hb'). unfold put. rewrite E1. cbn [obind]. rewrite E2. cbn [obind]. eauto. Qed.
  Lemma close_ok cap n d cur (s : cst (V := V)) r : built cap n d cur s -> r = length d -> r < n -> exists s', close r s = Ok s' /\ built cap n (d ++ [cur]) [] s'.
  Proof. destruct s as [[[ro cs] vs] pos]. intros Hb -> Hlt. destruct (built_close _ _ _ _ _ _ _ _ Hb Hlt) as (ro' & E1 & Hb'). unfold close. rewrite E1. cbn [obind]. eauto. Qed.
  Lemma done_ok cap n m d (s : cst (V := V)) (x : nat -> nat -> V) : built cap n d [] s -> length d = n -> Forall (row_ok m) d -> (forall r c l, r < n -> c < m -> d !! r = Some l -> cell_in c l = x r c) ->
    sparse_cells (done_ n m cap s).1 (done_ n m cap s).2 n m x.
  Proof. destruct s as [[[ro cs] vs] pos]. intros Hb Hd Hok Hx. by eapply built_sparse. Qed.
  (** A result whose row [r] is [f r]. *)
  Definition rows_fn (f : nat -> row V) (n : nat) : list (row V) := f <$> seq 0 n.
  Lemma rows_fn_S f n : rows_fn f (S n) = rows_fn f n ++ [f n].
  Proof. unfold rows_fn. by rewrite seq_S, fmap_app. Qed.
  Lemma rows_fn_length f n : length (rows_fn f n) = n.
  Proof. unfold rows_fn. by rewrite fmap_length, seq_length. Qed.
  Lemma rows_fn_lookup f n r l : rows_fn f n !! r = Some l -> r < n /\ l = f r.
  Proof. intros Hl. assert (Hr : r < n) by (apply lookup_lt_Some in Hl; by rewrite rows_fn_length in Hl). unfold rows_fn in Hl. rewrite list_lookup_fmap, lookup_seq_lt in Hl by done. cbn in Hl. by injection Hl as <-. Qed.
  Lemma rows_fn_stored f n (g : nat -> nat) (G : nat -> nat) : (forall r, r < n -> length (f r) <= g r) -> G 0 = 0 -> (forall r, G (S r) = G r + g r) -> stored (rows_fn f n) <= G n.
  Proof. intros Hf H0 HS. induction n as [|n IH]; [unfold stored; cbn; lia|]. rewrite rows_fn_S, stored_app. unfold stored at 2. cbn. rewrite app_nil_r, HS. specialize (Hf n ltac:(lia)) as Hn. specialize (IH ltac:(intros; apply Hf; lia)). lia. Qed.
  Lemma row_one_ok m c (v : V) : c < m -> row_ok m [(c, v)].
  Proof. intros Hc. split; cbn; [repeat constructor|]. by repeat constructor. Qed.
  Lemma row_nil_ok m : row_ok (V := V) m [].
  Proof. split; constructor. Qed.
  Definition diag_row (x : nat -> nat -> V) (r : nat) : row V := if viszero (x r 0) then [] else [(r, x r 0)].

  (** Zeros of a dense vector are not stored: their cells in the result are the zero. *)
  Definition nz (v : V) : V := if viszero v then vzero else v.
  Lemma diag_matrix_sd_ok a n x : is_dense a n 1 x -> exists b h, diag_matrix_sd alloc a = Ok (b, h) /\ sparse_cells b h n n (diag_cell (fun r c => nz (x r c))).
  Proof.
    intros (Hr & Hc & Hs & Hb & Hx). unfold diag_matrix_sd. cbv zeta. rewrite Hr, Hc. rewrite decide_False by lia. destruct (start_ok n n) as (s0 & -> & H0). cbn [obind].
    assert (Hst : forall r, stored (rows_fn (diag_row x) r) <= r). { intros r. apply (rows_fn_stored (diag_row x) r (fun _ => 1) id); [|done|unfold id; lia]. intros r' _. unfold diag_row. destruct (viszero _); cbn; lia. }
    match goal with |- context [for_up 0 n ?F s0] => destruct (for_up_inv (fun r (s : cst (V := V)) => built n n (rows_fn (diag_row x) r) [] s) 0 n F s0) as (s & -> & HB) end.
    - lia.
    - done.
    - intros r s Hr' HB. specialize (Hx r 0 ltac:(lia) ltac:(lia)). rewrite Nat.add_0_r in Hx. rewrite (rd_Ok _ _ _ Hx). cbn [obind]. change (1 + r) with (S r). rewrite rows_fn_S. unfold diag_row at 2. destruct (viszero (x r 0)) eqn:Ez.
      + cbn [obind]. apply close_ok; [done|by rewrite rows_fn_length|lia].
      + destruct (put_ok _ _ _ _ _ r (x r 0) HB) as (s' & -> & HB'); [specialize (Hst r); cbn; lia|]. cbn [obind]. apply close_ok; [done|by rewrite rows_fn_length|lia].
    - cbn [obind]. destruct (done_ n n n s) as [b h] eqn:Ed. exists b, h. split; [done|].
      replace b with (done_ n n n s).1 by (by rewrite Ed). replace h with (done_ n n n s).2 by (by rewrite Ed). eapply done_ok; [exact HB|apply rows_fn_length| |].
      + apply Forall_lookup_2. intros r l Hl. apply rows_fn_lookup in Hl as [Hr' ->]. unfold diag_row. destruct (viszero _); [apply row_nil_ok|by apply row_one_ok].
      + intros r c l Hr' Hc' Hl. apply rows_fn_lookup in Hl as [_ ->]. unfold diag_row, diag_cell, nz. case_decide as Hd; [subst|]; (destruct (viszero (x _ 0)) eqn:Ez; rewrite cell_in_find; cbn; [done|]); [by rewrite decide_True|by rewrite decide_False].
  Qed.
  Lemma diag_matrix_ss_ok b h rs n : shows b h rs -> h_rows h = n -> h_cols h = 1 -> exists b' h', diag_matrix_ss alloc b h = Ok (b', h') /\ sparse_cells b' h' n n (diag_cell (cell rs)).
  Proof.
    intros (base & HR & _)%shows_reads Hr Hc. unfold diag_matrix_ss. cbv zeta. rewrite Hr, Hc. rewrite decide_False by lia. destruct (start_ok n n) as (s0 & -> & H0). cbn [obind].
    pose proof (rd_rows _ _ _ _ HR) as Hlen. rewrite Hr in Hlen. pose proof (rd_ok _ _ _ _ HR) as Hok. rewrite Hc in Hok. rewrite Forall_lookup in Hok.
    set (f := fun r => match rs !! r with Some ((_, v) :: _) => [(r, v)] | _ => [] end : row V).
    assert (Hst : forall r, stored (rows_fn f r) <= r). { intros r. apply (rows_fn_stored f r (fun _ => 1) id); [|done|unfold id; lia]. intros r' _. unfold f. destruct (rs !! r') as [[|[c v] l]|]; cbn; lia. }
    match goal with |- context [for_up 0 n ?F s0] => destruct (for_up_inv (fun r (s : cst (V := V)) => built n n (rows_fn f r) [] s) 0 n F s0) as (s & -> & HB) end.
    - lia.
    - done.
    - intros r s Hr' HB. destruct (lookup_lt_is_Some_2 rs r ltac:(lia)) as [l Hl]. rewrite (reads_row_nnz _ _ _ _ _ _ HR Hl). cbn [obind]. change (1 + r) with (S r). rewrite rows_fn_S. unfold f at 2. rewrite Hl. destruct l as [|[c v] l].
      + cbn [length]. rewrite decide_True by done. cbn [obind]. apply close_ok; [done|by rewrite rows_fn_length|lia].
      + rewrite decide_False by done. destruct (reads_row _ _ _ _ _ _ HR Hl) as (_ & _ & -> & _). cbn [obind]. destruct (reads_entry _ _ _ _ _ _ 0 (c, v) HR Hl eq_refl) as [_ Hv]. rewrite Nat.add_0_r in Hv. rewrite (rd_Ok _ _ _ Hv). cbn [obind snd].
        destruct (put_ok _ _ _ _ _ r v HB) as (s' & -> & HB'); [specialize (Hst r); cbn; lia|]. cbn [obind]. apply close_ok; [done|by rewrite rows_fn_length|lia].
    - cbn [obind]. destruct (done_ n n n s) as [b' h'] eqn:Ed. exists b', h'. split; [done|].
      replace b' with (done_ n n n s).1 by (by rewrite Ed). replace h' with (done_ n n n s).2 by (by rewrite Ed). eapply done_ok; [exact HB|apply rows_fn_length| |].
      + apply Forall_lookup_2. intros r l Hl. apply rows_fn_lookup in Hl as [Hr' ->]. unfold f. destruct (rs !! r) as [[|[c v] l]|]; [apply row_nil_ok|by apply row_one_ok|apply row_nil_ok].
      + intros r c l Hr' Hc' Hl. apply rows_fn_lookup in Hl as [_ ->]. unfold f, diag_cell. rewrite !cell_in_find. destruct (lookup_lt_is_Some_2 rs r ltac:(lia)) as [l Hl]. rewrite Hl. unfold cell. rewrite Hl. destruct l as [|[c0 v] l]; [by case_decide|].
        destruct (Hok _ _ Hl) as [_ Hf]. cbn in Hf. apply Forall_cons in Hf as [Hc0 _]. replace c0 with 0 by lia. rewrite cell_in_find. cbn [find_col]. rewrite (decide_True (P := 0 = 0)) by done. by destruct (decide (r = c)).
  Qed.
  Lemma scan_diag_ok b i l j : (forall k e, l !! k = Some e -> bcols b !! (j + k) = Some e.1 /\ bvals b !! (j + k) = Some e.2) -> scan_diag b i (length l) j = Ok (cell_in i l).
  Proof.
    revert j. induction l as [|[c v] l IH]; intros j Hl; [done|]. destruct (Hl 0 (c, v) eq_refl) as [H1 H2]. rewrite Nat.add_0_r in H1, H2. cbn [length scan_diag]. rewrite (rd_Ok _ _ _ H1). cbn [obind fst]. rewrite cell_in_find. cbn [find_col]. case_decide as Hd.
    - by rewrite (rd_Ok _ _ _ H2).
    - rewrite IH; [by rewrite cell_in_find|]. intros k e He. specialize (Hl (S k) e He). by replace (j + 1 + k) with (j + S k) by lia.
  Qed.
  Lemma diag_vector_csr_ok b h rs n : shows b h rs -> h_rows h = n -> h_cols h = n -> 0 < n -> exists res, diag_vector_csr junk b h = Ok res /\ is_dense res n 1 (fun r _ => cell rs r r).
  Proof.
    intros (base & HR & _)%shows_reads Hr Hc Hn. unfold diag_vector_csr. cbv zeta. rewrite Hr, Hc. rewrite decide_False by lia. rewrite decide_False by lia. pose proof (rd_rows _ _ _ _ HR) as Hlen. rewrite Hr in Hlen.
    destruct (for_up_write (n * 1) (fun i res => let* s := roff b h i in let* e := roff b h (i + 1) in let* v := scan_diag b i (e - s) s in wr res i v) (fun i => cell rs i i) (junk (n * 1))) as (b' & E & Hl & Hb'); [done| |].
    - intros i b' Hi Hl'. destruct (lookup_lt_is_Some_2 rs i ltac:(lia)) as [l Hl]. destruct (reads_row _ _ _ _ _ _ HR Hl) as (_ & _ & E1 & E2). rewrite E1. cbn [obind]. rewrite E2. cbn [obind]. replace (base + _ + length l - _) with (length l) by lia. rewrite scan_diag_ok; [cbn [obind]; unfold cell; by rewrite Hl|]. intros k e He. by apply (reads_entry _ _ _ _ _ _ _ _ HR Hl).
    - rewrite Nat.mul_1_r in E at 1. rewrite E. cbn [obind]. eexists. split; [done|]. apply tabulated_is_dense. split; [done|]. intros r c Hr' Hc'. replace c with 0 by lia. rewrite Nat.mul_1_r, Nat.add_0_r. apply Hb'. lia.
  Qed.

  (** The entries of row [r] that are in the triangle and not zero. *)
  Definition tri_keep (one : V) (upper diag values : bool) (n r : nat) (e : nat * V) : row V :=
    if decide (tri_start upper diag r <= e.1 /\ e.1 < tri_end upper diag n r) then if viszero e.2 then [] else [(e.1, if values then e.2 else one)] else [].
  Definition tri_row one upper diag values n r (l : row V) : row V := concat (tri_keep one upper diag values n r <$> l).
  Lemma tri_row_snoc one upper diag values n r l e : tri_row one upper diag values n r (l ++ [e]) = tri_row one upper diag values n r l ++ tri_keep one upper diag values n r e.
  Proof. unfold tri_row. rewrite fmap_app, concat_app. cbn. by rewrite app_nil_r. Qed.
  Lemma tri_keep_len one upper diag values n r e : length (tri_keep one upper diag values n r e) <= 1.
  Proof. unfold tri_keep. case_decide; [|cbn; lia]. destruct (viszero _); cbn; lia. Qed.
  Lemma tri_row_len one upper diag values n r l : length (tri_row one upper diag values n r l) <= length l.
  Proof. unfold tri_row. induction l as [|e l IH]; [done|]. rewrite fmap_cons. cbn [concat length]. rewrite app_length. pose proof (tri_keep_len one upper diag values n r e). lia. Qed.
  Lemma tri_row_mem one upper diag values n r l c v : (c, v) ∈ tri_row one upper diag values n r l <-> (tri_start upper diag r <= c /\ c < tri_end upper diag n r) /\ exists w, (c, w) ∈ l /\ viszero w = false /\ v = (if values then w else one).
  Proof.
    unfold tri_row. rewrite elem_of_list_In, in_concat. split.
    - intros (k & Hk & Hin). apply elem_of_list_In in Hk. apply elem_of_list_fmap in Hk as ([c0 w] & -> & He). apply elem_of_list_In in Hin. unfold tri_keep in Hin. cbn [fst snd] in Hin. case_decide as Hd; [|by apply elem_of_nil in Hin]. destruct (viszero w) eqn:Ez; [by apply elem_of_nil in Hin|]. apply elem_of_list_singleton in Hin. injection Hin as -> ->. split; [done|]. by exists w.
    - intros (Hd & w & Hw & Ez & ->). exists (tri_keep one upper diag values n r (c, w)). split; [apply elem_of_list_In; apply elem_of_list_fmap; by exists (c, w)|]. apply elem_of_list_In. unfold tri_keep. cbn [fst snd]. rewrite decide_True by done. rewrite Ez. by left.
  Qed.
  Lemma tri_row_sorted one upper diag values n r l : StronglySorted lt l.*1 -> StronglySorted lt (tri_row one upper diag values n r l).*1.
  Proof.
    induction l as [|[c w] l IH]; [constructor|]. rewrite fmap_cons. intros [Hs Hlt]%StronglySorted_inv. specialize (IH Hs). unfold tri_row in *. rewrite fmap_cons. cbn [concat]. unfold tri_keep at 1. cbn [fst snd]. case_decide; [|done]. destruct (viszero w); [done|]. cbn. constructor; [done|].
    apply Forall_forall. intros c' Hc'. apply elem_of_list_fmap in Hc' as ([c1 v1] & -> & Hin). apply tri_row_mem in Hin as (_ & w1 & Hw & _). rewrite Forall_forall in Hlt. cbn in *. apply Hlt. apply elem_of_list_fmap. by exists (c1, w1).
  Qed.
  Lemma tri_row_size one upper diag values n r l : StronglySorted lt l.*1 -> length (tri_row one upper diag values n r l) <= tri_end upper diag n r - tri_start upper diag r.
  Proof.
    intros Hs. rewrite <- (fmap_length fst). apply (sorted_bounded _ (tri_start upper diag r)); [by apply tri_row_sorted|]. apply Forall_forall. intros c Hc. apply elem_of_list_fmap in Hc as ([c1 v1] & -> & Hin). apply tri_row_mem in Hin as ([H1 H2] & _). cbn. lia.
  Qed.
  (** The number of cells in the first [r] rows of the triangle. *)
  Fixpoint tri_cells (upper diag : bool) (n r : nat) : nat := match r with 0 => 0 | S r => tri_cells upper diag n r + (tri_end upper diag n r - tri_start upper diag r) end.
  Lemma tri_cells_le upper diag n r : r <= n -> tri_cells upper diag n r <= n * (n + 1) / 2.
  Proof.
    intros Hr. apply Nat.div_le_lower_bound; [lia|]. destruct upper.
    - assert (Hx : 2 * tri_cells true diag n r + (n - r) * (n - r + 1) <= n * (n + 1)); [|lia]. induction r as [|r IH]; [cbn; rewrite Nat.sub_0_r; lia|]. specialize (IH ltac:(lia)). cbn [tri_cells]. unfold tri_end, tri_start in *. remember (n - r) as k. replace (n - S r) with (k - 1) by lia. destruct diag; cbn; nia.
    - assert (Hx : 2 * tri_cells false diag n r <= r * (r + 1)); [|nia]. induction r as [|r IH]; [cbn; lia|]. specialize (IH ltac:(lia)). cbn [tri_cells]. unfold tri_end, tri_start in *. destruct diag; cbn; nia.
  Qed.
  Lemma stored_take_row (rs : list (row V)) r l : rs !! r = Some l -> stored (take r rs) + length l <= stored rs.
  Proof. intros Hl. rewrite <- (stored_take_S _ _ _ Hl). rewrite <- (take_drop (S r) rs) at 2. rewrite stored_app. lia. Qed.
  Lemma tri_csr_ok one upper diag values b h rs n : viszero vzero = true -> shows b h rs -> h_rows h = n -> h_cols h = n -> exists b' h', tri_csr alloc one upper diag values b h = Ok (b', h') /\ sparse_cells b' h' n n (tri_cell one upper diag values (cell rs)).
  Proof.
    intros Hz (base & HR & _)%shows_reads Hr Hc. unfold tri_csr. cbv zeta. rewrite Hr, Hc. rewrite decide_False by lia. rewrite (reads_nnz _ _ _ _ HR). cbn [obind]. set (cap := min (stored rs) (n * (n + 1) / 2)). destruct (start_ok n cap) as (s0 & -> & H0). cbn [obind].
    pose proof (rd_rows _ _ _ _ HR) as Hlen. rewrite Hr in Hlen. pose proof (rd_ok _ _ _ _ HR) as Hok. rewrite Hc in Hok. rewrite Forall_lookup in Hok.
    set (T := tri_row one upper diag values n). set (f := fun r => match rs !! r with Some l => T r l | None => [] end : row V).
    assert (HG : forall r, r <= n -> stored (rows_fn f r) <= tri_cells upper diag n r). { intros r Hr'. apply (rows_fn_stored f r (fun r => tri_end upper diag n r - tri_start upper diag r)); [|done|done]. intros r' Hr2. unfold f. destruct (rs !! r') as [l|] eqn:El; [|cbn; lia]. apply tri_row_size. by apply (Hok _ _ El). }
    assert (HN : forall r, r <= n -> stored (rows_fn f r) <= stored (take r rs)). { intros r. induction r as [|r IH]; intros Hr'; [done|]. destruct (lookup_lt_is_Some_2 rs r ltac:(lia)) as [l Hl]. rewrite rows_fn_S, stored_app, (stored_take_S _ _ _ Hl). unfold f at 2. rewrite Hl. specialize (IH ltac:(lia)). unfold stored at 2. cbn. rewrite app_nil_r. pose proof (tri_row_len one upper diag values n r l). fold T in H1. lia. }
    match goal with |- context [for_up 0 n ?F s0] => destruct (for_up_inv (fun r (s : cst (V := V)) => built cap n (rows_fn f r) [] s) 0 n F s0) as (s & -> & HB) end.
    - lia.
    - done.
    - intros r s Hr' HB. destruct (lookup_lt_is_Some_2 rs r ltac:(lia)) as [l Hl]. rewrite (reads_row_nnz _ _ _ _ _ _ HR Hl). cbn [obind]. destruct (reads_row _ _ _ _ _ _ HR Hl) as (_ & _ & -> & _). cbn [obind].
      rewrite (row_loop b h base rs r l _ (fun e s => if decide (tri_start upper diag r <= e.1 /\ e.1 < tri_end upper diag n r) then if viszero e.2 then Ok s else put e.1 (if values then e.2 else one) s else Ok s)); [|done|done|].
      2:{ intros i c v t Hci Hvi Hlt. rewrite (rd_Ok _ _ _ Hci). cbn [obind fst snd]. case_decide; [|done]. by rewrite (rd_Ok _ _ _ Hvi). }
      match goal with |- context [ofold ?F l s] => destruct (ofold_inv (fun pre (s : cst (V := V)) => built cap n (rows_fn f r) (T r pre) s) F l s) as (s' & -> & HB') end.
      + exact HB.
      + intros pre [c w] post t El Hpre. unfold T. rewrite tri_row_snoc. unfold tri_keep. cbn [fst snd]. case_decide as Hd; [|rewrite app_nil_r; by eexists]. destruct (viszero w) eqn:Ez; [rewrite app_nil_r; by eexists|]. apply put_ok; [done|].
        assert (Hpl : StronglySorted lt (pre ++ [(c, w)]).*1). { destruct (Hok _ _ Hl) as [Hs _]. rewrite El in Hs. replace (pre ++ (c, w) :: post) with ((pre ++ [(c, w)]) ++ post) in Hs by (by rewrite <- app_assoc). rewrite (fmap_app _ (pre ++ _)) in Hs. apply ss_app in Hs as [Hs _]; exact Hs. }
        pose proof (tri_row_size one upper diag values n r _ Hpl) as Hsz. rewrite tri_row_snoc in Hsz. unfold tri_keep in Hsz. cbn [fst snd] in Hsz. rewrite decide_True in Hsz by done. rewrite Ez, app_length in Hsz. cbn [length] in Hsz.
        specialize (HG r ltac:(lia)). specialize (HN r ltac:(lia)). pose proof (tri_cells_le upper diag n (S r) ltac:(lia)) as Hle. cbn [tri_cells] in Hle. pose proof (stored_take_row _ _ _ Hl) as Hst. pose proof (tri_row_len one upper diag values n r pre) as Hpr. rewrite El in Hst. rewrite app_length in Hst. cbn [length] in Hst. fold T in Hsz, Hpr |- *. unfold cap. lia.
      + cbn [obind]. change (1 + r) with (S r). rewrite rows_fn_S. unfold f at 2. rewrite Hl. apply close_ok; [done|by rewrite rows_fn_length|lia].
    - cbn [obind]. destruct (done_ n n cap s) as [b' h'] eqn:Ed. exists b', h'. split; [done|].
      replace b' with (done_ n n cap s).1 by (by rewrite Ed). replace h' with (done_ n n cap s).2 by (by rewrite Ed). eapply done_ok; [exact HB|apply rows_fn_length| |].
      + apply Forall_lookup_2. intros r l Hl. apply rows_fn_lookup in Hl as [Hr' ->]. unfold f. destruct (rs !! r) as [l|] eqn:El; [|apply row_nil_ok]. destruct (Hok _ _ El) as [Hs Hf]. split; [by apply tri_row_sorted|]. apply Forall_forall. intros c Hc'. apply elem_of_list_fmap in Hc' as ([c1 v1] & -> & Hin). apply tri_row_mem in Hin as (_ & w1 & Hw & _). rewrite Forall_forall in Hf. apply Hf. apply elem_of_list_fmap. by exists (c1, w1).
      + intros r c l Hr' Hc' Hl. apply rows_fn_lookup in Hl as [_ ->]. unfold f, tri_cell, cell. destruct (lookup_lt_is_Some_2 rs r ltac:(lia)) as [l Hl]. rewrite Hl. destruct (Hok _ _ Hl) as [Hs _]. pose proof (tri_row_sorted one upper diag values n r l Hs) as Hs'.
        pose proof (in_tri_bounds upper diag n r c ltac:(lia) ltac:(lia)) as Hit. rewrite !(cell_in_find c l).
        destruct (find_col c (T r l)) as [v|] eqn:Ef; rewrite cell_in_find, Ef; cbn [default].
        * apply find_col_Some in Ef. apply tri_row_mem in Ef as (Hd & w & Hw & Ez & ->). rewrite (find_col_elem c w) by done. cbn. rewrite Hit, (bool_decide_eq_true_2 _ Hd), Ez. by destruct values.
        * destruct (in_triangle upper diag r c) eqn:Ei; [|done]. destruct (find_col c l) as [w|] eqn:Ew; cbn; [|by rewrite Hz]. destruct (viszero w) eqn:Ez; [done|]. exfalso. apply find_col_Some in Ew. assert (Hin : (c, if values then w else one) ∈ T r l) by (apply tri_row_mem; split; [symmetry in Hit; by apply bool_decide_eq_true_1 in Hit|by exists w]). unfold T in Ef. rewrite (find_col_elem _ _ _ Hs' Hin) in Ef. done.
  Qed.

  Definition pre_of {A} (xs L : list A) : Prop := forall i e, L !! i = Some e -> xs !! i = Some e.
  Lemma pre_app {A} (xs xs' L K : list A) : pre_of xs L -> (forall j, j < length K -> xs' !! (length L + j) = K !! j) -> (forall j, j < length L -> xs' !! j = xs !! j) -> pre_of xs' (L ++ K).
  Proof.
    intros Hp HK HL i e Hi. destruct (decide (i < length L)) as [Hd|Hd].
    - rewrite lookup_app_l in Hi by done. rewrite HL by done. by apply Hp.
    - rewrite lookup_app_r in Hi by lia. replace i with (length L + (i - length L)) by lia. rewrite HK; [done|]. by apply lookup_lt_Some in Hi.
  Qed.
  Lemma pre_built cap n (d : list (row V)) ro cs vs : length cs = cap -> length vs = cap -> length ro = n + 1 -> pre_of cs (concat d).*1 -> pre_of vs (concat d).*2 -> (forall j, j <= length d -> ro !! j = Some (stored (take j d))) -> built cap n d [] (ro, cs, vs, stored d).
  Proof.
    intros H1 H2 H3 Hc Hv Ho. split; [cbn; lia|]. split; [done|]. split; [done|]. split; [done|]. split; [|done]. intros i e Hi. rewrite app_nil_r in Hi. split; [apply Hc|apply Hv]; by rewrite list_lookup_fmap, Hi.
  Qed.
  Lemma row_bind_csr_ok b1 h1 b2 h2 rs1 rs2 n1 n2 m : shows b1 h1 rs1 -> h_rows h1 = n1 -> h_cols h1 = m -> shows b2 h2 rs2 -> h_rows h2 = n2 -> h_cols h2 = m -> (csr_isView h1 = false -> h_off h1 = 0) ->
    exists b' h', row_bind_csr alloc b1 h1 b2 h2 = Ok (b', h') /\ sparse_cells b' h' (n1 + n2) m (above n1 (cell rs1) (cell rs2)).
  Proof.
    intros (base1 & HR1 & Hb1)%shows_reads Hr1 Hc1 (base2 & HR2 & _)%shows_reads Hr2 Hc2 Hview. unfold row_bind_csr. cbv zeta. rewrite Hr1, Hr2, Hc1, Hc2. rewrite decide_False by lia.
    rewrite (reads_nnz _ _ _ _ HR1). cbn [obind]. rewrite (reads_nnz _ _ _ _ HR2). cbn [obind]. set (k1 := stored rs1). set (k2 := stored rs2). destruct (Halloc (n1 + n2) (k1 + k2)) as (Lv & Lc & Lr). set (res := alloc (n1 + n2) (k1 + k2)) in *.
    pose proof (rd_rows _ _ _ _ HR1) as Hlen1. rewrite Hr1 in Hlen1. pose proof (rd_rows _ _ _ _ HR2) as Hlen2. rewrite Hr2 in Hlen2.
    rewrite (rd_off _ _ _ _ HR1 0) by lia. cbn [obind]. change (stored (take 0 rs1)) with 0; rewrite (Nat.add_0_r base1).
    match goal with |- context [for_up 0 n1 ?F ?s0] => destruct (for_up_inv (fun i (ro : list nat) => length ro = n1 + n2 + 1 /\ forall j, j < i -> ro !! j = Some (stored (take j rs1))) 0 n1 F s0) as (ro1 & -> & Hl1 & Hro1) end.
    { lia. } { split; [lia|]. intros; lia. }
    { intros i ro Hi [Hl Hro]. rewrite (rd_off _ _ _ _ HR1 i) by lia. cbn [obind]. rewrite wr_Ok by lia. eexists. split; [done|]. split; [by rewrite insert_length|]. intros j Hj. destruct (decide (j = i)) as [->|]; [|rewrite list_lookup_insert_ne by done; apply Hro; lia].
      rewrite list_lookup_insert by lia. f_equal. destruct (csr_isView h1); [lia|]. rewrite Hb1 by auto. done. }
    cbn [obind]. pose proof (rd_len_v _ _ _ _ HR1) as Bv1. pose proof (rd_len_c _ _ _ _ HR1) as Bc1. pose proof (rd_len_v _ _ _ _ HR2) as Bv2. pose proof (rd_len_c _ _ _ _ HR2) as Bc2. fold k1 in Bv1, Bc1. fold k2 in Bv2, Bc2.
    destruct (copy_range_spec (bvals res) 0 (bvals b1) base1 k1) as (vs1 & -> & Lv1 & V1 & _); [lia|lia|]. cbn [obind].
    destruct (copy_range_spec (bcols res) 0 (bcols b1) base1 k1) as (cs1 & -> & Lc1 & C1 & _); [lia|lia|]. cbn [obind].
    rewrite (rd_off _ _ _ _ HR2 0) by lia. cbn [obind]. change (stored (take 0 rs2)) with 0; rewrite (Nat.add_0_r base2).
    match goal with |- context [for_up 0 n2 ?F ?s0] => destruct (for_up_inv (fun i (ro : list nat) => length ro = n1 + n2 + 1 /\ forall j, j < n1 + i -> ro !! j = Some (stored (take j (rs1 ++ rs2)))) 0 n2 F s0) as (ro2 & -> & Hl2 & Hro2) end.
    { lia. } { split; [lia|]. intros j Hj. rewrite take_app_le by lia. apply Hro1. lia. }
    { intros i ro Hi [Hl Hro]. rewrite (rd_off _ _ _ _ HR2 i) by lia. cbn [obind]. rewrite wr_Ok by lia. eexists. split; [done|]. split; [by rewrite insert_length|]. intros j Hj. destruct (decide (j = i + n1)) as [->|]; [|rewrite list_lookup_insert_ne by done; apply Hro; lia].
      rewrite list_lookup_insert by lia. f_equal. rewrite take_app_ge by lia. rewrite stored_app. replace (i + n1 - length rs1) with i by lia. fold k1. lia. }
    cbn [obind].
    destruct (copy_range_spec vs1 k1 (bvals b2) base2 k2) as (vs2 & -> & Lv2 & V2 & V2'); [lia|lia|]. cbn [obind].
    destruct (copy_range_spec cs1 k1 (bcols b2) base2 k2) as (cs2 & -> & Lc2 & C2 & C2'); [lia|lia|]. cbn [obind].
    rewrite wr_Ok by lia. cbn [obind]. eexists _, _. split; [done|]. eapply (built_sparse _ _ _ (rs1 ++ rs2)).
    - apply pre_built; [lia|lia|rewrite insert_length; lia| | |].
      + rewrite concat_app, fmap_app. apply (pre_app cs1).
        * intros i e Hi. assert (Hik : i < k1) by (apply lookup_lt_Some in Hi; by rewrite fmap_length in Hi). rewrite <- (rd_cols _ _ _ _ HR1 i Hik) in Hi. by rewrite <- C1 in Hi.
        * intros j Hj. rewrite fmap_length in *. rewrite C2 by done. by apply (rd_cols _ _ _ _ HR2).
        * intros j Hj. rewrite fmap_length in *. apply C2'. unfold k1, stored. lia.
      + rewrite concat_app, fmap_app. apply (pre_app vs1).
        * intros i e Hi. assert (Hik : i < k1) by (apply lookup_lt_Some in Hi; by rewrite fmap_length in Hi). rewrite <- (rd_vals _ _ _ _ HR1 i Hik) in Hi. by rewrite <- V1 in Hi.
        * intros j Hj. rewrite fmap_length in *. rewrite V2 by done. by apply (rd_vals _ _ _ _ HR2).
        * intros j Hj. rewrite fmap_length in *. apply V2'. unfold k1, stored. lia.
      + intros j Hj. rewrite app_length in Hj. destruct (decide (j = n1 + n2)) as [->|]; [|rewrite list_lookup_insert_ne by done; apply Hro2; lia]. rewrite list_lookup_insert by lia. rewrite take_ge by (rewrite app_length; lia). by rewrite stored_app.
    - rewrite app_length. lia.
    - apply Forall_app. pose proof (rd_ok _ _ _ _ HR1). pose proof (rd_ok _ _ _ _ HR2). by rewrite Hc1, Hc2 in *.
    - intros r c l Hr Hc Hl. unfold above, cell. case_decide.
      + rewrite lookup_app_l in Hl by lia. by rewrite Hl.
      + rewrite lookup_app_r in Hl by lia. rewrite Hlen1 in Hl. by rewrite Hl.
  Qed.
  Definition shift (k : nat) (l : row V) : row V := (fun e => (e.1 + k, e.2)) <$> l.
  Lemma col_bind_csr_ok b1 h1 b2 h2 rs1 rs2 n m1 m2 : shows b1 h1 rs1 -> h_rows h1 = n -> h_cols h1 = m1 -> shows b2 h2 rs2 -> h_rows h2 = n -> h_cols h2 = m2 ->
    exists b' h', col_bind_csr alloc b1 h1 b2 h2 = Ok (b', h') /\ sparse_cells b' h' n (m1 + m2) (beside m1 (cell rs1) (cell rs2)).
  Proof.
    intros (base1 & HR1 & _)%shows_reads Hr1 Hc1 (base2 & HR2 & _)%shows_reads Hr2 Hc2. unfold col_bind_csr. cbv zeta. rewrite Hr1, Hr2, Hc1, Hc2. rewrite decide_False by lia.
    rewrite (reads_nnz _ _ _ _ HR1). cbn [obind]. rewrite (reads_nnz _ _ _ _ HR2). cbn [obind]. set (k1 := stored rs1). set (k2 := stored rs2). destruct (Halloc n (k1 + k2)) as (Lv & Lc & Lr). set (res := alloc n (k1 + k2)) in *.
    pose proof (rd_rows _ _ _ _ HR1) as Hlen1. rewrite Hr1 in Hlen1. pose proof (rd_rows _ _ _ _ HR2) as Hlen2. rewrite Hr2 in Hlen2.
    rewrite (rd_off _ _ _ _ HR1 0) by lia. cbn [obind]. rewrite (rd_off _ _ _ _ HR2 0) by lia. cbn [obind]. change (stored (take 0 rs1)) with 0; rewrite (Nat.add_0_r base1). change (stored (take 0 rs2)) with 0; rewrite (Nat.add_0_r base2).
    set (f := fun r => match rs1 !! r, rs2 !! r with Some l1, Some l2 => l1 ++ shift m1 l2 | _, _ => [] end : row V).
    assert (Hst : forall r, r <= n -> stored (rows_fn f r) = stored (take r rs1) + stored (take r rs2)).
    { induction r as [|r IH]; intros Hr; [done|]. destruct (lookup_lt_is_Some_2 rs1 r ltac:(lia)) as [l1 Hl1]. destruct (lookup_lt_is_Some_2 rs2 r ltac:(lia)) as [l2 Hl2]. rewrite rows_fn_S, stored_app, IH by lia. rewrite (stored_take_S _ _ _ Hl1), (stored_take_S _ _ _ Hl2). unfold f, stored at 3. rewrite Hl1, Hl2. cbn. rewrite app_nil_r, app_length. unfold shift. rewrite fmap_length. lia. }
    match goal with |- context [for_up 0 n ?F ?s0] => destruct (for_up_inv (fun i (s : cst (V := V)) => let '(ro, cs, vs, pos) := s in pos = stored (rows_fn f i) /\ length ro = n + 1 /\ length cs = k1 + k2 /\ length vs = k1 + k2 /\ pre_of cs (concat (rows_fn f i)).*1 /\ pre_of vs (concat (rows_fn f i)).*2 /\ forall j, j < i -> ro !! j = Some (stored (rows_fn f j))) 0 n F s0) as ([[[ro cs] vs] pos] & -> & -> & Hlr & Hlc & Hlv & Hpc & Hpv & Hro) end.
    { lia. } { split; [done|]. split; [done|]. split; [done|]. split; [done|]. split; [by intros i e Hi|]. split; [by intros i e Hi|]. lia. }
    { intros r [[[ro cs] vs] pos] Hr (-> & Hlr & Hlc & Hlv & Hpc & Hpv & Hro). destruct (lookup_lt_is_Some_2 rs1 r ltac:(lia)) as [l1 Hl1]. destruct (lookup_lt_is_Some_2 rs2 r ltac:(lia)) as [l2 Hl2].
      destruct (reads_row _ _ _ _ _ _ HR1 Hl1) as (_ & _ & -> & ->). cbn [obind]. destruct (reads_row _ _ _ _ _ _ HR2 Hl2) as (_ & _ & -> & ->). cbn [obind]. replace (base1 + stored (take r rs1) + length l1 - (base1 + stored (take r rs1))) with (length l1) by lia. replace (base2 + stored (take r rs2) + length l2 - (base2 + stored (take r rs2))) with (length l2) by lia.
      pose proof (stored_take_row _ _ _ Hl1) as B1. pose proof (stored_take_row _ _ _ Hl2) as B2. pose proof (Hst r ltac:(lia)) as Hsr. pose proof (rd_len_v _ _ _ _ HR1). pose proof (rd_len_c _ _ _ _ HR1). pose proof (rd_len_v _ _ _ _ HR2). pose proof (rd_len_c _ _ _ _ HR2). set (S1 := stored (rows_fn f r)) in *.
      destruct (copy_range_spec vs S1 (bvals b1) (base1 + stored (take r rs1)) (length l1)) as (vs1 & -> & Lv1 & V1 & V1'); [unfold k1, k2 in *; lia|unfold k1 in *; lia|]. cbn [obind].
      destruct (copy_range_spec vs1 (S1 + length l1) (bvals b2) (base2 + stored (take r rs2)) (length l2)) as (vs2 & -> & Lv2 & V2 & V2'); [unfold k1, k2 in *; lia|lia|]. cbn [obind].
      destruct (copy_range_spec cs S1 (bcols b1) (base1 + stored (take r rs1)) (length l1)) as (cs1 & -> & Lc1 & C1 & C1'); [unfold k1, k2 in *; lia|unfold k1 in *; lia|]. cbn [obind].
      match goal with |- context [for_up 0 (length l2) ?F cs1] => destruct (for_up_inv (fun i (cs : list nat) => length cs = k1 + k2 /\ (forall j, j < i -> cs !! (S1 + length l1 + j) = (shift m1 l2).*1 !! j) /\ forall j, j < S1 + length l1 -> cs !! j = cs1 !! j) 0 (length l2) F cs1) as (cs2 & -> & Lc2 & C2 & C2') end.
      { lia. } { split; [lia|]. split; [lia|done]. }
      { intros i cs' Hi (Hl' & Hi1 & Hi2). destruct (lookup_lt_is_Some_2 l2 i ltac:(lia)) as [e He]. destruct (reads_entry _ _ _ _ _ _ _ _ HR2 Hl2 He) as [Hce _]. rewrite (rd_Ok _ _ _ Hce). cbn [obind]. rewrite wr_Ok by (unfold k1, k2 in *; lia). eexists. split; [done|]. split; [by rewrite insert_length|]. split.
        - intros j Hj. destruct (decide (j = i)) as [->|]; [rewrite list_lookup_insert by (unfold k1, k2 in *; lia)|rewrite list_lookup_insert_ne by lia; apply Hi1; lia]. unfold shift. rewrite !list_lookup_fmap, He. done.
        - intros j Hj. rewrite list_lookup_insert_ne by lia. by apply Hi2. }
      cbn [obind]. rewrite wr_Ok by lia. cbn [obind]. eexists. split; [done|]. change (1 + r) with (S r). rewrite !rows_fn_S. fold S1. assert (Hfr : f r = l1 ++ shift m1 l2) by (unfold f; by rewrite Hl1, Hl2). rewrite Hfr. assert (Hshl : length (shift m1 l2) = length l2) by (unfold shift; by rewrite fmap_length).
      split; [rewrite stored_app; fold S1; unfold stored; cbn; rewrite app_nil_r, app_length; lia|]. split; [by rewrite insert_length|]. split; [lia|]. split; [lia|]. rewrite concat_app, !fmap_app. cbn [concat]. rewrite !app_nil_r, !fmap_app. split; [|split].
      - rewrite app_assoc. apply (pre_app cs1); [apply (pre_app cs)|..]; rewrite ?app_length, ?fmap_length; change (length (concat (rows_fn f r))) with S1.
        + done.
        + intros j Hj. rewrite C1 by done. destruct (lookup_lt_is_Some_2 l1 j ltac:(lia)) as [e He]. destruct (reads_entry _ _ _ _ _ _ _ _ HR1 Hl1 He) as [-> _]. by rewrite list_lookup_fmap, He.
        + intros j Hj. apply C1'. lia.
        + intros j Hj. apply C2. lia.
        + intros j Hj. by apply C2'.
      - rewrite app_assoc. apply (pre_app vs1); [apply (pre_app vs)|..]; rewrite ?app_length, ?fmap_length; change (length (concat (rows_fn f r))) with S1.
        + done.
        + intros j Hj. rewrite V1 by done. destruct (lookup_lt_is_Some_2 l1 j ltac:(lia)) as [e He]. destruct (reads_entry _ _ _ _ _ _ _ _ HR1 Hl1 He) as [_ ->]. by rewrite list_lookup_fmap, He.
        + intros j Hj. apply V1'. lia.
        + intros j Hj. rewrite Hshl in Hj. rewrite V2 by lia. destruct (lookup_lt_is_Some_2 l2 j ltac:(lia)) as [e He]. destruct (reads_entry _ _ _ _ _ _ _ _ HR2 Hl2 He) as [_ ->]. unfold shift. by rewrite !list_lookup_fmap, He.
        + intros j Hj. apply V2'. lia.
      - intros j Hj. destruct (decide (j = r)) as [->|]; [rewrite list_lookup_insert by lia; f_equal; fold S1; lia|]. rewrite list_lookup_insert_ne by done. apply Hro. lia. }
    cbn [obind]. rewrite wr_Ok by lia. cbn [obind]. eexists _, _. split; [done|]. eapply (built_sparse _ _ _ (rows_fn f n)).
    - apply pre_built; [done|done|by rewrite insert_length|done|done|]. intros j Hj. rewrite rows_fn_length in Hj. destruct (decide (j = n)) as [->|].
      + rewrite list_lookup_insert by lia. rewrite take_ge by (rewrite rows_fn_length; lia). rewrite Hst by lia. by rewrite !take_ge by lia.
      + rewrite list_lookup_insert_ne by done. rewrite Hro by lia. do 2 f_equal. unfold rows_fn. rewrite <- fmap_take. f_equal. replace n with (j + (n - j)) by lia. rewrite seq_app. rewrite take_app_alt; [done|by rewrite seq_length].
    - apply rows_fn_length.
    - apply Forall_lookup_2. intros r l Hl. apply rows_fn_lookup in Hl as [Hr ->]. destruct (lookup_lt_is_Some_2 rs1 r ltac:(lia)) as [l1 Hl1]. destruct (lookup_lt_is_Some_2 rs2 r ltac:(lia)) as [l2 Hl2]. unfold f. rewrite Hl1, Hl2.
      destruct (reads_row _ _ _ _ _ _ HR1 Hl1) as (_ & [Hs1 Hf1] & _). destruct (reads_row _ _ _ _ _ _ HR2 Hl2) as (_ & [Hs2 Hf2] & _). rewrite Hc1 in Hf1. rewrite Hc2 in Hf2. rewrite Forall_forall in Hf1, Hf2.
      assert (Hsh : (shift m1 l2).*1 = (fun c => c + m1) <$> l2.*1) by (unfold shift; rewrite <- !list_fmap_compose; done).
      split; rewrite fmap_app, Hsh.
      + apply ss_app. split; [done|]. split.
        * clear - Hs2. induction Hs2 as [|c l Hs IH Hf]; [constructor|]. rewrite fmap_cons. constructor; [done|]. apply Forall_fmap. eapply Forall_impl; [exact Hf|]. cbn. lia.
        * apply Forall_forall. intros x Hx. apply Forall_fmap, Forall_forall. intros y Hy. specialize (Hf1 _ Hx). cbn in *. lia.
      + apply Forall_app. split; [apply Forall_forall; intros c Hc; specialize (Hf1 _ Hc); cbn in *; lia|]. apply Forall_fmap, Forall_forall. intros c Hc. specialize (Hf2 _ Hc). cbn in *. lia.
    - intros r c l Hr Hc Hl. apply rows_fn_lookup in Hl as [_ ->]. destruct (lookup_lt_is_Some_2 rs1 r ltac:(lia)) as [l1 Hl1]. destruct (lookup_lt_is_Some_2 rs2 r ltac:(lia)) as [l2 Hl2]. unfold f, beside, cell. rewrite Hl1, Hl2. rewrite !cell_in_find. destruct (reads_row _ _ _ _ _ _ HR1 Hl1) as (_ & [Hs1 Hf1] & _). rewrite Hc1 in Hf1. clear - Hf1.
      assert (Hsh : find_col c (shift m1 l2) = if decide (c < m1) then None else find_col (c - m1) l2).
      { induction l2 as [|[c0 v] l2 IH]; [by case_decide|]. cbn [shift fmap list_fmap find_col fst snd]. fold (shift m1 l2). rewrite IH. repeat case_decide; try done; lia. }
      induction l1 as [|[c0 v] l1 IH]; cbn [app find_col]; [rewrite Hsh; by case_decide|]. rewrite fmap_cons in Hf1. apply Forall_cons in Hf1 as [H0 Hf1]. cbn in H0. destruct (decide (c0 = c)) as [Hd|Hd]; [rewrite (decide_True (P := c < m1)) by lia; done|]. by apply IH.
  Qed.

  Definition replace_entry (m m' : nat) (t : nat * nat * V) : nat * nat * V := ((t.1.1 * m + t.1.2) / m', (t.1.1 * m + t.1.2) mod m', t.2).
  Lemma triples_vals k (rs : list (row V)) : (triples_from k rs).*2 = (concat rs).*2.
  Proof. revert k. induction rs as [|l rs IH]; intros k; [done|]. rewrite triples_cons. cbn [concat]. rewrite !fmap_app, IH. f_equal. rewrite <- list_fmap_compose. done. Qed.
  Lemma cnt_below_app (es1 es2 : list (nat * nat * V)) j : cnt_below (es1 ++ es2) j = cnt_below es1 j + cnt_below es2 j.
  Proof. unfold cnt_below. by rewrite filter_app, app_length. Qed.
  Lemma cnt_below_none (es : list (nat * nat * V)) j : Forall (fun e => j <= e.1.1) es -> cnt_below es j = 0.
  Proof. intros Hf. unfold cnt_below. rewrite SparseBuild.filter_none; [done|]. eapply Forall_impl; [exact Hf|]. cbn. lia. Qed.
  Lemma cnt_below_all (es : list (nat * nat * V)) j : Forall (fun e => e.1.1 < j) es -> cnt_below es j = length es.
  Proof. intros Hf. unfold cnt_below. by rewrite filter_all_rows. Qed.
  (** Row offsets are written up to a row behind all entries. *)
  Lemma fill_offsets (es : list (nat * nat * V)) n' p q ro : p <= q -> q <= n' -> length ro = n' + 1 -> Forall (fun e => e.1.1 <= p) es -> (forall j, j <= p -> ro !! j = Some (cnt_below es j)) ->
    exists ro', for_up p q (fun i ro => wr ro (i + 1) (length es)) ro = Ok ro' /\ length ro' = n' + 1 /\ forall j, j <= q -> ro' !! j = Some (cnt_below es j).
  Proof.
    intros Hpq Hq Hl Hf Hro. match goal with |- context [for_up p q ?F ro] => destruct (for_up_inv (fun i (ro : list nat) => length ro = n' + 1 /\ forall j, j <= i -> ro !! j = Some (cnt_below es j)) p q F ro) as (ro' & E & Hr) end.
    - done.
    - done.
    - intros i ro1 Hi [Hl1 Hr1]. rewrite wr_Ok by lia. eexists. split; [done|]. split; [by rewrite insert_length|]. intros j Hj. destruct (decide (j = i + 1)) as [->|]; [|rewrite list_lookup_insert_ne by done; apply Hr1; lia]. rewrite list_lookup_insert by lia. f_equal. symmetry. apply cnt_below_all. eapply Forall_impl; [exact Hf|]. cbn. lia.
    - exists ro'. split; [done|]. exact Hr.
  Qed.
  Lemma for_up_0 {St} lo hi (f : nat -> St -> outcome St) s : for_up 0 (hi - lo) (fun i => f (lo + i)) s = for_up lo hi f s.
  Proof.
    unfold for_up. rewrite Nat.sub_0_r. generalize (hi - lo) as n. intros n. replace (forn n lo f s) with (forn n (lo + 0) f s) by (by rewrite Nat.add_0_r). generalize 0 as k. intros k. revert k s. induction n as [|n IH]; intros k s; [done|]. cbn [forn]. destruct (f (lo + k) s) as [s'| |]; [|done|done]. cbn [obind]. rewrite IH. by replace (lo + S k) with (S (lo + k)) by lia.
  Qed.
  Lemma reshape_csr_ok b h rs n m n' m' : shows b h rs -> h_rows h = n -> h_cols h = m -> n' * m' = n * m -> (csr_isView h = false -> h_off h = 0) ->
    exists b' h', reshape_csr alloc b h n' m' = Ok (b', h') /\ sparse_cells b' h' n' m' (reshaped m m' (cell rs)).
  Proof.
    intros Hsh Hr Hc Emul Hview. pose proof Hsh as (base & HR & Hbase)%shows_reads. unfold reshape_csr. cbv zeta. rewrite Hr, Hc.
    assert (Hre : forall r c, r < n' -> c < m' -> exists q k, q < n /\ k < m /\ r * m' + c = q * m + k /\ reshaped m m' (cell rs) r c = cell rs q k).
    { intros r c Hr' Hc'. pose proof (pos_lt n' m' r c Hr' Hc') as Hp. rewrite Emul in Hp. destruct (pos_split n m _ Hp) as (q & k & Hq & Hk & Eq). exists q, k. split; [done|]. split; [done|]. split; [done|]. unfold reshaped. rewrite Eq. rewrite Nat.div_add_l by lia. rewrite Nat.div_small by lia. rewrite Nat.add_0_r. f_equal. rewrite Nat.add_comm, Nat.mod_add by lia. by apply Nat.mod_small. }
    case_decide as Hd.
    { destruct Hd as [-> ->]. eexists _, _. split; [done|]. split; [by exists rs|]. split; [done|]. split; [done|]. intros r c Hr' Hc'. destruct (Hre r c Hr' Hc') as (q & k & Hq & Hk & Eq & ->). apply pos_inj in Eq as [-> ->]; [|done|done]. by apply (shows_cell _ _ rs); rewrite ?Hr, ?Hc. }
    rewrite decide_False by (unfold mul64; rewrite <- !Nat2Z.inj_mul, Emul; tauto). rewrite (reads_nnz _ _ _ _ HR). cbn [obind]. set (nnz := stored rs). destruct (Halloc n' nnz) as (Lv & Lc & Lr). set (res := alloc n' nnz) in *.
    pose proof (rd_rows _ _ _ _ HR) as Hlen. rewrite Hr in Hlen. pose proof (rd_len_v _ _ _ _ HR) as Bv. fold nnz in Bv. pose proof (rd_ok _ _ _ _ HR) as Hok. rewrite Hc in Hok.
    assert (Hvs : exists vs, (if csr_isView h then let* s := roff b h 0 in copy_range (bvals res) 0 (bvals b) s nnz else Ok (take nnz (bvals b))) = Ok vs /\ length vs = nnz /\ forall j, j < nnz -> vs !! j = (concat rs).*2 !! j).
    { destruct (csr_isView h).
      - rewrite (rd_off _ _ _ _ HR 0) by lia. cbn [obind]. change (stored (take 0 rs)) with 0. rewrite (Nat.add_0_r base). destruct (copy_range_spec (bvals res) 0 (bvals b) base nnz) as (vs & -> & Hlv & Hv & _); [lia|lia|]. exists vs. split; [done|]. split; [lia|]. intros j Hj. rewrite <- (rd_vals _ _ _ _ HR j Hj). by apply Hv.
      - exists (take nnz (bvals b)). split; [done|]. specialize (Hbase (Hview eq_refl)). subst base. split; [rewrite take_length; lia|]. intros j Hj. rewrite lookup_take by done. by apply (rd_vals _ _ _ _ HR). }
    destruct Hvs as (vs & -> & Hlv & Hv). cbn [obind]. rewrite wr_Ok by lia. cbn [obind]. set (E := replace_entry m m').
    set (step := fun (t : nat * nat * V) (s : list nat * list nat * nat * nat) => let '(ro, cs, rprev, k) := s in if decide (m' = 0) then UB else
        let* ro := for_up rprev ((t.1.1 * m + t.1.2) / m') (fun q ro => wr ro (q + 1) k) ro in let* cs := wr cs k ((t.1.1 * m + t.1.2) mod m') in Ok (ro, cs, (t.1.1 * m + t.1.2) / m', k + 1)).
    match goal with |- context [for_up 0 n ?F ?s0] => set (loop := for_up 0 n F s0) end.
    assert (Eloop : loop = ofold step (triples rs) (<[0:=0]> (broff res), bcols res, 0, 0)).
    { unfold loop. rewrite <- Hr.
      rewrite <- (entries_loop b h base rs (fun r j (s : list nat * list nat * nat * nat) => let '(ro, cs, rprev, k) := s in
        let* c := rd (bcols b) j in if decide (m' = 0) then UB else let* ro := for_up rprev ((r * m + c) / m') (fun q ro => wr ro (q + 1) k) ro in let* cs := wr cs k ((r * m + c) mod m') in Ok (ro, cs, (r * m + c) / m', k + 1)) step _ HR).
      - apply for_up_ext. intros r s Hr'. destruct (roff b h r) as [p| |]; [|done|done]. cbn [obind]. destruct (roff b h (r + 1)) as [e| |]; [|done|done]. cbn [obind]. rewrite <- (for_up_0 p e). done.
      - intros r j c v [[[ro cs] rprev] k] Hr' Hcj _ _. rewrite (rd_Ok _ _ _ Hcj). done. }
    rewrite Eloop. clear loop Eloop. pose proof (triples_sorted m rs 0 Hok) as Hsort. pose proof (triples_pos m rs 0 Hok) as Hpos. fold (triples rs) in Hsort, Hpos.
    assert (Hm' : triples rs <> [] -> 0 < m'). { intros Hne. destruct (triples rs) as [|t T] eqn:ET; [done|]. apply Forall_cons in Hpos as [Hp _]. destruct (decide (m' = 0)) as [->|]; [|lia]. rewrite Nat.mul_0_r in Emul. nia. }
    assert (Hbnd : forall t, t ∈ triples rs -> (t.1.1 * m + t.1.2) < n' * m'). { intros t Ht. rewrite Forall_forall in Hpos. specialize (Hpos t Ht). rewrite Emul. apply pos_lt; lia. }
    match goal with |- context [ofold step _ ?s0] => destruct (ofold_inv (fun pre (s : list nat * list nat * nat * nat) => let '(ro, cs, rprev, k) := s in
      k = length (E <$> pre) /\ length ro = n' + 1 /\ length cs = nnz /\ rprev <= n' /\ Forall (fun e => e.1.1 <= rprev) (E <$> pre) /\ (forall j, j <= rprev -> ro !! j = Some (cnt_below (E <$> pre) j)) /\ (forall i e, (E <$> pre) !! i = Some e -> cs !! i = Some e.1.2) /\
      (match last pre with Some t => rprev = (t.1.1 * m + t.1.2) / m' | None => rprev = 0 end)) step (triples rs) s0) as ([[[ro cs] rprev] k] & -> & -> & Hlr & Hlc & Hrp & Hle & Hro & Hcs & _) end.
    { split; [done|]. split; [by rewrite insert_length|]. split; [done|]. split; [lia|]. split; [constructor|]. split; [|done]. intros j Hj. replace j with 0 by lia. apply list_lookup_insert. lia. }
    { intros pre t post [[[ro cs] rprev] k] Ht (-> & Hlr & Hlc & Hrp & Hle & Hro & Hcs & Hlast). assert (Hin : t ∈ triples rs) by (rewrite Ht; apply elem_of_app; right; left). assert (Hm0 : 0 < m') by (apply Hm'; rewrite Ht; by destruct pre). unfold step. cbn [obind]. rewrite decide_False by lia. set (pos := t.1.1 * m + t.1.2).
      assert (Hq : pos / m' < n'). { specialize (Hbnd t Hin). apply Nat.div_lt_upper_bound; [lia|]. unfold pos. lia. }
      assert (Hpq : rprev <= pos / m'). { destruct (last pre) as [t0|] eqn:El; [|lia]. apply last_Some in El as (pre' & ->). rewrite Hlast. apply Nat.div_le_mono; [lia|]. unfold pos. rewrite Ht in Hsort. rewrite <- app_assoc in Hsort. apply StronglySorted_app_inv_r in Hsort. cbn in Hsort. apply StronglySorted_inv in Hsort as [_ Hs]. apply Forall_cons in Hs as [Hs _]. lia. }
      destruct (fill_offsets (E <$> pre) n' rprev (pos / m') ro) as (ro' & -> & Hlr' & Hro'); [done|lia|done|done|done|]. cbn [obind].
      assert (Hk : length (E <$> pre) < nnz). { rewrite fmap_length. unfold nnz. rewrite <- (triples_length 0 rs). fold (triples rs). rewrite Ht, app_length. cbn. lia. }
      rewrite wr_Ok by lia. cbn [obind]. eexists. split; [done|]. rewrite fmap_app. cbn [fmap list_fmap]. split; [rewrite app_length; done|]. split; [done|]. split; [by rewrite insert_length|]. split; [lia|]. split.
      { apply Forall_app. split; [|by repeat constructor]. eapply Forall_impl; [exact Hle|]. cbn. lia. }
      split. { intros j Hj. rewrite cnt_below_app, (cnt_below_none [_]), Nat.add_0_r; [by apply Hro'|]. repeat constructor. cbn. exact Hj. }
      split. { intros i e Hi. destruct (decide (i = length (E <$> pre))) as [->|].
        - rewrite list_lookup_insert by lia. rewrite lookup_app_r in Hi by lia. rewrite Nat.sub_diag in Hi. cbn in Hi. by injection Hi as <-.
        - rewrite list_lookup_insert_ne by done. apply Hcs. apply lookup_lt_Some in Hi as Hil. rewrite app_length in Hil. cbn in Hil. by rewrite lookup_app_l in Hi by lia. }
      by rewrite last_snoc. }
    cbn [obind]. destruct (fill_offsets (E <$> triples rs) n' rprev n' ro) as (ro' & -> & Hlr' & Hro'); [done|done|done|done|done|]. cbn [obind]. eexists _, _. split; [done|]. apply (entries_sparse nnz n' m' (E <$> triples rs)); [|done|done|done| |done| |].
    - split.
      + assert (Hb2 : Forall (fun t => 0 < m') (triples rs)) by (apply Forall_forall; intros t Ht; apply Hm'; intros E0; rewrite E0 in Ht; by apply elem_of_nil in Ht). clear - Hsort Hb2. induction Hsort as [|t T Hs IH Hf]; [constructor|]. apply Forall_cons in Hb2 as [Hm0 Hb2]. rewrite fmap_cons. constructor; [by apply IH|]. apply Forall_fmap. eapply Forall_impl; [exact Hf|]. intros u Hu. cbn in *.
        pose proof (Nat.div_mod (t.1.1 * m + t.1.2) m' ltac:(lia)) as D1. pose proof (Nat.div_mod (u.1.1 * m + u.1.2) m' ltac:(lia)) as D2. pose proof (Nat.div_le_mono (t.1.1 * m + t.1.2) (u.1.1 * m + u.1.2) m' ltac:(lia) ltac:(lia)) as D3. destruct (decide ((t.1.1 * m + t.1.2) / m' = (u.1.1 * m + u.1.2) / m')) as [Ed|Ed]; [right; split; [done|]; rewrite Ed in D1; lia|left; lia].
      + apply Forall_fmap, Forall_forall. intros t Ht. cbn. assert (0 < m') by (apply Hm'; intros E0; rewrite E0 in Ht; by apply elem_of_nil in Ht). specialize (Hbnd t Ht). split; [apply Nat.div_lt_upper_bound; lia|apply Nat.mod_upper_bound; lia].
    - intros i e Hi. split; [by apply Hcs|]. assert (Hi' := Hi). rewrite list_lookup_fmap in Hi'. destruct (triples rs !! i) as [t|] eqn:Et; [|done]. cbn in Hi'. injection Hi' as <-. cbn. assert (Hin : i < nnz) by (apply lookup_lt_Some in Et; unfold triples in Et; by rewrite triples_length in Et). rewrite Hv by done. rewrite <- (triples_vals 0). fold (triples rs). by rewrite list_lookup_fmap, Et.
    - intros r c v Hin. apply elem_of_list_fmap in Hin as ([[q k] w] & Heq & Hin). unfold E, replace_entry in Heq. cbn [fst snd] in Heq. injection Heq as -> -> ->. assert (Hm0 : 0 < m') by (apply Hm'; intros E0; rewrite E0 in Hin; by apply elem_of_nil in Hin). unfold reshaped. rewrite (Nat.mul_comm _ m'). rewrite <- Nat.div_mod by lia. rewrite Forall_forall in Hpos. specialize (Hpos _ Hin) as [_ Hk]. cbn in Hk. rewrite Nat.div_add_l by lia. rewrite Nat.div_small by lia. rewrite Nat.add_0_r. replace ((q * m + k) mod m) with k by (rewrite Nat.add_comm, Nat.mod_add by lia; symmetry; by apply Nat.mod_small). rewrite cell_colG. apply (elem_of_triples m) in Hin; [|done]. by rewrite Hin.
    - intros r c Hr' Hc' Hno. destruct (Hre r c Hr' Hc') as (q & k & Hq & Hk & Eq & ->). rewrite cell_colG. destruct (colG rs k q) as [v|] eqn:Ec; [|done]. exfalso. apply (elem_of_triples m) in Ec; [|done]. apply (Hno v). apply elem_of_list_fmap. exists (q, k, v). split; [|done]. unfold E, replace_entry. cbn [fst snd]. rewrite <- Eq. rewrite Nat.div_add_l by lia. rewrite Nat.div_small by lia. rewrite Nat.add_0_r. rewrite Nat.add_comm, Nat.mod_add by lia. by rewrite Nat.mod_small.
  Qed.
End Sparse.

(** * Theorems. Arguments may be views. [alloc_ok]: newly allocated arrays have the requested sizes; their contents are arbitrary. *)
Definition alloc_ok {V} (alloc : nat -> nat -> csrbuf V) : Prop := forall n nnz, length (bvals (alloc n nnz)) = nnz /\ length (bcols (alloc n nnz)) = nnz /\ length (broff (alloc n nnz)) = n + 1.
Definition junk_ok {V} (junk : nat -> list V) : Prop := forall k, length (junk k) = k.
Lemma sparse_cells_ext {V} `{Val V} (b : csrbuf V) h n m x y : sparse_cells b h n m x -> (forall r c, r < n -> c < m -> x r c = y r c) -> sparse_cells b h n m y.
Proof. intros (H1 & H2 & H3 & Hx) He. split; [done|]. split; [done|]. split; [done|]. intros r c Hr Hc. rewrite Hx by done. f_equal. by apply He. Qed.

Section theorems.
  Context {V : Type} `{Val V} (junk : nat -> list V) (alloc : nat -> nat -> csrbuf V).
  Implicit Types (a u l : dmat V) (b : csrbuf V) (h : csrh) (x y : nat -> nat -> V).

  (** C47. Row r of the reversed matrix is row n - 1 - r. *)
  Theorem C47_reverse a n m x : junk_ok junk -> is_dense a n m x -> 0 < m \/ m_skip a <> 1 -> exists res, reverse_dense junk a = Ok res /\ is_dense res n m (fun r c => x (n - 1 - r) c).
  Proof. intros Hj. by apply reverse_ok. Qed.
  Theorem C47_reverse_twice a n m x : junk_ok junk -> is_dense a n m x -> 0 < m -> exists r1 r2, reverse_dense junk a = Ok r1 /\ reverse_dense junk r1 = Ok r2 /\ is_dense r2 n m x.
  Proof.
    intros Hj Ha Hm. destruct (reverse_ok junk Hj a n m x Ha ltac:(by left)) as (r1 & E1 & H1). destruct (reverse_ok junk Hj r1 n m _ H1 ltac:(by left)) as (r2 & E2 & H2). exists r1, r2. split; [done|]. split; [done|]. eapply is_dense_ext; [exact H2|]. intros r c Hr Hc. cbn beta. f_equal. lia.
  Qed.
  (** The matrix with a vector on its diagonal, and the diagonal of a square matrix. *)
  Theorem C47_diag_matrix_dense a n x : is_dense a n 1 x -> exists res, diag_matrix_dense a = Ok res /\ is_dense res n n (diag_cell x).
  Proof. apply diag_matrix_ok. Qed.
  Theorem C47_diag_matrix_to_sparse a n x : alloc_ok alloc -> is_dense a n 1 x -> exists b h, diag_matrix_sd alloc a = Ok (b, h) /\ sparse_cells b h n n (diag_cell (fun r c => if viszero (x r c) then vzero else x r c)).
  Proof. intros Ha. by apply (diag_matrix_sd_ok alloc Ha). Qed.
  Theorem C47_diag_matrix_sparse b h n x : alloc_ok alloc -> sparse_cells b h n 1 x -> exists b' h', diag_matrix_ss alloc b h = Ok (b', h') /\ sparse_cells b' h' n n (diag_cell x).
  Proof.
    intros Ha (rs & Hs & Hr & Hc & Hx)%sparse_cells_cell. destruct (diag_matrix_ss_ok alloc Ha b h rs n Hs Hr Hc) as (b' & h' & E & Hc'). exists b', h'. split; [done|]. eapply sparse_cells_ext; [exact Hc'|]. intros r c Hr' Hc2. unfold diag_cell. case_decide; [|done]. apply Hx; lia.
  Qed.
  Theorem C47_diag_vector_dense a n x : junk_ok junk -> is_dense a n n x -> 0 < n -> exists res, diag_vector_dense junk a = Ok res /\ is_dense res n 1 (fun r _ => x r r).
  Proof. intros Hj. by apply diag_vector_ok. Qed.
  Theorem C47_diag_vector_sparse b h n x : junk_ok junk -> sparse_cells b h n n x -> 0 < n -> exists res, diag_vector_csr junk b h = Ok res /\ is_dense res n 1 (fun r _ => x r r).
  Proof.
    intros Hj (rs & Hs & Hr & Hc & Hx)%sparse_cells_cell Hn. destruct (diag_vector_csr_ok junk Hj b h rs n Hs Hr Hc Hn) as (res & E & Hd). exists res. split; [done|]. eapply is_dense_ext; [exact Hd|]. intros r c Hr' _. by apply Hx.
  Qed.
  (** The diagonal of the matrix built from a vector is the vector. *)
  Theorem C47_diag_roundtrip a n x : junk_ok junk -> is_dense a n 1 x -> 0 < n -> exists d v, diag_matrix_dense a = Ok d /\ diag_vector_dense junk d = Ok v /\ is_dense v n 1 x.
  Proof.
    intros Hj Ha Hn. destruct (diag_matrix_ok a n x Ha) as (d & E1 & Hd). destruct (diag_vector_ok junk Hj d n _ Hd Hn) as (v & E2 & Hv). exists d, v. split; [done|]. split; [done|]. eapply is_dense_ext; [exact Hv|]. intros r c Hr Hc. cbn beta. unfold diag_cell. rewrite decide_True by done. f_equal. lia.
  Qed.
  (** Anything else throws. *)
  Theorem C47_diag_throws a n m x b h y : is_dense a n m x -> sparse_cells b h n m y ->
    (m <> 1 -> diag_matrix_dense a = Throw /\ diag_matrix_sd alloc a = Throw /\ diag_matrix_ss alloc b h = Throw) /\
    (n <> m \/ n = 0 -> diag_vector_dense junk a = Throw /\ diag_vector_csr junk b h = Throw).
  Proof.
    intros (Hr & Hc & _) (_ & Hr' & Hc' & _). split.
    - intros Hm. unfold diag_matrix_dense, diag_matrix_sd, diag_matrix_ss. rewrite Hc, Hc'. rewrite !decide_True by done. done.
    - intros Hm. unfold diag_vector_dense, diag_vector_csr. cbv zeta. rewrite Hr, Hc, Hr', Hc'. destruct (decide (n <> m)) as [Hd|Hd]; [done|]. rewrite !decide_True by (destruct Hm; done). done.
  Qed.

  (** C48. Triangular parts. *)
  Theorem C48_tri_dense one upper diag values a n x : is_dense a n n x -> exists res, tri_dense one upper diag values a = Ok res /\ is_dense res n n (tri_cell one upper diag values x).
  Proof. apply tri_dense_ok. Qed.
  Theorem C48_tri_sparse one upper diag values b h n x : viszero vzero = true -> alloc_ok alloc -> sparse_cells b h n n x ->
    exists b' h', tri_csr alloc one upper diag values b h = Ok (b', h') /\ sparse_cells b' h' n n (tri_cell one upper diag values x).
  Proof.
    intros Hz Ha (rs & Hs & Hr & Hc & Hx)%sparse_cells_cell. destruct (tri_csr_ok alloc Ha one upper diag values b h rs n Hz Hs Hr Hc) as (b' & h' & E & Hc'). exists b', h'. split; [done|]. eapply sparse_cells_ext; [exact Hc'|]. intros r c Hr' Hc2. unfold tri_cell. by rewrite Hx.
  Qed.
  Theorem C48_tri_throws one upper diag values a n m x b h y : is_dense a n m x -> sparse_cells b h n m y -> n <> m -> tri_dense one upper diag values a = Throw /\ tri_csr alloc one upper diag values b h = Throw.
  Proof. intros (Hr & Hc & _) (_ & Hr' & Hc' & _) Hm. unfold tri_dense, tri_csr. cbv zeta. rewrite Hr, Hc, Hr', Hc'. rewrite !decide_True by done. done. Qed.

  (** C49. Binding. *)
  Theorem C49_rbind_dense u l n1 n2 m x y : junk_ok junk -> is_dense u n1 m x -> is_dense l n2 m y -> (m_skip u = m \/ n1 <= 1) -> (m_skip l = m \/ n2 <= 1) -> exists res, row_bind_dense junk u l = Ok res /\ is_dense res (n1 + n2) m (above n1 x y).
  Proof. intros Hj. by apply row_bind_ok. Qed.
  Theorem C49_cbind_dense u l n m1 m2 x y : junk_ok junk -> is_dense u n m1 x -> is_dense l n m2 y -> exists res, col_bind_dense junk u l = Ok res /\ is_dense res n (m1 + m2) (beside m1 x y).
  Proof. intros Hj. by apply col_bind_ok. Qed.
  Theorem C49_rbind_sparse b1 h1 b2 h2 n1 n2 m x y : alloc_ok alloc -> sparse_cells b1 h1 n1 m x -> sparse_cells b2 h2 n2 m y -> (csr_isView h1 = false -> h_off h1 = 0) ->
    exists b h, row_bind_csr alloc b1 h1 b2 h2 = Ok (b, h) /\ sparse_cells b h (n1 + n2) m (above n1 x y).
  Proof.
    intros Ha (rs1 & Hs1 & Hr1 & Hc1 & Hx1)%sparse_cells_cell (rs2 & Hs2 & Hr2 & Hc2 & Hx2)%sparse_cells_cell Hv. destruct (row_bind_csr_ok alloc Ha b1 h1 b2 h2 rs1 rs2 n1 n2 m Hs1 Hr1 Hc1 Hs2 Hr2 Hc2 Hv) as (b & h & E & Hc). exists b, h. split; [done|]. eapply sparse_cells_ext; [exact Hc|].
    intros r c Hr Hcc. unfold above. case_decide; [apply Hx1|apply Hx2]; lia.
  Qed.
  Theorem C49_cbind_sparse b1 h1 b2 h2 n m1 m2 x y : alloc_ok alloc -> sparse_cells b1 h1 n m1 x -> sparse_cells b2 h2 n m2 y ->
    exists b h, col_bind_csr alloc b1 h1 b2 h2 = Ok (b, h) /\ sparse_cells b h n (m1 + m2) (beside m1 x y).
  Proof.
    intros Ha (rs1 & Hs1 & Hr1 & Hc1 & Hx1)%sparse_cells_cell (rs2 & Hs2 & Hr2 & Hc2 & Hx2)%sparse_cells_cell. destruct (col_bind_csr_ok alloc Ha b1 h1 b2 h2 rs1 rs2 n m1 m2 Hs1 Hr1 Hc1 Hs2 Hr2 Hc2) as (b & h & E & Hc). exists b, h. split; [done|]. eapply sparse_cells_ext; [exact Hc|].
    intros r c Hr Hcc. unfold beside. case_decide; [apply Hx1|apply Hx2]; lia.
  Qed.
  Theorem C49_throws u l n1 m1 n2 m2 x y b1 h1 b2 h2 x' y' : is_dense u n1 m1 x -> is_dense l n2 m2 y -> sparse_cells b1 h1 n1 m1 x' -> sparse_cells b2 h2 n2 m2 y' ->
    (m1 <> m2 -> row_bind_dense junk u l = Throw /\ row_bind_csr alloc b1 h1 b2 h2 = Throw) /\ (n1 <> n2 -> col_bind_dense junk u l = Throw /\ col_bind_csr alloc b1 h1 b2 h2 = Throw).
  Proof.
    intros (Hr1 & Hc1 & _) (Hr2 & Hc2 & _) (_ & Hr1' & Hc1' & _) (_ & Hr2' & Hc2' & _). unfold row_bind_dense, row_bind_csr, col_bind_dense, col_bind_csr. rewrite Hc1, Hc2, Hr1, Hr2, Hc1', Hc2', Hr1', Hr2'. split; intros Hn; rewrite !decide_True by done; done.
  Qed.

  (** C50. Reshaping keeps the row-major sequence of the cells. *)
  Theorem C50_reshape_dense a n m n' m' x : junk_ok junk -> is_dense a n m x -> m_off a <= length (m_buf a) -> n' * m' = n * m -> exists res, reshape_dense junk a n' m' = Ok res /\ is_dense res n' m' (reshaped m m' x).
  Proof. intros Hj. by apply reshape_ok. Qed.
  Theorem C50_reshape_sparse b h n m n' m' x : alloc_ok alloc -> sparse_cells b h n m x -> n' * m' = n * m -> (csr_isView h = false -> h_off h = 0) ->
    exists b' h', reshape_csr alloc b h n' m' = Ok (b', h') /\ sparse_cells b' h' n' m' (reshaped m m' x).
  Proof.
    intros Ha (rs & Hs & Hr & Hc & Hx)%sparse_cells_cell E Hv. destruct (reshape_csr_ok alloc Ha b h rs n m n' m' Hs Hr Hc E Hv) as (b' & h' & E' & Hc'). exists b', h'. split; [done|]. eapply sparse_cells_ext; [exact Hc'|].
    intros r c Hr' Hc2. pose proof (pos_lt n' m' r c Hr' Hc2) as Hp. rewrite E in Hp. unfold reshaped. apply Hx; [apply Nat.div_lt_upper_bound; [|lia]|apply Nat.mod_upper_bound]; intros ->; lia.
  Qed.
  (** Other numbers of cells are refused as long as they are below 2^64. *)
  Theorem C50_throws a n m n' m' x b h y : is_dense a n m x -> sparse_cells b h n m y -> (Z.of_nat n * Z.of_nat m < 2 ^ 64)%Z -> (Z.of_nat n' * Z.of_nat m' < 2 ^ 64)%Z -> n' * m' <> n * m ->
    reshape_dense junk a n' m' = Throw /\ reshape_csr alloc b h n' m' = Throw.
  Proof.
    intros (Hr & Hc & _) (_ & Hr' & Hc' & _) H1 H2 Hne. unfold reshape_dense, reshape_csr. cbv zeta. rewrite Hr, Hc, Hr', Hc'. assert (Hd : mul64 n' m' <> mul64 n m) by (unfold mul64; rewrite !Z.mod_small by lia; lia).
    rewrite !(decide_False (P := n' = n /\ m' = m)) by (intros [-> ->]; done). rewrite !decide_True by done. done.
  Qed.
End theorems.

(** * What does not hold *)
Local Instance Val_nat : Val nat := { vzero := 0; viszero := Nat.eqb 0 }.
Definition jk (k : nat) : list nat := replicate k 9.
Definition al (n nnz : nat) : csrbuf nat := mkBuf (replicate nnz 9) (replicate nnz 9) (replicate (n + 1) 9).
Lemma jk_ok : junk_ok jk. Proof. intros k. apply replicate_length. Qed.
Lemma al_ok : alloc_ok al. Proof. intros n nnz. cbn. by rewrite !replicate_length. Qed.
(** A view without columns of a matrix with one column: the kernel writes outside of the result. *)
Theorem C47_reverse_empty_view_refuted : exists (a : dmat nat) x, is_dense a 2 0 x /\ reverse_dense jk a = UB.
Proof. exists (mkDM [1; 2] 0 2 0 1), (fun _ _ => 0). split; [|done]. split; [done|]. split; [done|]. split; [cbn; lia|]. split; [cbn; right; lia|]. intros; lia. Qed.
(** A view of the first of two columns: its rows are not adjacent in memory, but rbind copies adjacent memory. *)
Theorem C49_rbind_view_refuted : exists (u l res : dmat nat) x y, is_dense u 2 1 x /\ is_dense l 1 1 y /\ row_bind_dense jk u l = Ok res /\ ~ is_dense res 3 1 (above 2 x y).
Proof.
  exists (mkDM [1; 2; 3; 4] 0 2 1 2), (mkDM [7] 0 1 1 1), (mkDM [1; 2; 7] 0 3 1 1), (fun r _ => 2 * r + 1), (fun _ _ => 7). split; [|split; [|split; [done|]]].
  - split; [done|]. split; [done|]. split; [cbn; lia|]. split; [cbn; right; lia|]. intros [|[|r]] [|c] Hr Hc; (lia || done).
  - split; [done|]. split; [done|]. split; [cbn; lia|]. split; [cbn; right; lia|]. intros [|r] [|c] Hr Hc; (lia || done).
  - intros (_ & _ & _ & _ & Hx). specialize (Hx 1 0 ltac:(lia) ltac:(lia)). done.
Qed.
(** A view of all rows of a view: the kernels do not recognise it as a view. *)
Definition vv_rows : list (row nat) := [[(0, 1); (1, 2)]; [(0, 3)]; [(1, 4)]].
Definition vv_buf : csrbuf nat := mkBuf [1; 2; 3; 4] [0; 1; 0; 1] [0; 2; 3; 4].
Definition vv_h : csrh := mkH 1 2 2 2 false 4 0.
Lemma vv_view_of_view : exists h1, csr_view (mkH 0 3 2 3 false 4 0) 1 3 = Ok h1 /\ csr_view h1 0 2 = Ok vv_h.
Proof. eexists. split; [reflexivity|reflexivity]. Qed.
Lemma vv_cells : sparse_cells vv_buf vv_h 2 2 (fun r c => match r, c with 0, 0 => 3 | 1, 1 => 4 | _, _ => 0 end).
Proof.
  split; [|split; [done|split; [done|]]].
  - exists (drop 1 vv_rows), vv_rows. split; [|done]. split; cbn; [|repeat (constructor; [split; repeat constructor; simpl; lia|]); constructor|lia|lia|lia]. split; [done|]. exists [], []. done.
  - intros [|[|r]] [|[|c]] Hr Hc; (lia || done).
Qed.
Theorem C49_rbind_view_of_view_refuted : exists b h, row_bind_csr al vv_buf vv_h (mkBuf [7] [0] [0; 1]) (mkH 0 1 2 1 false 1 0) = Ok (b, h) /\ csr_get b h 0 0 = Ok 7 /\ csr_get vv_buf vv_h 0 0 = Ok 3.
Proof. eexists _, _. split; [reflexivity|]. done. Qed.
Theorem C50_reshape_view_of_view_refuted : exists b h, reshape_csr al vv_buf vv_h 1 4 = Ok (b, h) /\ csr_get b h 0 0 = Ok 1 /\ csr_get vv_buf vv_h 0 0 = Ok 3.
Proof. eexists _, _. split; [reflexivity|]. done. Qed.
(** The numbers of cells are compared modulo 2^64. *)
Theorem C50_overflow_refuted : forall n' m', Z.of_nat n' = (2 ^ 32)%Z -> Z.of_nat m' = (2 ^ 32)%Z -> exists res : dmat nat, reshape_dense jk (mkDM [] 0 0 1 1) n' m' = Ok res /\ m_rows res = n' /\ m_cols res = m' /\ m_buf res = [].
Proof.
  intros n' m' Hn Hm. unfold reshape_dense. cbv zeta. cbn [m_rows m_cols m_skip m_buf m_off]. rewrite decide_False by lia. rewrite decide_False; [|unfold mul64; rewrite Hn, Hm; vm_compute; tauto]. rewrite decide_True by (by left). by eexists.
Qed.

(** * The theorems apply *)
Example C47_ex : exists res, reverse_dense jk (mkDM [1; 2; 3; 4; 5; 6] 1 2 1 3) = Ok res /\ m_buf res = [5; 2].
Proof. eexists. split; [reflexivity|]. done. Qed.
Example C47_ex_hyp : is_dense (mkDM [1; 2; 3; 4; 5; 6] 1 2 1 3) 2 1 (fun r _ => 3 * r + 2).
Proof. split; [done|]. split; [done|]. split; [cbn; lia|]. split; [cbn; right; lia|]. intros [|[|r]] [|c] Hr Hc; (lia || done). Qed.
(** A view of the last two rows. *)
Definition ex_h : csrh := mkH 1 2 2 2 true 4 0.
Lemma ex_cells : sparse_cells vv_buf ex_h 2 2 (fun r c => match r, c with 0, 0 => 3 | 1, 1 => 4 | _, _ => 0 end).
Proof.
  split; [|split; [done|split; [done|]]].
  - exists (drop 1 vv_rows), vv_rows. split; [|done]. split; cbn; [|repeat (constructor; [split; repeat constructor; simpl; lia|]); constructor|lia|lia|lia]. split; [done|]. exists [], []. done.
  - intros [|[|r]] [|[|c]] Hr Hc; (lia || done).
Qed.
Example C48_ex : exists b h, tri_csr al 1 false false false (mkBuf [1; 2; 3; 4] [0; 1; 0; 1] [0; 2; 4]) (mkH 0 2 2 2 false 4 0) = Ok (b, h) /\ csr_get b h 1 0 = Ok 1 /\ csr_get b h 1 1 = Ok 0 /\ csr_get b h 0 0 = Ok 0.
Proof. eexists _, _. split; [reflexivity|]. done. Qed.
Example C49_ex : exists b h, row_bind_csr al vv_buf ex_h vv_buf ex_h = Ok (b, h) /\ csr_get b h 0 0 = Ok 3 /\ csr_get b h 3 1 = Ok 4 /\ csr_isView ex_h = true.
Proof. eexists _, _. split; [reflexivity|]. done. Qed.
Example C50_ex : exists b h, reshape_csr al vv_buf ex_h 1 4 = Ok (b, h) /\ csr_get b h 0 0 = Ok 3 /\ csr_get b h 0 3 = Ok 4.
Proof. eexists _, _. split; [reflexivity|]. done. Qed.

Print Assumptions C47_reverse. Print Assumptions C47_diag_matrix_sparse. Print Assumptions C47_diag_matrix_to_sparse. Print Assumptions C47_diag_vector_sparse. Print Assumptions C47_diag_roundtrip.
Print Assumptions C48_tri_dense. Print Assumptions C48_tri_sparse. Print Assumptions C49_rbind_dense. Print Assumptions C49_cbind_dense. Print Assumptions C49_rbind_sparse. Print Assumptions C49_cbind_sparse.
Print Assumptions C50_reshape_dense. Print Assumptions C50_reshape_sparse. Print Assumptions C50_throws. Print Assumptions C50_overflow_refuted.
