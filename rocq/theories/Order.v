(** C31: ordering the rows of a matrix or frame by several keys. *)
From stdpp Require Import base numbers sorting list list_numbers.
From Coq Require Import Lia.
From Verif Require Import CppBase Mem BitmapModel Bitmap ExtractModel Extract OrderModel OrderSpec OrderProofs.
Local Open Scope nat_scope.

(** The keys of a dense matrix with the cells [x]: columns with directions. *)
Definition matrix_keys {V} (lt : V -> V -> bool) (x : nat -> nat -> V) (cols : list (nat * bool)) : list skey :=
  (fun c : nat * bool => mkSKey V lt (fun r => x r (fst c)) (snd c)) <$> cols.

(** The rows of a frame (or matrix): the computed row order is the order by the keys, ties in the order of the input; the reported groups
    are exactly the ranges of rows with equal keys. The loops end: any bound on the number of iterations that is at least the number of
    rows gives the result. *)
Theorem C31_order_index fuel n cs ss want : (Z.of_nat n < 2 ^ 63)%Z -> n <= fuel -> Forall2 (key_for n) cs ss -> cs <> [] ->
  exists p gs, order_idx fuel n cs want = Ok (Some (p, gs)) /\ ordered n ss p /\ (if want then groups_of ss p gs else gs = []).
Proof. apply order_idx_spec. Qed.

Theorem C31_order_matrix fuel {V} (lt ne : V -> V -> bool) junk (a : dmat V) n m x cols want : is_dense a n m x -> (Z.of_nat n < 2 ^ 63)%Z -> n <= fuel -> cols <> [] ->
  Forall (fun c : nat * bool => fst c < m) cols -> weak_order lt -> (forall v w, ne v w = lt v w || lt w v) -> (forall q, length (junk q) = q) ->
  exists res gs p, order_dense fuel lt ne junk a cols want = Ok (Some (res, gs)) /\ ordered n (matrix_keys lt x cols) p /\ is_dense res n m (fun r c => x (p !!! r) c) /\
    (if want then groups_of (matrix_keys lt x cols) p gs else gs = []).
Proof.
  intros Ha Hn Hfuel Hcols Hm Hw Hne Hj. pose proof Ha as (Ra & Ca & _). unfold order_dense. rewrite Ra, Ca.
  destruct (order_idx_spec fuel n (dense_keys lt ne junk a cols) (matrix_keys lt x cols) want Hn Hfuel) as (p & gs & -> & Hp & Hg).
  - unfold dense_keys, matrix_keys. clear Hcols. induction Hm as [|c cols Hc _ IH]; [constructor|]. rewrite !fmap_cons. constructor; [|done]. exists ne, a, (fst c), m, x, junk. cbn [s_type s_lt s_asc s_val]. done.
  - by destruct cols.
  - cbn [obind fst snd]. assert (Hlen : length p = n) by (destruct Hp as [Hp _]; by rewrite Hp, seq_length). destruct (extract_idx a n m x (junk (length p * m)) p Ha Hn) as (res & -> & Hres).
    + apply Forall_forall. intros i Hi. destruct Hp as [Hp _]. rewrite Hp in Hi. apply elem_of_seq in Hi. lia.
    + apply Hj.
    + rewrite Hlen in Hres. cbn [obind]. exists res, gs, p. done.
Qed.

(** The keys and the input positions determine the result. *)
Theorem C31_unique n ks p q : weak_keys ks -> ordered n ks p -> ordered n ks q -> p = q.
Proof.
  intros Hw [Pp Sp] [Pq Sq]. assert (Hasym : forall i j, comes_before ks i j -> comes_before ks j i -> False).
  { intros i j [H|[H H']] [G|[G G']].
    - pose proof (lex_trans ks i j i Hw H G) as L. apply (lex_less_not_same ks i i Hw L). unfold lex_same. apply Forall_forall. intros k Hk. unfold weak_keys in Hw. rewrite Forall_forall in Hw. apply (same_refl k (Hw k Hk)).
    - apply (lex_less_not_same ks i j Hw H). by apply lex_same_sym.
    - apply (lex_less_not_same ks j i Hw G). by apply lex_same_sym.
    - lia. }
  assert (Hpq : p ≡ₚ q) by (by rewrite Pp, Pq). clear Pp Pq. revert q Sq Hpq. induction Sp as [|x p Sp IH Hx]; intros q Sq Hpq; [by apply Permutation_nil_l in Hpq|].
  destruct q as [|y q]; [by apply Permutation_nil_r in Hpq|]. apply StronglySorted_inv in Sq as [Sq Hy]. assert (x = y) as ->.
  { destruct (decide (x = y)) as [|Hne]; [done|]. exfalso. assert (Hy' : y ∈ x :: p) by (rewrite Hpq; by left). assert (Hx' : x ∈ y :: q) by (rewrite <- Hpq; by left).
    apply elem_of_cons in Hy' as [?|Hy']; [done|]. apply elem_of_cons in Hx' as [?|Hx']; [done|]. rewrite Forall_forall in Hx, Hy. apply (Hasym x y); auto. }
  f_equal. apply IH; [done|]. by apply Permutation_cons_inv in Hpq.
Qed.

(** No key: reported. *)
Theorem C31_no_keys fuel n want : order_idx fuel n [] want = Throw.
Proof. done. Qed.

(** A value that is different from itself (NaN, here [None]) in a key column whose duplicates are searched: the loop never ends. *)
Definition nan_lt (v w : option nat) : bool := match v, w with Some v, Some w => v <? w | _, _ => false end.
Definition nan_ne (v w : option nat) : bool := match v, w with Some v, Some w => negb (v =? w) | _, _ => true end.
Definition nan_col : dmat (option nat) := mkDM [Some 1; None] 0 2 1 1.
Definition nan_key : key := mkKey (option nat) nan_lt nan_ne nan_col 0 true (fun k => replicate k None).
Lemma nan_runs fuel acc : scan_runs fuel nan_ne nan_col 0 1 2 acc = Ok None.
Proof. induction fuel as [|fuel IH]; [done|]. cbn [scan_runs]. rewrite decide_False by lia. cbn [m_buf nan_col length next_run]. rewrite decide_False by lia. cbn [rd lookup list_lookup obind nan_ne]. exact IH. Qed.
Theorem C31_nan_refuted fuel : order_idx fuel 2 [nan_key] true = Ok None.
Proof.
  unfold order_idx, multi_sort. cbn [last length Nat.sub take multi_sorts obind fst snd]. change (column_sort nan_key [(0, 2)] (seq 0 2)) with (Ok [0; 1]). cbn [obind].
  change (extract_row (k_junk nan_key (length [0; 1] * m_cols (k_mat nan_key))) (k_mat nan_key) (idx_column [0; 1])) with (Ok nan_col). cbn [obind scan_groups fst snd].
  change (m_off nan_col + 0 * m_skip nan_col + k_col nan_key) with 0. change (m_off nan_col + 2 * m_skip nan_col + k_col nan_key) with 2. destruct fuel as [|fuel]; [done|].
  cbn [scan_runs]. rewrite decide_False by lia. change (next_run (S (length (m_buf nan_col))) (k_ne nan_key) (m_buf nan_col) 0 0 2 (m_skip nan_col)) with (Ok 1). cbn [obind].
  change (k_ne nan_key) with nan_ne. change (k_col nan_key) with 0. rewrite decide_False by (cbn; lia). by rewrite nan_runs.
Qed.

(** The hypotheses are met: three columns of naturals, by the first column ascending, then the second descending. *)
Definition ex_m : dmat nat := mkDM [2; 5; 0;  1; 7; 0;  2; 6; 0;  1; 7; 1;  2; 6; 1] 0 5 3 3.
Example C31_ex : order_dense 5 Nat.ltb (fun v w => negb (v =? w)) (fun k => replicate k 0) ex_m [(0, true); (1, false)] true =
  Ok (Some (mkDM [1; 7; 0;  1; 7; 1;  2; 6; 0;  2; 6; 1;  2; 5; 0] 0 5 3 3, [(0, 2); (2, 4)])).
Proof. done. Qed.
Example C31_ex_weak : weak_order Nat.ltb /\ forall v w, negb (v =? w) = (v <? w) || (w <? v).
Proof.
  split.
  - split; [intros x; apply Nat.ltb_irrefl|]. split; intros x y z; rewrite !Nat.ltb_lt; lia.
  - intros v w. destruct (Nat.eqb_spec v w), (Nat.ltb_spec v w), (Nat.ltb_spec w v); cbn; lia || done.
Qed.
Lemma ex_m_dense : is_dense ex_m 5 3 (fun r c => m_buf ex_m !!! (r * 3 + c)).
Proof.
  split; [done|]. split; [done|]. split; [done|]. split; [right; cbn; lia|]. intros r c Hr Hc. change (m_off ex_m + r * m_skip ex_m + c) with (r * 3 + c). apply list_lookup_lookup_total_lt. change (length (m_buf ex_m)) with 15. lia.
Qed.
Example C31_ex_ordered : ordered 5 (matrix_keys Nat.ltb (fun r c => m_buf ex_m !!! (r * 3 + c)) [(0, true); (1, false)]) [1; 3; 2; 4; 0].
Proof.
  destruct (C31_order_index 5 5 (dense_keys Nat.ltb (fun v w => negb (v =? w)) (fun k => replicate k 0) ex_m [(0, true); (1, false)]) (matrix_keys Nat.ltb (fun r c => m_buf ex_m !!! (r * 3 + c)) [(0, true); (1, false)]) true) as (p' & gs' & E' & Hp' & _); [lia|lia| |done|].
  - assert (Hj : forall q, length (replicate q 0) = q) by (intros q; apply replicate_length). pose proof ex_m_dense as Hd.
    constructor; [|constructor; [|constructor]]; eexists _, _, _, _, _, _; (split; [reflexivity|]); (split; [exact Hd|]); (split; [cbn; lia|]); (split; [done|]); (split; [apply C31_ex_weak|]); (split; [apply C31_ex_weak|exact Hj]).
  - assert (Ep : order_idx 5 5 (dense_keys Nat.ltb (fun v w => negb (v =? w)) (fun k => replicate k 0) ex_m [(0, true); (1, false)]) true = Ok (Some ([1; 3; 2; 4; 0], [(0, 2); (2, 4)]))) by done.
    rewrite Ep in E'. by injection E' as <- <-.
Qed.

Print Assumptions C31_order_index. Print Assumptions C31_order_matrix. Print Assumptions C31_unique. Print Assumptions C31_nan_refuted.
