(** C29: aggregations over sparse matrices equal aggregations over the same dense matrix.
    C41: cumulative aggregations, and the positions of minima and maxima. *)
From stdpp Require Import base numbers sorting list list_numbers.
From Coq Require Import Lia.
From Verif Require Import CppBase Mem CSRModel CSRSpec CSRProofs CSRView SinkSpec SinkProofs SparseLoops AggModel AggSpec AggProofs MachInt SparseSpec.

Local Open Scope nat_scope.
Section agg.
Context {V : Type} `{Val V} (A : arith V).

Lemma row_cells_ext (x y : nat -> nat -> V) m r : (forall c, c < m -> x r c = y r c) -> row_cells m x r = row_cells m y r.
Proof. intros He. unfold row_cells. apply fseq_ext. exact He. Qed.
Lemma col_cells_ext (x y : nat -> nat -> V) n c : (forall r, r < n -> x r c = y r c) -> col_cells n x c = col_cells n y c.
Proof. intros He. unfold col_cells. apply fseq_ext. exact He. Qed.
Lemma all_cells_ext (x y : nat -> nat -> V) n m : (forall r c, r < n -> c < m -> x r c = y r c) -> all_cells n m x = all_cells n m y.
Proof. intros He. unfold all_cells. f_equal. apply fseq_ext. intros r Hr. apply row_cells_ext. auto. Qed.
(** Over all cells: both implementations return the aggregate of the cells, for every stride of the dense matrix, every sparsity pattern
    (explicit zeros, full or empty rows), and every number of rows and columns including zero. *)
Theorem C29_all o a b h n m x : fits A o -> is_dense a n m x -> sparse_cells b h n m x ->
  aggAll_dense A o a = Ok (aggregate A o (all_cells n m x)) /\ aggAll_csr A o b h = Ok (aggregate A o (all_cells n m x)).
Proof.
  intros Hf Hd Hs. split; [by apply aggAll_dense_spec|]. destruct (sparse_cells_cell _ _ _ _ _ Hs) as (rs & Hsh & <- & <- & Hx). rewrite (aggAll_csr_spec A o b h rs Hf Hsh).
  f_equal. f_equal. by apply all_cells_ext.
Qed.
(** Per row. *)
Theorem C29_rows o junk junk' a b h n m x : fits A o -> is_dense a n m x -> sparse_cells b h n m x -> m <> 0 -> length junk = n -> length junk' = n ->
  exists res res', aggRow_dense A o junk a = Ok res /\ aggRow_csr A o junk' b h = Ok res' /\
    is_dense res n 1 (fun r _ => aggregate A o (row_cells m x r)) /\ is_dense res' n 1 (fun r _ => aggregate A o (row_cells m x r)).
Proof.
  intros Hf Hd Hs Hm Hj Hj'. destruct (aggRow_dense_spec A o junk a n m x Hf Hd Hm Hj) as (res & E & Hr). destruct (sparse_cells_cell _ _ _ _ _ Hs) as (rs & Hsh & <- & <- & Hx).
  destruct (aggRow_csr_spec A o junk' b h rs Hf Hsh Hj') as (res' & E' & Hr'). exists res, res'. split; [done|]. split; [done|]. split; [done|].
  eapply is_dense_ext; [exact Hr'|]. intros r c Hrn Hc. cbn beta. f_equal. apply row_cells_ext. auto.
Qed.
(** Per column. *)
Theorem C29_cols o junk junk2 a b h n m x : fits A o -> is_dense a n m x -> sparse_cells b h n m x -> n <> 0 -> length junk = m ->
  exists res res', aggCol_dense A o junk junk2 a = Ok res /\ aggCol_csr A o b h = Ok res' /\
    is_dense res 1 m (fun _ c => aggregate A o (col_cells n x c)) /\ is_dense res' 1 m (fun _ c => aggregate A o (col_cells n x c)).
Proof.
  intros Hf Hd Hs Hn Hj. destruct (aggCol_dense_spec A o junk junk2 a n m x Hf Hd Hn Hj) as (res & E & Hr). destruct (sparse_cells_cell _ _ _ _ _ Hs) as (rs & Hsh & <- & <- & Hx).
  destruct (aggCol_csr_spec A o b h rs Hf Hsh Hn) as (res' & E' & Hr'). exists res, res'. split; [done|]. split; [done|]. split; [done|].
  eapply is_dense_ext; [exact Hr'|]. intros r c Hrn Hc. cbn beta. f_equal. apply col_cells_ext. auto.
Qed.
(** For the empty cases the implementations differ. A matrix without columns: the sparse one returns the neutral element for each row, the
    dense one reads the (missing) first cell of each row. *)
Theorem C29_no_columns_sparse o junk b h n x : fits A o -> sparse_cells b h n 0 x -> length junk = n ->
  exists res, aggRow_csr A o junk b h = Ok res /\ is_dense res n 1 (fun _ _ => aggregate A o []).
Proof.
  intros Hf Hs Hj. destruct (sparse_cells_cell _ _ _ _ _ Hs) as (rs & Hsh & <- & Hm & Hx). destruct (aggRow_csr_spec A o junk b h rs Hf Hsh Hj) as (res & E & Hr). exists res. split; [done|].
  rewrite Hm in Hr. exact Hr.
Qed.
Theorem C29_no_columns_dense_refuted o junk skip n : fits A o -> n <> 0 -> aggRow_dense A o junk (mkDM ([] : list V) 0 n 0 skip) = UB.
Proof.
  intros Hf Hn. assert (E : forall f : nat -> list V -> V -> outcome (list V), for_up 0 n (fun r res => let* v0 := dm_at (mkDM ([] : list V) 0 n 0 skip) r 0 in f r res v0) junk = UB).
  { intros f. unfold for_up. rewrite Nat.sub_0_r. destruct n as [|n]; [done|]. done. }
  destruct o; try done; unfold aggRow_dense; cbn [isPure obind binop m_rows m_cols]; rewrite E; done.
Qed.
(** A matrix without rows: the sparse one throws (except for the sum), the dense one reads the missing first row. *)
Theorem C29_no_rows_refuted o junk junk2 b h m x skip : fits A o -> o <> SUM -> sparse_cells b h 0 m x -> m <> 0 ->
  aggCol_csr A o b h = Throw /\ aggCol_dense A o junk junk2 (mkDM [] 0 0 m skip) = UB.
Proof.
  intros Hf Ho Hs Hm. destruct (sparse_cells_cell _ _ _ _ _ Hs) as (rs & Hsh & Hn & Hmm & _). destruct (shows_reads _ _ _ Hsh) as (base & HR & _). split.
  - assert (Hr : csr_row_nnz b h 0 = Throw) by (unfold csr_row_nnz; by rewrite Hn). assert (E0 : exists v, roff b h 0 = Ok v). { eexists. apply (rd_off _ _ _ _ HR). lia. }
    destruct E0 as [v E0]. unfold aggCol_csr. rewrite E0, (reads_nnz _ _ _ _ HR), Hr. destruct o; try done.
  - assert (E : forall f : nat -> list V -> V -> outcome (list V), for_up 0 m (fun c res => let* v0 := dm_at (mkDM ([] : list V) 0 0 m skip) 0 c in f c res v0) junk = UB).
    { intros f. unfold for_up. rewrite Nat.sub_0_r. destruct m as [|m]; [done|]. done. }
    destruct o; try done; unfold aggCol_dense; cbn [isPure obind binop m_rows m_cols]; rewrite E; done.
Qed.

(** C41: the position of the minimum or maximum of each row and each column is the first position of a best value. *)
Theorem C41_idx_rows o junk a n m x : o = IDXMIN \/ o = IDXMAX -> weak_order (better_of A o) -> is_dense a n m x -> m <> 0 -> length junk = n ->
  exists res pos, aggRow_dense A o junk a = Ok res /\ is_dense res n 1 (fun r _ => aofnat A (pos r)) /\ forall r, r < n -> first_best (better_of A o) (row_cells m x r) (pos r).
Proof. apply aggRow_idx_spec. Qed.
Theorem C41_idx_cols o junk junk2 a n m x : o = IDXMIN \/ o = IDXMAX -> weak_order (better_of A o) -> aofnat A 0 = vzero -> is_dense a n m x -> n <> 0 -> length junk = m -> length junk2 = m ->
  exists res pos, aggCol_dense A o junk junk2 a = Ok res /\ is_dense res 1 m (fun _ c => aofnat A (pos c)) /\ forall c, c < m -> first_best (better_of A o) (col_cells n x c) (pos c).
Proof. apply aggCol_idx_spec. Qed.
(** ... and the sparse implementations refuse these functions. *)
Theorem C41_idx_sparse o junk b h : o = IDXMIN \/ o = IDXMAX -> aggRow_csr A o junk b h = Throw /\ aggCol_csr A o b h = Throw /\ aggAll_csr A o b h = Throw.
Proof. by intros [->| ->]. Qed.
(** Row r of the cumulative sum, product, minimum or maximum is the aggregate of the rows 0 .. r of each column. *)
Theorem C41_cumulative o junk a n m x : fits A o -> In o [SUM; PROD; MIN; MAX] -> is_dense a n m x -> n <> 0 -> length junk = n * m ->
  exists res, aggCum_dense A o junk a = Ok res /\ is_dense res n m (fun r c => aggregate A o (col_cells (S r) x c)).
Proof. intros Hf Ho. apply aggCum_dense_spec; [done|]. by destruct Ho as [<-|[<-|[<-|[<-|[]]]]]. Qed.
(** Without rows it reads the missing first row. *)
Theorem C41_cumulative_no_rows_refuted o junk m skip : In o [SUM; PROD; MIN; MAX] -> m <> 0 -> aggCum_dense A o junk (mkDM [] 0 0 m skip) = UB.
Proof.
  intros Ho Hm. assert (E : forall f : nat -> list V -> V -> outcome (list V), for_up 0 m (fun c res => let* v0 := dm_at (mkDM ([] : list V) 0 0 m skip) 0 c in f c res v0) junk = UB).
  { intros f. unfold for_up. rewrite Nat.sub_0_r. destruct m as [|m]; [done|]. done. }
  unfold aggCum_dense. destruct Ho as [<-|[<-|[<-|[<-|[]]]]]; cbn [isPure obind negb binop m_rows m_cols]; rewrite E; done.
Qed.
End agg.

(** The assumptions on the arithmetic hold for int64_t with every function, and for exact rational numbers with sum, product, mean,
    variance and standard deviation. *)
Theorem C29_int64 o : o <> IDXMIN -> o <> IDXMAX -> fits ar64 o.
Proof. apply fits64. Qed.
Theorem C29_rational sq lo hi o : In o [SUM; PROD; MEAN; VAR; STDDEV] -> fits (arQ sq lo hi) o.
Proof. apply fitsQ. Qed.
Theorem C41_int64 o : weak_order (better_of ar64 o).
Proof. apply order64. Qed.

(** A 3 x 3 matrix: row 0 full, row 1 empty, row 2 with one entry; read through a view that skips the first row of the arrays. *)
Definition w (z : Z) : int64 := wrap z.
Definition c29_rows : list (row int64) := [[(0, w 5); (1, w 6); (2, w 7)]; []; [(1, w (-3))]].
Definition c29_b : csrbuf int64 := mkBuf [w 9; w 5; w 6; w 7; w (-3)] [2; 0; 1; 2; 1] [0; 1; 4; 4; 5].
Definition c29_h : csrh := mkH 1 3 3 3 true 5 0.
Definition c29_a : dmat int64 := mkDM [w 8; w 5; w 6; w 7; w 8; w 0; w 0; w 0; w 8; w 0; w (-3); w 0] 1 3 3 4.
Example C29_ex_shows : shows c29_b c29_h c29_rows.
Proof.
  exists ([(2, w 9)] :: c29_rows). split; [|done]. split; [| |simpl; lia|done|done].
  - split; [done|]. exists [], []. done.
  - repeat (constructor; [split; repeat constructor; simpl; lia|]). constructor.
Qed.
Example C29_ex_cells : sparse_cells c29_b c29_h 3 3 (cell c29_rows).
Proof. split; [exists c29_rows; apply C29_ex_shows|]. split; [done|]. split; [done|]. intros r c Hr Hc. by apply (shows_cell c29_b c29_h c29_rows r c C29_ex_shows). Qed.
Example C29_ex_dense : is_dense c29_a 3 3 (cell c29_rows).
Proof.
  split; [done|]. split; [done|]. split; [cbn; lia|]. split; [right; cbn; lia|]. intros r c Hr Hc.
  destruct r as [|[|[|r]]]; [| | |lia]; (destruct c as [|[|[|c]]]; [done|done|done|lia]).
Qed.
Definition show (r : outcome int64) : option Z := match r with Ok v => Some (ival v) | _ => None end.
Definition show_all (r : outcome (dmat int64)) : option (list Z) := match r with Ok a => Some (ival <$> m_buf a) | _ => None end.
Example C29_ex_all : (fun o => show (aggAll_csr ar64 o c29_b c29_h)) <$> [SUM; PROD; MIN; MAX; MEAN] = Some <$> [15; 0; -3; 7; 1]%Z.
Proof. vm_compute. done. Qed.
Example C29_ex_rows : (fun o => show_all (aggRow_csr ar64 o (replicate 3 (w 77)) c29_b c29_h)) <$> [SUM; PROD; MIN; MAX] = Some <$> [[18; 0; -3]; [210; 0; 0]; [5; 0; -3]; [7; 0; 0]]%Z.
Proof. vm_compute. done. Qed.
Example C29_ex_cols : (fun o => show_all (aggCol_csr ar64 o c29_b c29_h)) <$> [SUM; PROD; MIN; MAX] = Some <$> [[5; 3; 7]; [0; 0; 0]; [0; -3; 0]; [5; 6; 7]]%Z.
Proof. vm_compute. done. Qed.
Example C41_ex_idx : show_all (aggRow_dense ar64 IDXMIN (replicate 3 (w 77)) c29_a) = Some [0; 0; 1]%Z /\ show_all (aggCol_dense ar64 IDXMAX (replicate 3 (w 77)) (replicate 3 (w 77)) c29_a) = Some [0; 0; 0]%Z.
Proof. vm_compute. done. Qed.
Example C41_ex_cum : show_all (aggCum_dense ar64 SUM (replicate 9 (w 77)) c29_a) = Some [5; 6; 7; 5; 6; 7; 5; 3; 7]%Z.
Proof. vm_compute. done. Qed.

Print Assumptions C29_all.
Print Assumptions C29_rows.
Print Assumptions C29_cols.
Print Assumptions C29_no_columns_sparse.
Print Assumptions C29_no_columns_dense_refuted.
Print Assumptions C29_no_rows_refuted.
Print Assumptions C41_idx_rows.
Print Assumptions C41_idx_cols.
Print Assumptions C41_cumulative.
Print Assumptions C29_int64.
Print Assumptions C29_rational.
