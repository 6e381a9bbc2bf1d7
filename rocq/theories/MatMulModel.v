(** Model of the matrix multiplication kernels (src/runtime/local/kernels/MatMul.h). The kernels for two dense matrices call a BLAS library
    and are not modelled. In all variants the result pointer is null on entry; the contents of new arrays are arbitrary ([junk]) unless
    the code asks for zeroed ones. *)
From stdpp Require Import base numbers list.
From Verif Require Import CppBase Mem DenseModel CSRModel AggModel.

Section mm.
Context {V : Type} `{Val V} (A : arith V).
Local Notation "x +' y" := (aadd A x y) (at level 50, left associativity).
Local Notation "x *' y" := (amul A x y) (at level 40, left associativity).

(** MatMul.h 61-86: applyRowWise. *)
Definition mm_rowwise (junk : list V) (b : csrbuf V) (h : csrh) (rhs : dmat V) : outcome (list V) :=
  let nr1 := h_rows h in let nc2 := m_cols rhs in
  let* res := DenseModel.fill_range junk 0 (nr1 * nc2) vzero in
  for_up 0 nr1 (fun r res =>
    let* nnz := csr_row_nnz b h r in
    let* a := roff b h r in
    for_up 0 nnz (fun i res =>
      let* c := rd (bcols b) (a + i) in
      for_up 0 nc2 (fun j res =>
        let* x := rd res (r * nc2 + j) in
        let* v := rd (bvals b) (a + i) in
        let* y := dm_at rhs c j in
        wr res (r * nc2 + j) (x +' v *' y)) res) res) res.

(** The parallel variants (MatMul.h 89-118 applyParallel, 121-156 applyBlocked) distribute the iterations of an OpenMP loop over threads.
    What one row does to the result is a sequence of updates [res[p] += d]; the operands are not written during the loop, so the
    model computes the updates of an iteration up front. *)
Definition row_updates (b : csrbuf V) (h : csrh) (rhs : dmat V) (r : nat) : outcome (list (nat * V)) :=
  let nc2 := m_cols rhs in
  let* nnz := csr_row_nnz b h r in
  let* a := roff b h r in
  for_up 0 nnz (fun i us =>
    let* c := rd (bcols b) (a + i) in
    for_up 0 nc2 (fun j us =>
      let* v := rd (bvals b) (a + i) in
      let* y := dm_at rhs c j in
      Ok (us ++ [(r * nc2 + j, v *' y)])) us) [].

(** An iteration in progress: the value it has loaded for its current update, if any, and the updates left. *)
Record thread := mkT { t_reg : option V; t_todo : list (nat * V) }.
(** One memory access: an update first loads its cell, then stores the sum. *)
Definition thread_step (t : thread) (res : list V) : outcome (thread * list V) :=
  match t_todo t with
  | [] => Ok (t, res)
  | (p, d) :: us =>
    match t_reg t with
    | None => let* x := rd res p in Ok (mkT (Some x) (t_todo t), res)
    | Some x => let* res := wr res p (x +' d) in Ok (mkT None us, res)
    end
  end.
(** Any interleaving: [sched] names the iteration that makes the next access. *)
Fixpoint run (sched : list nat) (ts : list thread) (res : list V) : outcome (list thread * list V) :=
  match sched with
  | [] => Ok (ts, res)
  | i :: sched' =>
    match ts !! i with
    | None => run sched' ts res
    | Some t => let* (t', res') := thread_step t res in run sched' (<[i := t']> ts) res'
    end
  end.
(** MatMul.h 89-118: applyParallel, one iteration per row. *)
Definition par_threads (b : csrbuf V) (h : csrh) (rhs : dmat V) : outcome (list thread) :=
  for_up 0 (h_rows h) (fun r ts => let* us := row_updates b h rhs r in Ok (ts ++ [mkT None us])) [].
Definition mm_parallel (sched : list nat) (junk : list V) (b : csrbuf V) (h : csrh) (rhs : dmat V) : outcome (list thread * list V) :=
  let* res := DenseModel.fill_range junk 0 (h_rows h * m_cols rhs) vzero in
  let* ts := par_threads b h rhs in
  run sched ts res.
(** MatMul.h 121-156: applyBlocked, one iteration per block of rows; the number of iterations of the outer loop is rows/blockSize, rounded up. *)
Definition block_updates (bs : nat) (b : csrbuf V) (h : csrh) (rhs : dmat V) (k : nat) : outcome (list (nat * V)) :=
  let blockStart := k * bs in
  let blockEnd := (blockStart + bs) `min` h_rows h in
  for_up blockStart blockEnd (fun r us => let* u := row_updates b h rhs r in Ok (us ++ u)) [].
Definition blk_threads (bs : nat) (b : csrbuf V) (h : csrh) (rhs : dmat V) : outcome (list thread) :=
  for_up 0 ((h_rows h + bs - 1) / bs) (fun k ts => let* us := block_updates bs b h rhs k in Ok (ts ++ [mkT None us])) [].
Definition mm_blocked (bs : nat) (sched : list nat) (junk : list V) (b : csrbuf V) (h : csrh) (rhs : dmat V) : outcome (list thread * list V) :=
  let* res := DenseModel.fill_range junk 0 (h_rows h * m_cols rhs) vzero in
  let* ts := blk_threads bs b h rhs in
  run sched ts res.

(** MatMul.h 206-246: apply for a sparse and a dense matrix with DAPHNE_ADAPTIVE unset (the row-wise variant). The flags transa and transb
    are parameters of the code that it does not use. *)
Definition mm_csr_dense (transa transb : bool) (junk : list V) (b : csrbuf V) (h : csrh) (rhs : dmat V) : outcome (dmat V) :=
  if decide (h_cols h <> m_rows rhs) then Throw
  else let* res := mm_rowwise junk b h rhs in Ok (mkDM res 0 (h_rows h) (m_cols rhs) (m_cols rhs)).

(** MatMul.h 253-297: dense times sparse. The result is allocated with zeros. *)
Definition mm_dense_csr (transa transb : bool) (lhs : dmat V) (b : csrbuf V) (h : csrh) : outcome (dmat V) :=
  let nr1 := m_rows lhs in let nr2 := h_rows h in let nc2 := h_cols h in
  if decide (m_cols lhs <> nr2) then Throw
  else
    let* res := for_up 0 nr1 (fun m res =>
      for_up 0 nr2 (fun n res =>
        let* lhsVal := dm_at lhs m n in
        let* nnz := csr_row_nnz b h n in
        let* a := roff b h n in
        for_up 0 nnz (fun i res =>
          let* c := rd (bcols b) (a + i) in
          let* x := rd res (m * nc2 + c) in
          let* v := rd (bvals b) (a + i) in
          wr res (m * nc2 + c) (x +' lhsVal *' v)) res) res) (replicate (nr1 * nc2) vzero) in
    Ok (mkDM res 0 nr1 nc2 nc2).

(** MatMul.h 303-334: any two matrices, through get; the result is a dense matrix filled by append. [lget], [rget] are the get functions
    of the operands, [lr], [lc], [rr], [rc] their shapes. *)
Definition mm_generic (transa transb : bool) (junk : list V) (lr lc : nat) (lget : nat -> nat -> outcome V) (rr rc : nat) (rget : nat -> nat -> outcome V) : outcome (dmat V) :=
  let lhsRows := if transa then lc else lr in
  let lhsCols := if transa then lr else lc in
  let rhsRows := if transb then rc else rr in
  let rhsCols := if transb then rr else rc in
  if decide (lhsCols <> rhsRows) then Throw
  else
    let* st := dm_prepareAppend vzero junk (dm_new lhsRows rhsCols) in
    let* st := for2 lhsRows rhsCols (fun r c st => let '(res, h) := st in
      let* v := for_up 0 lhsCols (fun k s =>
        let* x := (if transa then lget k r else lget r k) in
        let* y := (if transb then rget c k else rget k c) in
        Ok (s +' x *' y)) vzero in
      dm_append vzero res h r c v) st in
    let '(res, h) := st in
    let* (res, h) := dm_finishAppend vzero res h in
    Ok (mkDM res (d_off h) (d_rows h) (d_cols h) (d_skip h)).

(** MatMul.h 372-373: the scan for column [col] in the column indexes [i, e); [fuel] is e - i. *)
Fixpoint mm_scan (fuel : nat) (cols : list nat) (i e col : nat) : outcome nat :=
  match fuel with
  | 0 => Ok i
  | S fuel' =>
    if decide (i < e) then let* c := rd cols i in if decide (c < col) then mm_scan fuel' cols (i + 1) e col else Ok i
    else Ok i
  end.
(** MatMul.h 358-377: the dot product of row [row] of the left and column [col] of the right operand. *)
Definition mm_dot (lb : csrbuf V) (lh : csrh) (rb : csrbuf V) (rh : csrh) (row col : nat) : outcome V :=
  let* s := roff lb lh row in
  let* e := roff lb lh (row + 1) in
  for_up s e (fun j sum =>
    let* k := rd (bcols lb) j in
    let* i := roff rb rh k in
    let* endRhsRow := roff rb rh (k + 1) in
    let* i := mm_scan (endRhsRow - i) (bcols rb) i endRhsRow col in
    if decide (i < endRhsRow) then
      let* c := rd (bcols rb) i in
      if decide (c = col) then
        let* x := rd (bvals lb) j in
        let* y := rd (bvals rb) i in
        Ok (sum +' x *' y)
      else Ok sum
    else Ok sum) vzero.
(** MatMul.h 340-382: sparse times sparse. The product of the numbers of entries is assumed not to overflow. *)
Definition mm_csr_csr (transa transb : bool) (lb : csrbuf V) (lh : csrh) (rb : csrbuf V) (rh : csrh) : outcome (csrbuf V * csrh) :=
  if decide (h_cols lh <> h_rows rh) then Throw
  else
    let* n1 := csr_nnz lb lh in
    let* n2 := csr_nnz rb rh in
    let '(b, h) := csr_new (h_rows lh) (h_cols rh) (n1 * n2) in
    let* b := for2 (h_rows lh) (h_cols rh) (fun row col b =>
      let* sum := mm_dot lb lh rb rh row col in
      csr_set b h row col sum) b in
    Ok (b, h).
End mm.

(** src/ir/daphneir/Canonicalize.cpp 137-186: MatMulOp::canonicalize, as far as it decides on transb: a right operand t(Y) whose sparsity
    is known to be at least 0.25 is replaced by Y with the flag flipped, whatever the representation of the left operand.
    [dense_rhs] stands for the check of the sparsity. *)
Definition canon_matmul (rhs_is_transpose dense_rhs transb : bool) : bool * bool (* operand replaced, new flag *) :=
  if rhs_is_transpose && dense_rhs then (true, negb transb) else (false, transb).
