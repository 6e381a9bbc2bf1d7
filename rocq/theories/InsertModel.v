(** Model of slicing and inserting ranges with (possibly negative) bounds: src/runtime/local/kernels/SliceRow.h, SliceCol.h, InsertRow.h,
    InsertCol.h, for dense matrices, and InsertRow.h for a sparse argument. VTSel is int64_t. Simplifications: the result pointer is null on
    entry; [junk k] are the arbitrary contents of a new array. The frame and the generic Matrix variants are not modelled. *)
From stdpp Require Import base numbers list.
From Coq Require Import ZArith Lia.
From Verif Require Import CppBase Mem CSRModel CastModel.

(** static_cast<size_t> *)
Definition u64 (z : Z) : Z := (z mod 2 ^ 64)%Z.
(** SliceRow.h 76-82, SliceCol.h 76-82: the bounds after resolving negative ones *)
Definition slice_bounds (n : nat) (lo up : Z) : Z * Z :=
  (if decide (lo < 0) then (lo + Z.of_nat n, if decide (up <= 0) then up + Z.of_nat n else up)
   else (lo, if decide (up < 0) then up + Z.of_nat n else up))%Z.
(** SliceRow.h 54-64: validateArgsSliceRow; SliceCol.h: validateArgsSliceCol *)
Definition slice_bad (n : nat) (lo up : Z) : bool := bool_decide (lo < 0 \/ u64 lo >= Z.of_nat n \/ up < lo \/ Z.of_nat n < u64 up)%Z.
(** InsertRow.h 112-124, InsertCol.h 112-124 *)
Definition insert_bounds (n : nat) (lo up : Z) : Z * Z :=
  let l := if decide (lo < 0)%Z then u64 (Z.of_nat n + lo) else u64 lo in
  let u := if decide (up < 0)%Z then u64 (Z.of_nat n + up) else u64 up in
  (l, if decide (lo < 0 /\ up = 0)%Z then u64 (l + 1) else u).
(** InsertRow.h 58-93: validateArgsInsertRow ([n], [n_ins]: rows; [m], [m_ins]: columns); InsertCol.h 58-93 with rows and columns exchanged *)
Definition insert_bad (n m n_ins m_ins : nat) (l u : Z) : bool :=
  bool_decide (u < l \/ Z.of_nat n < u \/ (l = Z.of_nat n /\ l <> 0))%Z || bool_decide (Z.of_nat n_ins <> u64 (u - l))%Z || bool_decide (m_ins <> m).

Section insert.
  Context {V : Type} `{Val V} (junk : nat -> list V).
  (** SliceRow.h 72-86 with DenseMatrix::sliceRow (DenseMatrix.cpp 98-115) *)
  Definition slice_row (a : dmat V) (lo up : Z) : outcome (dmat V) :=
    let '(l, u) := slice_bounds (m_rows a) lo up in
    if slice_bad (m_rows a) l u then Throw else
    Ok (mkDM (m_buf a) (m_off a + Z.to_nat l * m_skip a) (Z.to_nat (u - l)) (m_cols a) (m_skip a)).
  (** SliceCol.h 72-86 with DenseMatrix::sliceCol *)
  Definition slice_col (a : dmat V) (lo up : Z) : outcome (dmat V) :=
    let '(l, u) := slice_bounds (m_cols a) lo up in
    if slice_bad (m_cols a) l u then Throw else
    Ok (mkDM (m_buf a) (m_off a + Z.to_nat l) (m_rows a) (Z.to_nat (u - l)) (m_skip a)).
  (** InsertRow.h 100-153 *)
  Definition insert_row (a i : dmat V) (lo up : Z) : outcome (dmat V) :=
    let n := m_rows a in let m := m_cols a in
    let '(l, u) := insert_bounds n lo up in
    if insert_bad n m (m_rows i) (m_cols i) l u then Throw else
    let l := Z.to_nat l in let u := Z.to_nat u in
    let* b := for_up 0 l (fun r b => copy_range b (r * m) (m_buf a) (m_off a + r * m_skip a) m) (junk (n * m)) in
    let* b := for_up l u (fun r b => copy_range b (r * m) (m_buf i) (m_off i + (r - l) * m_skip i) m) b in
    let* b := for_up u n (fun r b => copy_range b (r * m) (m_buf a) (m_off a + l * m_skip a + m_skip a * (u - l) + (r - u) * m_skip a) m) b in
    Ok (mkDM b 0 n m m).
  (** InsertCol.h 100-145 *)
  Definition insert_col (a i : dmat V) (lo up : Z) : outcome (dmat V) :=
    let n := m_rows a in let m := m_cols a in
    let '(l, u) := insert_bounds m lo up in
    if insert_bad m n (m_cols i) (m_rows i) l u then Throw else
    let l := Z.to_nat l in let u := Z.to_nat u in
    let* b := for_up 0 n (fun r b =>
      let* b := copy_range b (r * m) (m_buf a) (m_off a + r * m_skip a) l in
      let* b := copy_range b (r * m + l) (m_buf i) (m_off i + r * m_skip i) (m_cols i) in
      copy_range b (r * m + u) (m_buf a) (m_off a + r * m_skip a + u) (m - u)) (junk (n * m)) in
    Ok (mkDM b 0 n m m).

  (** InsertRow.h 159-184: copyRowsFromCSRToDense into a result with [m] columns that is not a view; [nx] is lastColIdx + 1 *)
  Definition csr_rows_to_dense (b : csrbuf V) (h : csrh) (lo hi : nat) (res : list V) : outcome (list V) :=
    let m := h_cols h in
    for_up lo hi (fun r res =>
      let* a := roff b h r in
      let* k := csr_row_nnz b h r in
      let* (res, nx) := for_up 0 k (fun i (s : list V * nat) =>
        let* c := rd (bcols b) (a + i) in
        let* res := fill_range (r * m + snd s) (r * m + c) vzero (fst s) in
        let* v := rd (bvals b) (a + i) in
        let* res := wr res (r * m + c) v in
        Ok (res, c + 1)) (res, 0) in
      fill_range (r * m + nx) (r * m + m) vzero res) res.
  (** InsertRow.h 186-235: DenseMatrix <- CSRMatrix, DenseMatrix *)
  Definition insert_row_csr (b : csrbuf V) (h : csrh) (i : dmat V) (lo up : Z) : outcome (dmat V) :=
    let n := h_rows h in let m := h_cols h in
    let '(l, u) := insert_bounds n lo up in
    if insert_bad n m (m_rows i) (m_cols i) l u then Throw else
    let l := Z.to_nat l in let u := Z.to_nat u in
    let* res := csr_rows_to_dense b h 0 (l + 1) (junk (n * m)) in
    let* res := for_up l u (fun r res => copy_range res (r * m) (m_buf i) (m_off i + (r - l) * m_skip i) m) res in
    let* res := csr_rows_to_dense b h u n res in
    Ok (mkDM res 0 n m m).
End insert.
