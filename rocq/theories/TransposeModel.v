(** Model of the transpose kernel: src/runtime/local/kernels/Transpose.h.
    Simplifications: the result pointer is null on entry (the kernel creates its result); only the host memory is modelled. *)
From stdpp Require Import base numbers list.
From Coq Require Import Lia.
From Verif Require Import CppBase Mem CSRModel.

(** Transpose.h 51-75: DenseMatrix <- DenseMatrix. [isview] is what arg->isView() returns, [junk] the contents of the newly
    allocated array. The vector shortcut shares the values array (DenseMatrix.cpp 118-124). *)
Definition tr_dense {V} (isview : bool) (junk : list V) (a : dmat V) : outcome (dmat V) :=
  let n := m_rows a in let m := m_cols a in
  if bool_decide (n = 1 \/ m = 1) && negb isview then Ok (mkDM (m_buf a) (m_off a) m n n)
  else
    let* b := for2 n m (fun r c b => let* v := dm_at a r c in wr b (r + c * n) v) junk in
    Ok (mkDM b 0 m n n).

Section csr.
Context {V : Type} `{Val V}.

(** Transpose.h 105-107: the loop that counts the entries per column. *)
Definition tr_count (b : csrbuf V) (h : csrh) (ro : list nat) : outcome (list nat) :=
  for_up 0 (h_rows h) (fun row ro =>
    let* s := roff b h row in let* e := roff b h (row + 1) in
    for_up s e (fun j ro => let* c := rd (bcols b) j in let* x := rd ro c in wr ro c (x + 1)) ro) ro.
(** Transpose.h 109-113: the exclusive prefix sums. *)
Definition tr_cumsum (m : nat) (ro : list nat) : outcome (list nat * nat) :=
  for_up 0 m (fun col st => let '(ro, cumsum) := st in
    let* tmp := rd ro col in let* ro := wr ro col cumsum in Ok (ro, cumsum + tmp)) (ro, 0).
(** Transpose.h 116-124: the loop that places the entries. *)
Definition tr_scatter (b : csrbuf V) (h : csrh) (st : list nat * list V * list nat) : outcome (list nat * list V * list nat) :=
  for_up 0 (h_rows h) (fun row st =>
    let* s := roff b h row in let* e := roff b h (row + 1) in
    for_up s e (fun j st => let '(cs, vs, ro) := st in
      let* col := rd (bcols b) j in
      let* dest := rd ro col in
      let* cs := wr cs dest row in
      let* v := rd (bvals b) j in
      let* vs := wr vs dest v in
      let* x := rd ro col in
      let* ro := wr ro col (x + 1) in
      Ok (cs, vs, ro)) st) st.
(** Transpose.h 126-130: the row offsets are moved by one. *)
Definition tr_shift (m : nat) (ro : list nat) : outcome (list nat * nat) :=
  for_up 0 (m + 1) (fun col st => let '(ro, last) := st in
    let* tmp := rd ro col in let* ro := wr ro col last in Ok (ro, tmp)) (ro, 0).
(** Transpose.h 82-132: CSRMatrix <- CSRMatrix. [alloc rows nnz] is a newly allocated matrix with arbitrary contents. *)
Definition tr_csr (alloc : nat -> nat -> csrbuf V) (b : csrbuf V) (h : csrh) : outcome (csrbuf V * csrh) :=
  let n := h_rows h in let m := h_cols h in
  let* nnz := csr_nnz b h in
  let res := alloc m nnz in
  let* ro := for_up 0 m (fun i ro => wr ro i 0) (broff res) in
  let* ro := tr_count b h ro in
  let* (ro, _) := tr_cumsum m ro in
  let* ro := wr ro m nnz in
  let* (cs, vs, ro) := tr_scatter b h (bcols res, bvals res, ro) in
  let* (ro, _) := tr_shift m ro in
  Ok (mkBuf vs cs ro, mkH 0 m n m false nnz 0).
End csr.
