(** Model of the element-wise binary kernels: src/runtime/local/kernels/EwBinaryMat.h, EwBinaryObjSca.h, for all their dense and
    sparse specialisations. [f] is the scalar function of the operation code (EwBinarySca.h). Simplifications: the result pointer is
    null on entry; [junk k], [alloc rows nnz] are the arbitrary contents of newly allocated arrays; the position in the result arrays is
    one running number (the code adds posRes to rowOffsetsRes[rowIdx], which is the number of entries of the rows before). The generic
    Matrix variants are not modelled. *)
From stdpp Require Import base numbers list.
From Coq Require Import ZArith Lia.
From Verif Require Import CppBase Mem CSRModel CastModel ReorgModel.

Section dense.
  Context {A B V : Type} (junk : nat -> list V) (f : A -> B -> V).
  (** EwBinaryMat.h 54-108: DenseMatrix <- DenseMatrix, DenseMatrix; [sr], [sc]: whether the pointer into rhs advances with the rows and
      with the columns *)
  Definition ew_loop (a : dmat A) (b : dmat B) (sr sc : bool) : outcome (dmat V) :=
    let n := m_rows a in let m := m_cols a in
    let* res := for2 n m (fun r c res =>
      let* x := rd (m_buf a) (m_off a + r * m_skip a + c) in
      let* y := rd (m_buf b) (m_off b + (if sr then r * m_skip b else 0) + (if sc then c else 0)) in
      wr res (r * m + c) (f x y)) (junk (n * m)) in
    Ok (mkDM res 0 n m m).
  Definition ew_dense (a : dmat A) (b : dmat B) : outcome (dmat V) :=
    if decide (m_rows a = m_rows b /\ m_cols a = m_cols b) then ew_loop a b true true
    else if decide (m_cols a = m_cols b /\ (m_rows b = 1 \/ m_rows a = 1)) then ew_loop a b false true
    else if decide (m_rows a = m_rows b /\ (m_cols b = 1 \/ m_cols a = 1)) then ew_loop a b true false
    else Throw.
  (** EwBinaryObjSca.h 57-79: DenseMatrix <- DenseMatrix, scalar *)
  Definition ew_sca_dense (a : dmat A) (y : B) : outcome (dmat V) :=
    let n := m_rows a in let m := m_cols a in
    let* res := for2 n m (fun r c res => let* x := rd (m_buf a) (m_off a + r * m_skip a + c) in wr res (r * m + c) (f x y)) (junk (n * m)) in
    Ok (mkDM res 0 n m m).
End dense.

Section csr.
  Context {V : Type} `{Val V} (junk : nat -> list V) (alloc : nat -> nat -> csrbuf V) (f : V -> V -> V).
  (** Filling a new CSRMatrix row by row *)
  Definition by_rows (n m cap : nat) (body : nat -> cst -> outcome cst) : outcome (csrbuf V * csrh) :=
    let* s := start (alloc n cap) in
    let* s := for_up 0 n (fun r s => let* s := body r s in close r s) s in
    Ok (done_ n m cap s).
  (** EwBinaryMat.h 160-182: the loop of the merge; the fuel is the number of entries of both rows *)
  Fixpoint merge (fuel : nat) (b1 : csrbuf V) (a1 k1 : nat) (b2 : csrbuf V) (a2 k2 : nat) (p1 p2 : nat) (s : cst) : outcome (nat * nat * cst) :=
    if decide (p1 < k1 /\ p2 < k2) then
      match fuel with
      | 0 => UB
      | S fuel =>
          let* c1 := rd (bcols b1) (a1 + p1) in
          let* c2 := rd (bcols b2) (a2 + p2) in
          if decide (c1 = c2) then
            let* v1 := rd (bvals b1) (a1 + p1) in
            let* v2 := rd (bvals b2) (a2 + p2) in
            let* s := (if viszero (f v1 v2) then Ok s else put c1 (f v1 v2) s) in
            merge fuel b1 a1 k1 b2 a2 k2 (p1 + 1) (p2 + 1) s
          else if decide (c1 < c2) then
            let* v1 := rd (bvals b1) (a1 + p1) in
            let* s := put c1 v1 s in
            merge fuel b1 a1 k1 b2 a2 k2 (p1 + 1) p2 s
          else
            let* v2 := rd (bvals b2) (a2 + p2) in
            let* s := put c2 v2 s in
            merge fuel b1 a1 k1 b2 a2 k2 p1 (p2 + 1) s
      end
    else Ok (p1, p2, s).
  (** memcpy of [k] values and column indices from position [a] of [b] to the current position, which is not advanced *)
  Definition copy_here (b : csrbuf V) (a k : nat) (s : cst) : outcome cst :=
    let '(ro, cs, vs, pos) := s in
    let* vs := copy_range vs pos (bvals b) a k in
    let* cs := copy_range cs pos (bcols b) a k in
    Ok (ro, cs, vs, pos).
  Definition advance (k : nat) (s : cst (V := V)) : cst := let '(ro, cs, vs, pos) := s in (ro, cs, vs, pos + k).
  (** EwBinaryMat.h 146-205 *)
  Definition add_row (b1 : csrbuf V) (h1 : csrh) (b2 : csrbuf V) (h2 : csrh) (r : nat) (s : cst) : outcome cst :=
    let* k1 := csr_row_nnz b1 h1 r in
    let* k2 := csr_row_nnz b2 h2 r in
    if decide (k1 <> 0 /\ k2 <> 0) then
      let* a1 := roff b1 h1 r in
      let* a2 := roff b2 h2 r in
      let* (p1, p2, s) := merge (k1 + k2) b1 a1 k1 b2 a2 k2 0 0 s in
      let* s := copy_here b1 (a1 + p1) (k1 - p1) s in
      let* s := copy_here b2 (a2 + p2) (k2 - p2) s in
      Ok (advance (k1 - p1 + (k2 - p2)) s)
    else if decide (k1 <> 0) then
      let* a1 := roff b1 h1 r in let* s := copy_here b1 a1 k1 s in Ok (advance k1 s)
    else if decide (k2 <> 0) then
      let* a2 := roff b2 h2 r in let* s := copy_here b2 a2 k2 s in Ok (advance k2 s)
    else Ok s.
  (** EwBinaryMat.h 114-207: CSRMatrix <- CSRMatrix, CSRMatrix with ADD *)
  Definition ew_add (b1 : csrbuf V) (h1 : csrh) (b2 : csrbuf V) (h2 : csrh) : outcome (csrbuf V * csrh) :=
    if decide (h_rows h1 <> h_rows h2 \/ h_cols h1 <> h_cols h2) then Throw else
    let* z1 := csr_nnz b1 h1 in let* z2 := csr_nnz b2 h2 in
    by_rows (h_rows h1) (h_cols h1) (z1 + z2) (add_row b1 h1 b2 h2).
  (** EwBinaryMat.h 223-234 *)
  Fixpoint isect (fuel : nat) (b1 : csrbuf V) (a1 k1 : nat) (b2 : csrbuf V) (a2 k2 : nat) (p1 p2 : nat) (s : cst) : outcome cst :=
    if decide (p1 < k1 /\ p2 < k2) then
      match fuel with
      | 0 => UB
      | S fuel =>
          let* c1 := rd (bcols b1) (a1 + p1) in
          let* c2 := rd (bcols b2) (a2 + p2) in
          if decide (c1 = c2) then
            let* v1 := rd (bvals b1) (a1 + p1) in
            let* v2 := rd (bvals b2) (a2 + p2) in
            let* s := put c1 (f v1 v2) s in
            isect fuel b1 a1 k1 b2 a2 k2 (p1 + 1) (p2 + 1) s
          else if decide (c1 < c2) then isect fuel b1 a1 k1 b2 a2 k2 (p1 + 1) p2 s
          else isect fuel b1 a1 k1 b2 a2 k2 p1 (p2 + 1) s
      end
    else Ok s.
  (** EwBinaryMat.h 209-240 *)
  Definition mul_row (b1 : csrbuf V) (h1 : csrh) (b2 : csrbuf V) (h2 : csrh) (r : nat) (s : cst) : outcome cst :=
    let* k1 := csr_row_nnz b1 h1 r in
    let* k2 := csr_row_nnz b2 h2 r in
    if decide (k1 <> 0 /\ k2 <> 0) then
      let* a1 := roff b1 h1 r in
      let* a2 := roff b2 h2 r in
      isect (k1 + k2) b1 a1 k1 b2 a2 k2 0 0 s
    else Ok s.
  (** EwBinaryMat.h 114-144, 208-248 with MUL *)
  Definition ew_mul (b1 : csrbuf V) (h1 : csrh) (b2 : csrbuf V) (h2 : csrh) : outcome (csrbuf V * csrh) :=
    if decide (h_rows h1 <> h_rows h2 \/ h_cols h1 <> h_cols h2) then Throw else
    let* z1 := csr_nnz b1 h1 in let* z2 := csr_nnz b2 h2 in
    by_rows (h_rows h1) (h_cols h1) (min z1 z2) (mul_row b1 h1 b2 h2).
  (** EwBinaryMat.h 285-310 *)
  Definition mul_dense_row (b : csrbuf V) (h : csrh) (d : dmat V) (r : nat) (s : cst) : outcome cst :=
    let* k := csr_row_nnz b h r in
    if decide (k <> 0) then
      let* a := roff b h r in
      for_up 0 k (fun p s =>
        let* c := rd (bcols b) (a + p) in
        let* y := rd (m_buf d) (m_off d + (if decide (m_rows d = 1) then 0 else r) * m_skip d + (if decide (m_cols d = 1) then 0 else c)) in
        if viszero y then Ok s else
        let* v := rd (bvals b) (a + p) in
        put c (f v y) s) s
    else Ok s.
  (** EwBinaryMat.h 254-317: CSRMatrix <- CSRMatrix, DenseMatrix (MUL only) *)
  Definition ew_mul_dense (b : csrbuf V) (h : csrh) (d : dmat V) : outcome (csrbuf V * csrh) :=
    if decide ((h_rows h <> m_rows d /\ m_rows d <> 1) \/ (h_cols h <> m_cols d /\ m_cols d <> 1)) then Throw else
    let* z := csr_nnz b h in
    by_rows (h_rows h) (h_cols h) z (mul_dense_row b h d).
  (** EwBinaryMat.h 323-370: DenseMatrix <- CSRMatrix, DenseMatrix *)
  Definition ew_csr_dense (one : V) (b : csrbuf V) (h : csrh) (d : dmat V) : outcome (dmat V) :=
    let n := h_rows h in let m := h_cols h in
    if decide (n <> m_rows d \/ m <> m_cols d) then Throw else
    let pres := viszero (f vzero one) in
    let* res := for_up 0 n (fun r res =>
      let* res := (if pres then Ok res else for_up 0 m (fun c res =>
                     let* y := rd (m_buf d) (m_off d + r * m_skip d + c) in wr res (r * m + c) (f vzero y)) res) in
      let* k := csr_row_nnz b h r in
      let* a := roff b h r in
      for_up 0 k (fun i res =>
        let* c := rd (bcols b) (a + i) in
        let* v := rd (bvals b) (a + i) in
        let* y := rd (m_buf d) (m_off d + r * m_skip d + c) in
        wr res (r * m + c) (f v y)) res) (if pres then replicate (n * m) vzero else junk (n * m)) in
    Ok (mkDM res 0 n m m).
  (** EwBinaryObjSca.h 111-123 *)
  Definition sca_row_pres (b : csrbuf V) (h : csrh) (y : V) (r : nat) (s : cst) : outcome cst :=
    let* a := roff b h r in
    let* e := roff b h (r + 1) in
    for_up a e (fun i s =>
      let* v := rd (bvals b) i in
      if viszero (f v y) then Ok s else let* c := rd (bcols b) i in put c (f v y) s) s.
  (** EwBinaryObjSca.h 126-142; the first component is the position in lhs *)
  Definition sca_row_full (b : csrbuf V) (h : csrh) (y : V) (r : nat) (s : cst) : outcome cst :=
    let* a := roff b h r in
    let* e := roff b h (r + 1) in
    let* t := for_up 0 (h_cols h) (fun c (t : nat * cst) =>
      let '(i, s) := t in
      let* has := (if decide (i < e) then let* k := rd (bcols b) i in Ok (bool_decide (k = c)) else Ok false) in
      let* v := (if (has : bool) then rd (bvals b) i else Ok vzero) in
      let* s := (if viszero (f v y) then Ok s else put c (f v y) s) in
      Ok (if (has : bool) then i + 1 else i, s)) (a, s) in
    Ok (snd t).
  (** EwBinaryObjSca.h 84-144: CSRMatrix <- CSRMatrix, scalar *)
  Definition ew_sca_csr (b : csrbuf V) (h : csrh) (y : V) : outcome (csrbuf V * csrh) :=
    let* z := csr_nnz b h in
    if viszero (f vzero y) then by_rows (h_rows h) (h_cols h) z (sca_row_pres b h y)
    else by_rows (h_rows h) (h_cols h) (h_rows h * h_cols h) (sca_row_full b h y).
  (** EwBinaryObjSca.h 150-187: DenseMatrix <- CSRMatrix, scalar *)
  Definition ew_sca_csr_dense (b : csrbuf V) (h : csrh) (y : V) : outcome (dmat V) :=
    let n := h_rows h in let m := h_cols h in
    let* res := for_up 0 n (fun r res =>
      let* k := csr_row_nnz b h r in
      let* a := roff b h r in
      for_up 0 k (fun i res =>
        let* c := rd (bcols b) (a + i) in
        let* v := rd (bvals b) (a + i) in
        wr res (r * m + c) (f v y)) res) (replicate (n * m) (if viszero (f vzero y) then vzero else f vzero y)) in
    Ok (mkDM res 0 n m m).
End csr.
