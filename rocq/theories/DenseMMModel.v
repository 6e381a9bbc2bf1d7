(** Model of the multiplication of two dense matrices: the kernel MatMul<DenseMatrix, DenseMatrix, DenseMatrix> (src/runtime/local/kernels/MatMul.cpp),
    the kernels Gemv (Gemv.h) and Syrk (Syrk.h), and what the compiler does to choose among them: MatMulOp::canonicalize
    (src/ir/daphneir/Canonicalize.cpp) and the pass PhyOperatorSelectionPass (src/compiler/lowering/PhyOperatorSelectionPass.cpp).

    Simplifications: the BLAS library and Eigen are not part of /repo; the routines that are called are modelled by their documentation
    (sums are added up in the order of the index; what a library does with rounding is not modelled). Dimensions and strides are below 2^31,
    the type the code converts them to. The result pointer is null on entry; [junk] is what the new array contains. *)
From stdpp Require Import base numbers list.
From Verif Require Import CppBase Mem CSRModel AggModel MatMulModel.

Section mm.
Context {V : Type} `{Val V} (A : arith V).
Local Notation "x +' y" := (aadd A x y) (at level 50, left associativity).
Local Notation "x *' y" := (amul A x y) (at level 40, left associativity).

(** The sum of f(k) * g(k) for k = 0, ..., n-1. *)
Definition acc (n : nat) (f g : nat -> outcome V) : outcome V :=
  for_up 0 n (fun k s => let* x := f k in let* y := g k in Ok (s +' x *' y)) vzero.

(** * BLAS, row major, alpha = 1, beta = 0. An array is given by a buffer and the position of its first element.
    A call with illegal arguments (a leading dimension below the number of columns or below 1, an increment of 0) goes to the error handler of the library,
    which prints a message and returns; the output is not written. *)
(** cblas_sdot, cblas_ddot (MatMul.cpp 30-37). *)
Definition blas_dot (n : nat) (X : list V) (x incx : nat) (Y : list V) (y incy : nat) : outcome V :=
  acc n (fun k => rd X (x + k * incx)) (fun k => rd Y (y + k * incy)).
(** cblas_sgemv, cblas_dgemv: y = A x or t(A) x for an m x n matrix A; returns at once, without writing y, if m or n is 0. *)
Definition blas_gemv (trans : bool) (m n : nat) (Ab : list V) (a lda : nat) (X : list V) (x incx : nat) (Y : list V) (y incy : nat) : outcome (list V) :=
  if decide (lda < 1 `max` n \/ incx = 0 \/ incy = 0) then Ok Y
  else if decide (m = 0 \/ n = 0) then Ok Y
  else for_up 0 (if trans then n else m) (fun i Y =>
    let* v := acc (if trans then m else n) (fun k => rd Ab (if trans then a + k * lda + i else a + i * lda + k)) (fun k => rd X (x + k * incx)) in
    wr Y (y + i * incy) v) Y.
(** cblas_sgemm, cblas_dgemm: C = op(A) op(B), where op(A) is m x k and op(B) is k x n. *)
Definition blas_gemm (ta tb : bool) (m n k : nat) (Ab : list V) (a lda : nat) (B : list V) (b ldb : nat) (C : list V) (c ldc : nat) : outcome (list V) :=
  if decide (lda < 1 `max` (if ta then m else k) \/ ldb < 1 `max` (if tb then k else n) \/ ldc < 1 `max` n) then Ok C
  else for2 m n (fun i j C =>
    let* v := acc k (fun l => rd Ab (if ta then a + l * lda + i else a + i * lda + l)) (fun l => rd B (if tb then b + j * ldb + l else b + l * ldb + j)) in
    wr C (c + i * ldc + j) v) C.
(** cblas_ssyrk, cblas_dsyrk, upper: the upper triangle of C = A t(A) or t(A) A, an n x n matrix. *)
Definition blas_syrk (trans : bool) (n k : nat) (Ab : list V) (a lda : nat) (C : list V) (c ldc : nat) : outcome (list V) :=
  if decide (lda < 1 `max` (if trans then n else k) \/ ldc < 1 `max` n) then Ok C
  else for_up 0 n (fun i C => for_up i n (fun j C =>
    let* v := acc k (fun l => rd Ab (if trans then a + l * lda + i else a + i * lda + l)) (fun l => rd Ab (if trans then a + l * lda + j else a + j * lda + l)) in
    wr C (c + i * ldc + j) v) C) C.

(** * Eigen. A matrix mapped onto a buffer: rows, columns, and the distances of two elements neighbouring in a row (outer stride) and in a column
    (inner stride; Eigen stores columns). *)
Record emap := mkE { e_buf : list V; e_off : nat; e_rows : nat; e_cols : nat; e_outer : nat; e_inner : nat }.
Definition e_at (m : emap) (i j : nat) : outcome V := rd (e_buf m) (e_off m + j * e_outer m + i * e_inner m).
(** Matrix::Map(data, rows, cols, Stride(1, ld)) *)
Definition e_map (buf : list V) (off rows cols ld : nat) : emap := mkE buf off rows cols 1 ld.
(** transpose() *)
Definition e_trans (m : emap) : emap := mkE (e_buf m) (e_off m) (e_cols m) (e_rows m) (e_inner m) (e_outer m).
(** dst.noalias() = x * y; that the shapes fit is asserted (that of the target too: a Map cannot be resized). The result is the new buffer of [dst]. *)
Definition e_mul (dst x y : emap) : outcome (list V) :=
  if decide (e_cols x = e_rows y /\ e_rows dst = e_rows x /\ e_cols dst = e_cols y) then
    for2 (e_rows x) (e_cols y) (fun i j C =>
      let* v := acc (e_cols x) (fun l => e_at x i l) (fun l => e_at y l j) in
      wr C (e_off dst + j * e_outer dst + i * e_inner dst) v) (e_buf dst)
  else UB.
(** MatMul.cpp 39-56: launch_dot for integers: Vector::Map(x, n, 1, Stride(1, incx)), dot. *)
Definition eigen_dot (n : nat) (X : list V) (x incx : nat) (Y : list V) (y incy : nat) : outcome V :=
  let ex := e_map X x n 1 incx in let ey := e_map Y y n 1 incy in
  acc n (fun k => e_at ex k 0) (fun k => e_at ey k 0).
(** MatMul.cpp 77-133: launch_gemv for integers. *)
Definition eigen_gemv (transa : bool) (m n : nat) (Ab : list V) (a lda : nat) (X : list V) (x incx : nat) (Y : list V) (y incy : nat) : outcome (list V) :=
  if transa then e_mul (e_map Y y n 1 incy) (e_trans (e_map Ab a m n lda)) (e_map X x m 1 incx)
  else e_mul (e_map Y y m 1 incy) (e_map Ab a m n lda) (e_map X x n 1 incx).
(** MatMul.cpp 157-243: launch_gemm for integers. *)
Definition eigen_gemm (transa transb : bool) (m n k : nat) (Ab : list V) (a lda : nat) (B : list V) (b ldb : nat) (C : list V) (c ldc : nat) : outcome (list V) :=
  if transa && transb then
    e_mul (e_map C c n m ldc) (e_trans (e_map Ab a k m lda)) (e_trans (e_map B b n k ldb))
  else if transa then
    e_mul (e_map C c n m ldc) (e_trans (e_map Ab a k m lda)) (e_map B b n k ldb)
  else if transb then
    e_mul (e_map C c m n ldc) (e_map Ab a m k lda) (e_trans (e_map B b n k ldb))
  else
    e_mul (e_map C c m n ldc) (e_map Ab a m k lda) (e_map B b k n ldb).

(** The value types the kernel exists for: float and double (BLAS), int32_t and int64_t (Eigen); MatMul.cpp 297-300. *)
Inductive vty := VFloat | VInt.
Definition launch_dot (t : vty) := match t with VFloat => blas_dot | VInt => eigen_dot end.
Definition launch_gemv (t : vty) := match t with VFloat => blas_gemv | VInt => eigen_gemv end.
Definition launch_gemm (t : vty) := match t with VFloat => blas_gemm | VInt => eigen_gemm end.
(** MatMul.cpp 246-294: apply. *)
Definition mm_dense (t : vty) (transa transb : bool) (junk : list V) (lhs rhs : dmat V) : outcome (dmat V) :=
  let nr1 := if transa then m_cols lhs else m_rows lhs in
  let nc1 := if transa then m_rows lhs else m_cols lhs in
  let nr2 := if transb then m_cols rhs else m_rows rhs in
  let nc2 := if transb then m_rows rhs else m_cols rhs in
  if decide (nc1 <> nr2) then Throw
  else
    let lda := m_skip lhs in let ldb := m_skip rhs in let ldc := nc2 in
    let* C :=
      (if decide (nr1 = 1 /\ nc2 = 1) then
         let* v := launch_dot t nc1 (m_buf lhs) (m_off lhs) (if transa then lda else 1) (m_buf rhs) (m_off rhs) (if transb then 1 else ldb) in
         wr junk 0 v
       else if decide (nc2 = 1) then
         launch_gemv t transa (m_rows lhs) (m_cols lhs) (m_buf lhs) (m_off lhs) lda (m_buf rhs) (m_off rhs) (if transb then 1 else ldb) junk 0 ldc
       else
         launch_gemm t transa transb nr1 nc2 nc1 (m_buf lhs) (m_off lhs) lda (m_buf rhs) (m_off rhs) ldb junk 0 ldc) in
    Ok (mkDM C 0 nr1 nc2 nc2).

(** Gemv.h 51-79: two dense matrices of floating point numbers. The rows and columns of [vec] are not looked at. *)
Definition gemv_dense (junk : list V) (mat vec : dmat V) : outcome (dmat V) :=
  let numRows := m_rows mat in let numCols := m_cols mat in
  let* C := blas_gemv true numRows numCols (m_buf mat) (m_off mat) (m_skip mat) (m_buf vec) (m_off vec) (m_skip vec) junk 0 1 in
  Ok (mkDM C 0 numCols 1 1).
(** Gemv.h 81-121: a sparse matrix; the loop nest is that of MatMul.h 61-86. *)
Definition gemv_csr (junk : list V) (b : csrbuf V) (h : csrh) (vec : dmat V) : outcome (dmat V) :=
  if decide (h_cols h <> m_rows vec) then Throw
  else let* res := mm_rowwise A junk b h vec in Ok (mkDM res 0 (h_rows h) (m_cols vec) (m_cols vec)).

(** Syrk.h 50-96: a dense matrix of floating point numbers. *)
Definition syrk_dense (transLeft : bool) (junk : list V) (arg : dmat V) : outcome (dmat V) :=
  let numRows := m_rows arg in let numCols := m_cols arg in
  let n := if transLeft then numCols else numRows in
  let k := if transLeft then numRows else numCols in
  let* C := blas_syrk transLeft n k (m_buf arg) (m_off arg) (m_skip arg) junk 0 n in
  let* C := for_up 0 n (fun r C => for_up (r + 1) n (fun c C => let* v := rd C (r * n + c) in wr C (c * n + r) v) C) C in
  Ok (mkDM C 0 n n n).
End mm.

(** * The compiler. Values of the intermediate representation are numbers; [tr v] is the argument if v is the result of a TransposeOp. *)
Record mmop := mkMM { o_lhs : nat; o_rhs : nat; o_ta : bool; o_tb : bool }.
(** Canonicalize.cpp 137-186: MatMulOp::canonicalize; [low v]: the sparsity in the type of v is below 0.25, as it is (namely -1) if it is unknown. *)
Definition canon1 (tr : nat -> option nat) (low : nat -> bool) (o : mmop) : option mmop :=
  match tr (o_rhs o) with
  | None => None
  | Some y => if low (o_rhs o) then None else Some (mkMM (o_lhs o) y (o_ta o) (negb (o_tb o)))
  end.

Inductive plan := PSyrk (v : nat) (transLeft : bool) | PGemv (m v : nat) | PMatMul (l r : nat) (ta tb : bool).
(** PhyOperatorSelectionPass.cpp 43-75 (92-116 list the same three cases); [tyr], [tyc] are the numbers of rows and columns in the type of a value, -1: unknown. *)
Definition select (tr : nat -> option nat) (tyr tyc : nat -> Z) (o : mmop) : plan :=
  let toLhs := tr (o_lhs o) in
  let toRhs := tr (o_rhs o) in
  let rhsTransposed := o_tb o in
  if decide (toLhs = Some (o_rhs o) /\ rhsTransposed = false) then PSyrk (o_rhs o) true
  else if decide ((rhsTransposed = false /\ toRhs = Some (o_lhs o)) \/ (rhsTransposed = true /\ o_rhs o = o_lhs o)) then PSyrk (o_lhs o) false
  else match toLhs with
       | Some m =>
         if decide ((rhsTransposed = false /\ tyc (o_rhs o) = 1%Z) \/ (rhsTransposed = true /\ tyr (o_rhs o) = 1%Z)) then PGemv m (o_rhs o)
         else PMatMul (o_lhs o) (o_rhs o) (o_ta o) (o_tb o)
       | None => PMatMul (o_lhs o) (o_rhs o) (o_ta o) (o_tb o)
       end.
(** What is then called if all values are dense matrices. Syrk and Gemv are registered for float and double only (kernels.json 4993-5126):
    for other value types RewriteToCallKernelOpPass.cpp 390-420 stops with no kernel found. *)
Definition run_plan {V} `{Val V} (A : arith V) (t : vty) (junk : list V) (arr : nat -> dmat V) (p : plan) : outcome (dmat V) :=
  match p with
  | PSyrk v tl => match t with VFloat => syrk_dense A tl junk (arr v) | VInt => Throw end
  | PGemv m v => match t with VFloat => gemv_dense A junk (arr m) (arr v) | VInt => Throw end
  | PMatMul l r ta tb => mm_dense A t ta tb junk (arr l) (arr r)
  end.
