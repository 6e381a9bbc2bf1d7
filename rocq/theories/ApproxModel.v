(** Model of searching a value in a matrix and of comparing matrices approximately. *)
From stdpp Require Import base numbers list.
From Verif Require Import CppBase.

(** Values: numbers and not-a-number.  Simplifications: numbers are integers without rounding and overflow, infinities are left out. *)
Inductive fv := FNum (z : Z) | FNan.
Definition isnan (a : fv) : bool := match a with FNan => true | FNum _ => false end.
Definition feq (a b : fv) : bool := match a, b with FNum x, FNum y => bool_decide (x = y) | _, _ => false end.
Definition fgt (a b : fv) : bool := match a, b with FNum x, FNum y => bool_decide (y < x)%Z | _, _ => false end.
Definition fsub (a b : fv) : fv := match a, b with FNum x, FNum y => FNum (x - y) | _, _ => FNan end.
Definition fneg (a : fv) : fv := match a with FNum x => FNum (- x) | FNan => FNan end.

(** A dense matrix by its cells; a sparse matrix by the stored columns and values of each row, in the order of the arrays.  For a view these are
    the rows of the view (CSRMatrix.h: getValues(rowIdx), getNumNonZeros). *)
Record dense := mkDense { d_rows : nat; d_cols : nat; d_get : nat -> nat -> fv }.
Record sparse := mkSparse { s_cols : nat; s_data : list (list (nat * fv)) }.
Definition s_rows (m : sparse) : nat := length (s_data m).
(** CSRMatrix.h: getNumNonZeros() *)
Definition s_nnz (m : sparse) : nat := length (concat (s_data m)).

(** src/runtime/local/kernels/HasSpecialValue.h 61-81, 115-137: dense and generic matrices *)
Definition has_dense (m : dense) (v : fv) : bool :=
  let any test := existsb (fun r => existsb (fun c => test (d_get m r c)) (seq 0 (d_cols m))) (seq 0 (d_rows m)) in
  if isnan v then any isnan else any (fun x => feq x v).
(** src/runtime/local/kernels/HasSpecialValue.h 87-113: sparse matrices, the values from that of the first row to the end of the last *)
Definition has_sparse (m : sparse) (v : fv) : bool :=
  let any test := existsb (fun e => test (snd e)) (concat (s_data m)) in
  if isnan v then any isnan
  else (bool_decide (s_nnz m < s_rows m * s_cols m) && feq (FNum 0) v) || any (fun x => feq x v).

(** src/runtime/local/kernels/CheckEqApprox.h 103-110, 142-149: the comparison of two numbers, true if the loop goes on *)
Definition close (eps : Z) (a b : fv) : bool :=
  let diff := fsub a b in
  if feq diff (FNum 0) then true
  else let diff := if fgt diff (FNum 0) then diff else fneg diff in negb (fgt diff (FNum eps)).
(** src/runtime/local/kernels/CheckEqApprox.h 82-117: two dense matrices that are different objects with different arrays *)
Definition approx_dense (eps : Z) (a b : dense) : bool :=
  if bool_decide (d_rows a <> d_rows b \/ d_cols a <> d_cols b) then false
  else forallb (fun r => forallb (fun c => close eps (d_get a r c) (d_get b r c)) (seq 0 (d_cols a))) (seq 0 (d_rows a)).
(** src/runtime/local/kernels/CheckEqApprox.h 123-154: two sparse matrices; the column indexes are not looked at *)
Fixpoint close_row (eps : Z) (a b : list (nat * fv)) : bool :=
  match a, b with (_, x) :: a, (_, y) :: b => close eps x y && close_row eps a b | _, _ => true end.
Fixpoint close_rows (eps : Z) (a b : list (list (nat * fv))) : bool :=
  match a, b with
  | x :: a, y :: b => if bool_decide (length x <> length y) then false else close_row eps x y && close_rows eps a b
  | _, _ => true
  end.
Definition approx_sparse (eps : Z) (a b : sparse) : bool :=
  if bool_decide (s_rows a <> s_rows b \/ s_cols a <> s_cols b) then false else close_rows eps (s_data a) (s_data b).
(** src/runtime/local/kernels/CheckEqApprox.h 103-110, 142-149 for unsigned numbers of [bits] bits: the difference wraps around and is never negative *)
Definition close_unsigned (bits : Z) (eps a b : Z) : bool :=
  let diff := ((a - b) mod 2 ^ bits)%Z in
  if bool_decide (diff = 0%Z) then true
  else let diff := if bool_decide (0 < diff)%Z then diff else ((- diff) mod 2 ^ bits)%Z in negb (bool_decide (eps < diff)%Z).
(** src/runtime/local/kernels/CheckEqApprox.h 229-252: matrices by the generic interface, whatever their representation *)
Definition close_abs (eps : Z) (a b : fv) : bool := match fsub a b with FNum d => negb (bool_decide (eps < Z.abs d)%Z) | FNan => true end.
Definition approx_matrix (eps : Z) (a b : dense) : bool :=
  if bool_decide (d_rows a <> d_rows b \/ d_cols a <> d_cols b) then false
  else forallb (fun r => forallb (fun c => close_abs eps (d_get a r c) (d_get b r c)) (seq 0 (d_cols a))) (seq 0 (d_rows a)).
(** src/runtime/local/kernels/CheckEqApprox.h 161-222: frames by their numbers of rows, types, labels and columns.  Simplification: types and labels are numbers. *)
Record frame := mkFrame { f_rows : nat; f_schema : list nat; f_labels : list nat; f_columns : list dense }.
Definition approx_frame (eps : Z) (a b : frame) : bool :=
  if bool_decide (f_rows a <> f_rows b \/ length (f_columns a) <> length (f_columns b)) then false
  else if bool_decide (f_schema a <> f_schema b) then false
  else if bool_decide (f_labels a <> f_labels b) then false
  else forallb (fun p => approx_dense eps (fst p) (snd p)) (zip (f_columns a) (f_columns b)).
