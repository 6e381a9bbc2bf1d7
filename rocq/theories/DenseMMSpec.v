(** What the product of (possibly transposed) matrices is, and what the values of a program are. *)
From stdpp Require Import base numbers list.
From Verif Require Import CppBase Mem CSRModel AggModel MatMulSpec.
Section spec.
Context {V : Type} `{Val V}.
Record mat := mkM { rows : nat; cols : nat; cell : nat -> nat -> V }.
Definition flip (X : mat) : mat := mkM (cols X) (rows X) (fun i j => cell X j i).
(** X, or its transpose. *)
Definition turned (t : bool) (X : mat) : mat := if t then flip X else X.
(** [a] is the matrix X, stored with any stride. *)
Definition holds (a : dmat V) (X : mat) : Prop := is_dense a (rows X) (cols X) (cell X).
(** The product; cell (i, j) is the sum of X(i, k) * Y(k, j). *)
Definition times (A : arith V) (X Y : mat) : mat := mkM (rows X) (cols Y) (prod A (cols X) (cell X) (cell Y)).
(** Two matrices with the same shape and the same cells. *)
Definition same_mat (X Y : mat) : Prop :=
  rows X = rows Y /\ cols X = cols Y /\ forall i j, i < rows X -> j < cols X -> cell X i j = cell Y i j.
(** x * y = y * x *)
Definition commutes (A : arith V) : Prop := forall x y, amul A x y = amul A y x.
(** A program whose values are the matrices [val], held by the arrays [arr]; [tr v = Some w] only if v is the transpose of w, and the types know
    the shapes or leave them open. *)
Definition program (tr : nat -> option nat) (tyr tyc : nat -> Z) (arr : nat -> dmat V) (val : nat -> mat) : Prop :=
  (forall v, holds (arr v) (val v)) /\
  (forall v w, tr v = Some w -> same_mat (val v) (flip (val w))) /\
  (forall v, (tyr v = -1 \/ tyr v = Z.of_nat (rows (val v)))%Z /\ (tyc v = -1 \/ tyc v = Z.of_nat (cols (val v)))%Z).
End spec.
Arguments mat : clear implicits.
