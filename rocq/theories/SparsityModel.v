(** Model of the inference of sparsity (the fraction of non-zero cells) and
    symmetry, and of the built-in function sparsity() that relies on it. *)
From stdpp Require Import base numbers list.
From Coq Require Import ZArith QArith Qcanon.
From Verif Require Import CppBase.
Open Scope Z_scope.

(** A matrix of integers; the numbers are only tested for zero. *)
Record mat := mkMat { nr : nat; nc : nat; cell : nat -> nat -> Z }.

Definition qz (z : Z) : Qc := Q2Qc (inject_Z z).
Definition qn (n : nat) : Qc := qz (Z.of_nat n).

(** src/ir/daphneir/DataPropertyTypes.h, line 25: BoolOrUnknown. *)
Inductive bou := BTrue | BFalse | BUnknown.
Global Instance bou_eq_dec : EqDecision bou.
Proof. solve_decision. Defined.

(** An unknown sparsity is -1. *)
Definition unknown : Qc := qz (-1).

(** Expressions.  The leaves carry the matrix they have at run time.
    [Lit sup M]: a matrix literal ([sup]: of one of the supported value types);
    [Rand s M]: rand() with a constant sparsity argument, if it is constant;
    [SeqE M]: seq(); [FillE v n m]: fill(); [ReadE nnz M]: read() with the number
    of non-zeros of the meta data, if given there; [Other M]: any operation
    without sparsity inference. *)
Inductive exp :=
| Lit (sup : bool) (M : mat)
| Rand (s : option Qc) (M : mat)
| SeqE (M : mat)
| FillE (v : Z) (n m : nat)
| ReadE (nnz : option nat) (M : mat)
| Other (M : mat)
| DiagE (e : exp)
| TriE (upper diag values : bool) (e : exp)
| TransE (e : exp)
| ReshapeE (e : exp) (n m : nat)
| AddE (a b : exp)
| SubE (a b : exp)
| MulE (a b : exp)
| AddSca (e : exp) (z : Z)
| MulSca (e : exp) (z : Z)
| MatMulE (a b : exp)
| IfE (c : bool) (a b : exp).

(** * Values *)
Fixpoint dot (k : nat) (f g : nat -> Z) : Z := match k with O => 0 | S k => dot k f g + f k * g k end.
Definition in_tri (upper diag : bool) (i j : nat) : bool :=
  (if upper then (i <? j)%nat else (j <? i)%nat) || (diag && (i =? j)%nat).
(** The kernels (see C47, C48, C50, C27, C52 and C60 for what they compute). *)
Fixpoint eval (e : exp) : mat :=
  match e with
  | Lit _ M | Rand _ M | SeqE M | ReadE _ M | Other M => M
  | FillE v n m => mkMat n m (fun _ _ => v)
  | DiagE e => let M := eval e in mkMat (nr M) (nr M) (fun i j => if decide (i = j) then cell M i 0%nat else 0)
  | TriE upper diag values e =>
      let M := eval e in
      mkMat (nr M) (nc M) (fun i j =>
        if in_tri upper diag i j
        then (if values then cell M i j else if decide (cell M i j = 0) then 0 else 1) else 0)
  | TransE e => let M := eval e in mkMat (nc M) (nr M) (fun i j => cell M j i)
  | ReshapeE e n m => let M := eval e in mkMat n m (fun i j => cell M ((i * m + j) / nc M)%nat ((i * m + j) mod nc M)%nat)
  | AddE a b => let A := eval a in let B := eval b in mkMat (nr A) (nc A) (fun i j => cell A i j + cell B i j)
  | SubE a b => let A := eval a in let B := eval b in mkMat (nr A) (nc A) (fun i j => cell A i j - cell B i j)
  | MulE a b => let A := eval a in let B := eval b in mkMat (nr A) (nc A) (fun i j => cell A i j * cell B i j)
  | AddSca e z => let M := eval e in mkMat (nr M) (nc M) (fun i j => cell M i j + z)
  | MulSca e z => let M := eval e in mkMat (nr M) (nc M) (fun i j => cell M i j * z)
  | MatMulE a b => let A := eval a in let B := eval b in mkMat (nr A) (nc B) (fun i j => dot (nc A) (fun k => cell A i k) (fun k => cell B k j))
  | IfE c a b => if c then eval a else eval b
  end.

(** * Inference *)
(** src/ir/daphneir/DaphneInferSparsityOpInterface.cpp, lines 60-73: getSparsity
    of a matrix literal. *)
Definition lit_sparsity (M : mat) : Qc :=
  match for_up 0 (nr M) (fun r n => for_up 0 (nc M) (fun c n => Ok (if decide (cell M r c <> 0) then S n else n)) n) 0%nat with
  | Ok n => (qn n / qn (nr M * nc M))%Qc
  | _ => unknown
  end.

(** DaphneInferSparsityOpInterface.cpp, lines 191-197: EwSparseIfBoth. *)
Definition ew_both (a b : Qc) : Qc :=
  if decide (a <> unknown /\ b <> unknown) then (a + b - a * b)%Qc else unknown.
(** DaphneInferSparsityOpInterface.cpp, lines 199-209: EwSparseIfEither. *)
Definition ew_either (a b : Qc) : Qc :=
  if decide (a <> unknown /\ b <> unknown) then (a * b)%Qc
  else if decide (a <> unknown) then a else if decide (b <> unknown) then b else unknown.
Fixpoint qpow (q : Qc) (k : nat) : Qc := match k with O => qz 1 | S k => (q * qpow q k)%Qc end.
(** DaphneInferSparsityOpInterface.cpp, lines 114-129: MatMulOp. *)
Definition mm_sparsity (a b : Qc) (k : option nat) : Qc :=
  if decide (a = unknown \/ b = unknown) then unknown
  else match k with None => unknown | Some k => (qz 1 - qpow (qz 1 - a * b) k)%Qc end.
(** DaphneInferSparsityOpInterface.cpp, lines 102-112: DiagMatrixOp; an unknown
    number of rows is -1. *)
Definition diag_sparsity (s : Qc) (k : option nat) : Qc :=
  let s := if decide (s = unknown) then qz 1 else s in
  (s / match k with Some k => qn k | None => qz (-1) end)%Qc.
(** DaphneInferSparsityOpInterface.cpp, lines 131-138: TriOp. *)
Definition tri_sparsity (s : Qc) : Qc := if decide (s = unknown) then unknown else (s / qz 2)%Qc.
(** DaphneInferSparsityOpInterface.cpp, lines 140-152: ReadOp. *)
Definition read_sparsity (nnz : option nat) (n m : nat) : Qc :=
  match nnz with None => unknown | Some z => (qn z / qn n / qn m)%Qc end.

(** C++: conversion of a double to ssize_t drops the fraction. *)
Definition to_ssize (q : Qc) : Z := Z.quot (Qnum (this q)) (Zpos (Qden (this q))).
(** src/compiler/inference/InferencePass.cpp, lines 57-85 (getTypeWithCommonInfo):
    sp1 and sp2 are variables of type ssize_t. *)
Definition merge_sparsity (a b : Qc) : Qc :=
  let sp1 := to_ssize a in let sp2 := to_ssize b in
  if decide (sp1 = sp2) then qz sp1 else unknown.
Definition merge_sym (a b : bou) : bou := if decide (a = b) then a else BUnknown.

Section with_shapes.
(** Whether the compiler knows the number of rows or columns of the value of an
    expression; what it knows is right (see C59). *)
Context (rows_known cols_known : exp -> bool).
Definition k_rows (e : exp) : option nat := if rows_known e then Some (nr (eval e)) else None.
Definition k_cols (e : exp) : option nat := if cols_known e then Some (nc (eval e)) else None.

(** DaphneInferSparsityOpInterface.cpp, lines 177-228 (tryInferSparsity), with
    the traits of the operations in src/ir/daphneir/DaphneOps.td, and
    InferencePass.cpp, lines 158-170 and 455-480 (if-then-else).  Doubles are
    modelled as rational numbers.  Loops are not modelled. *)
Fixpoint sparsity_of (e : exp) : Qc :=
  match e with
  | Lit sup M => if sup then lit_sparsity M else unknown
  | Rand s _ => default unknown s
  | SeqE _ => qz 1
  | FillE _ _ _ | Other _ => unknown
  | ReadE nnz M => read_sparsity nnz (nr M) (nc M)
  | DiagE e => diag_sparsity (sparsity_of e) (k_rows e)
  | TriE _ _ _ e => tri_sparsity (sparsity_of e)
  | TransE e => sparsity_of e
  | ReshapeE e _ _ => sparsity_of e
  | AddE a b | SubE a b => ew_both (sparsity_of a) (sparsity_of b)
  | MulE a b => ew_either (sparsity_of a) (sparsity_of b)
  | AddSca e _ => ew_both (sparsity_of e) unknown
  | MulSca e _ => ew_either (sparsity_of e) unknown
  | MatMulE a b => mm_sparsity (sparsity_of a) (sparsity_of b) (match k_cols a with Some k => Some k | None => k_rows b end)
  | IfE _ a b => merge_sparsity (sparsity_of a) (sparsity_of b)
  end.

(** src/ir/daphneir/DaphneInferSymmetricOpInterface.cpp, lines 33-66. *)
Fixpoint symmetric_of (e : exp) : bou :=
  match e with
  | FillE _ n m => match k_rows e, k_cols e with Some a, Some b => if decide (a = b) then BTrue else BFalse | _, _ => BUnknown end
  | TransE e => symmetric_of e
  | IfE _ a b => merge_sym (symmetric_of a) (symmetric_of b)
  | _ => BUnknown
  end.

(** src/ir/daphneir/Canonicalize.cpp, lines 255-271: sparsity(X) is replaced by the
    inferred sparsity if it is known; src/runtime/local/kernels/Sparsity.h, line
    28: otherwise the kernel returns -1. *)
Definition sparsity_call (e : exp) : Qc :=
  if decide (sparsity_of e <> unknown) then sparsity_of e else qz (-1).
End with_shapes.
