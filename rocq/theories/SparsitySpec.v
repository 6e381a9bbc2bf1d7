(** What sparsity and symmetry mean. *)
From stdpp Require Import base numbers list.
From Coq Require Import ZArith QArith Qcanon.
From Verif Require Import CppBase SparsityModel.
Open Scope Z_scope.

Definition cells (M : mat) : list (nat * nat) := list_prod (seq 0 (nr M)) (seq 0 (nc M)).
(** The pattern of non-zero cells, row by row. *)
Definition pattern (M : mat) : list bool := map (fun p => bool_decide (cell M (fst p) (snd p) <> 0)) (cells M).
Definition trues (l : list bool) : nat := length (filter (fun b => b = true) l).
Definition nnz (M : mat) : nat := trues (pattern M).
Definition fraction (M : mat) : Qc := (qn (nnz M) / qn (nr M * nc M))%Qc.
Definition has_cells (M : mat) : Prop := (0 < nr M)%nat /\ (0 < nc M)%nat.

Definition symmetric (M : mat) : Prop :=
  nr M = nc M /\ forall i j, (i < nr M)%nat -> (j < nc M)%nat -> cell M i j = cell M j i.

(** Expressions of the operations for which the inference is exact: literals,
    files whose meta data give the right number of non-zeros, random matrices
    with exactly the requested fraction (see C42), diagonal matrices of a vector
    of known length, transposition and reshaping, of those. *)
Inductive exact_exp (rows_known : exp -> bool) : exp -> Prop :=
| ex_lit M : has_cells M -> exact_exp rows_known (Lit true M)
| ex_rand M : has_cells M -> exact_exp rows_known (Rand (Some (fraction M)) M)
| ex_read M : has_cells M -> exact_exp rows_known (ReadE (Some (nnz M)) M)
| ex_diag e : exact_exp rows_known e -> rows_known e = true -> nc (eval e) = 1%nat -> exact_exp rows_known (DiagE e)
| ex_trans e : exact_exp rows_known e -> exact_exp rows_known (TransE e)
| ex_reshape e n m : exact_exp rows_known e -> (n * m)%nat = (nr (eval e) * nc (eval e))%nat -> exact_exp rows_known (ReshapeE e n m).

(** The arguments of the script are proper: the fractions given are fractions,
    matrices are not empty, and diagonal matrices are of vectors of known length. *)
Fixpoint proper (rows_known : exp -> bool) (e : exp) : Prop :=
  match e with
  | Lit _ M => has_cells M
  | Rand s _ => match s with None => True | Some q => (qz 0 <= q <= qz 1)%Qc end
  | ReadE z M => has_cells M /\ match z with None => True | Some k => (k <= nr M * nc M)%nat end
  | SeqE _ | FillE _ _ _ | Other _ => True
  | DiagE e => proper rows_known e /\ rows_known e = true /\ (0 < nr (eval e))%nat
  | TriE _ _ _ e | TransE e | ReshapeE e _ _ | AddSca e _ | MulSca e _ => proper rows_known e
  | AddE a b | SubE a b | MulE a b | MatMulE a b | IfE _ a b => proper rows_known a /\ proper rows_known b
  end.

(** [Bs] has one matrix for every way to place [b] non-zeros in a matrix of the
    shape of [A]. *)
Definition all_placements (n m b : nat) (Bs : list mat) : Prop :=
  (forall B, B ∈ Bs -> nr B = n /\ nc B = m /\ nnz B = b) /\
  NoDup (map pattern Bs) /\ forall p, length p = (n * m)%nat -> trues p = b -> p ∈ map pattern Bs.
Definition total (l : list Qc) : Qc := foldr Qcplus (qz 0) l.
Definition nonneg (M : mat) : Prop := forall i j, 0 <= cell M i j.
