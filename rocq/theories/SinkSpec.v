(** What the parts of a sparse result are. *)
From stdpp Require Import base numbers list.
From Verif Require Import CppBase CSRModel CSRSpec CSRView PipelineModel PipelineSpec.

Section spec.
Context {V : Type} `{Val V}.
(** Rows [a, b) of a sparse matrix whose row i is [R i]. *)
Definition some_rows (R : nat -> row V) (a b : nat) : list (row V) := R <$> seq a (b - a).
(** Columns [a, b) of an [n]-row sparse matrix that stores the value [G r c] at (r, c), if any, renumbered from 0. *)
Definition some_cols (G : nat -> nat -> option V) (n a b : nat) : list (row V) :=
  (fun r => omap (fun i => (fun v => (i, v)) <$> G r (a + i)) (seq 0 (b - a))) <$> seq 0 n.

(** [p] is the sparse result for the range [t] of rows (of columns). *)
Definition row_part (R : nat -> row V) (m : nat) (t : nat * nat) (p : csrbuf V * csrh) : Prop :=
  h_off (snd p) = 0 /\ h_cols (snd p) = m /\ shows (fst p) (snd p) (some_rows R (fst t) (snd t)).
Definition col_part (G : nat -> nat -> option V) (n : nat) (t : nat * nat) (p : csrbuf V * csrh) : Prop :=
  h_cols (snd p) = snd t - fst t /\ shows (fst p) (snd p) (some_cols G n (fst t) (snd t)).

(** A newly allocated array has the requested size and arbitrary contents. *)
Definition alloc_ok (alloc : nat -> nat -> csrbuf V) : Prop :=
  forall n nnz, length (bvals (alloc n nnz)) = nnz /\ length (bcols (alloc n nnz)) = nnz /\ length (broff (alloc n nnz)) = n + 1.

(** A complete matrix that owns its arrays. *)
Definition is_matrix (n m : nat) (rows : list (row V)) (p : csrbuf V * csrh) : Prop :=
  covers (fst p) (snd p) rows /\ h_off (snd p) = 0 /\ h_rows (snd p) = n /\ h_cols (snd p) = m /\ length rows = n.

(** A body with a sparse result that acts row-wise: row i of its output is [h] of what is seen for row i ... *)
Definition sparse_row_wise (body : list (list (list V)) -> outcome (csrbuf V * csrh)) (valid : list (list (list V)) -> Prop) (splits : list bool) (m : nat)
    (h : list (list (list V)) -> row V) : Prop :=
  forall xs k, 0 < k -> compatible valid splits xs k -> exists p, body xs = Ok p /\ row_part (fun i => h (all_seen splits xs i)) m (0, k) p.
(** ... or whose column i is: entry r of the column is stored if [h] gives it. *)
Definition sparse_col_wise (body : list (list (list V)) -> outcome (csrbuf V * csrh)) (valid : list (list (list V)) -> Prop) (splits : list bool) (n : nat)
    (h : list (list (list V)) -> nat -> option V) : Prop :=
  forall xs k, 0 < k -> compatible valid splits xs k -> exists p, body xs = Ok p /\ col_part (fun r i => h (all_seen splits xs i) r) n (0, k) p.
End spec.
