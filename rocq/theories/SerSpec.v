(** What it means that a receiver holds a matrix, and what a value type must satisfy. *)
From stdpp Require Import base numbers list.
From Coq Require Import NArith.
From Verif Require Import CppBase Mem CSRModel CSRSpec CSRView PipelineModel PipelineSpec SinkSpec SerModel.

(** A value occupies [vsize] bytes and is recovered from its memory image; [valid] are the values of the type. *)
Class RepOk (V : Type) `{Rep V} (valid : V -> Prop) : Prop := {
  rep_len : forall v, length (enc v) = vsize;
  rep_inv : forall v, valid v -> dec (enc v) = v
}.

(** Element [i] of an array of elements of [k] bytes. *)
Definition word (k i : nat) (mem : list N) : list N := take k (drop (i * k) mem).
Definition words (k n : nat) (mem : list N) : list (list N) := (fun i => word k i mem) <$> seq 0 n.

Section spec.
Context {V : Type} `{Rep V}.
(** The receiver's dense matrix has [n] rows, [m] columns, and its cell (r, c), read at position r * m + c of its row-major array, is [x r c]. *)
Definition holds_dense (o : dobj) (n m : nat) (x : nat -> nat -> V) : Prop :=
  do_rows o = n /\ do_cols o = m /\ length (do_mem o) = n * m * vsize /\
  forall r c, r < n -> c < m -> dec (word vsize (r * m + c) (do_mem o)) = x r c.

(** The receiver's sparse matrix as an object of the class CSRMatrix. *)
Definition as_csr (o : sobj) : csrbuf V * csrh :=
  (mkBuf (dec <$> words vsize (so_max o) (so_va o)) (unle_nat <$> words 8 (so_max o) (so_ci o)) (unle_nat <$> words 8 (so_rows o + 1) (so_ro o)),
   mkH 0 (so_rows o) (so_cols o) (so_rows o) false (so_max o) 0).
(** It has [n] rows and [m] columns and stores the rows [rows]. *)
Definition holds_sparse `{Val V} (o : sobj) (n m : nat) (rows : list (row V)) : Prop := is_matrix n m rows (as_csr o).
End spec.

(** A dense matrix whose rows follow each other in memory. *)
Definition contiguous {V} (a : dmat V) : Prop := m_skip a = m_cols a.
(** The block header holds 32-bit dimensions; sizes and column indexes are 64-bit. *)
Definition fits32 (n : nat) : Prop := (N.of_nat n < 2 ^ 32)%N.
Definition fits64 (n : nat) : Prop := (N.of_nat n < 2 ^ 64)%N.

(** Message buffers [bufs] carry the chunks [chunks]: each holds the bytes of its chunk, possibly followed by unused space
    up to the chunk size [c]. *)
Definition carries (c : nat) (chunks bufs : list (list N)) : Prop :=
  Forall2 (fun chunk buf => length buf <= c /\ exists pad, buf = chunk ++ pad) chunks bufs.
