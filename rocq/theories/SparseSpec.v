(** A sparse matrix seen from outside: its shape and the values returned by get. *)
From stdpp Require Import base numbers sorting list list_numbers.
From Coq Require Import Lia.
From Verif Require Import CppBase Mem CSRModel CSRSpec CSRProofs CSRView.
Section sp.
Context {V : Type} `{Val V}.
(** The sparse matrix (or view of rows of one) [b], [h] has the cells [x]. *)
Definition sparse_cells (b : csrbuf V) (h : csrh) (n m : nat) (x : nat -> nat -> V) : Prop :=
  (exists rs, shows b h rs) /\ h_rows h = n /\ h_cols h = m /\ forall r c, r < n -> c < m -> csr_get b h r c = Ok (x r c).

Lemma sparse_cells_cell b h n m x : sparse_cells b h n m x -> exists rs, shows b h rs /\ h_rows h = n /\ h_cols h = m /\ forall r c, r < n -> c < m -> cell rs r c = x r c.
Proof.
  intros ([rs Hs] & <- & <- & Hx). exists rs. split; [done|]. split; [done|]. split; [done|]. intros r c Hr Hc. specialize (Hx r c Hr Hc). rewrite (shows_cell _ _ rs) in Hx by done. by injection Hx.
Qed.
Lemma is_dense_ext (a : dmat V) n m x y : is_dense a n m x -> (forall r c, r < n -> c < m -> x r c = y r c) -> is_dense a n m y.
Proof. intros (H1 & H2 & H3 & H4 & H5) He. split; [done|]. split; [done|]. split; [done|]. split; [done|]. intros r c Hr Hc. rewrite H5 by done. f_equal. auto. Qed.

End sp.
