(** C27: transposing a matrix. *)
From stdpp Require Import base numbers sorting list list_numbers.
From Coq Require Import Lia.
From Verif Require Import CppBase Mem CSRModel CSRSpec CSRProofs CSRView SinkSpec SinkProofs SparseLoops TransposeModel TransposeProofs.

(** Dense: for every matrix, strided or not, the result has the swapped shape and cell (c, r) is cell (r, c) of the argument; whatever
    the new array contained. A matrix that is not a view has rowSkip = numCols (DenseMatrix.cpp 68-124). *)
Theorem C27_dense {V} isview junk (a : dmat V) n m x : is_dense a n m x -> (isview = false -> m_skip a = m) -> m_off a <= length (m_buf a) -> length junk = n * m ->
  exists a', tr_dense isview junk a = Ok a' /\ is_dense a' m n (fun r c => x c r).
Proof. intros H1 H2 H3 H4. destruct (tr_dense_spec isview junk a n m x H1 H2 H3 H4) as (a' & E & Hd & _). eauto. Qed.
Theorem C27_dense_twice {V} isview junk junk' (a : dmat V) n m x : is_dense a n m x -> (isview = false -> m_skip a = m) -> m_off a <= length (m_buf a) ->
  length junk = n * m -> length junk' = n * m ->
  exists a' a'', tr_dense isview junk a = Ok a' /\ tr_dense false junk' a' = Ok a'' /\ is_dense a'' n m x.
Proof.
  intros H1 H2 H3 H4 H5. destruct (tr_dense_spec isview junk a n m x H1 H2 H3 H4) as (a' & E & Hd & Hs).
  assert (Hoff : m_off a' <= length (m_buf a')).
  { unfold tr_dense in E. destruct (_ && _); [injection E as <-; done|]. apply obind_Ok in E as (b & _ & [= <-]). simpl. lia. }
  destruct (tr_dense_spec false junk' a' m n (fun r c => x c r)) as (a'' & E' & Hd' & _); [done|done|done|lia|]. eauto.
Qed.

Section csr.
Context {V : Type} `{Val V}.

(** Sparse: for every matrix or view of rows of one, the result is a complete matrix of the swapped shape in valid form (sorted rows, see
    [covers]) that stores exactly the entries of the argument with row and column swapped, and reading it gives the swapped cells. *)
Theorem C27_sparse alloc (b : csrbuf V) h (rs : list (row V)) : alloc_ok alloc -> shows b h rs ->
  exists res rows, tr_csr alloc b h = Ok res /\ is_matrix (h_cols h) (h_rows h) rows res /\
    (forall r c l lt v, rs !! r = Some l -> rows !! c = Some lt -> (r, v) ∈ lt <-> (c, v) ∈ l) /\
    (forall r c, r < h_rows h -> c < h_cols h -> csr_get (fst res) (snd res) c r = csr_get b h r c).
Proof.
  intros Hal Hs. destruct (tr_csr_spec alloc b h rs Hal Hs) as (res & E & Hm). destruct (shows_reads _ _ _ Hs) as (base & HR & _). pose proof (rd_ok _ _ _ _ HR) as Hok.
  exists res, (transposed (h_cols h) rs). split; [done|]. split; [done|]. split.
  - intros r c l lt v Hl Hlt. by eapply transposed_elem.
  - intros r c Hr Hc. rewrite (shows_cell b h rs) by done. destruct Hm as (Hcov & Ho & Hn & Hm & Hlen).
    rewrite (shows_cell _ _ (transposed (h_cols h) rs)); [f_equal; by apply transposed_cell|apply shows_all; [done|done|lia]|lia|lia].
Qed.
(** Twice: the rows of the argument, in full. *)
Theorem C27_sparse_twice alloc (b : csrbuf V) h (rs : list (row V)) : alloc_ok alloc -> shows b h rs ->
  exists res res2, tr_csr alloc b h = Ok res /\ tr_csr alloc (fst res) (snd res) = Ok res2 /\ is_matrix (h_rows h) (h_cols h) rs res2.
Proof.
  intros Hal Hs. destruct (tr_csr_spec alloc b h rs Hal Hs) as (res & E & Hm). destruct (shows_reads _ _ _ Hs) as (base & HR & _). pose proof (rd_ok _ _ _ _ HR) as Hok.
  pose proof Hm as (Hcov & Ho & Hn & Hmm & Hlen).
  destruct (tr_csr_spec alloc (fst res) (snd res) (transposed (h_cols h) rs) Hal) as (res2 & E2 & Hm2); [apply shows_all; [done|done|lia]|].
  exists res, res2. split; [done|]. split; [done|]. rewrite Hn, Hmm in Hm2. rewrite <- (rd_rows _ _ _ _ HR) in Hm2 at 2. rewrite transposed_twice in Hm2 by done. done.
Qed.
End csr.

(** Concrete cases: a 2 x 3 view of columns 1..3 of a 2 x 4 array; a view of rows 1..2 of a 3 x 3 sparse matrix. *)
Example C27_ex_dense : tr_dense true (replicate 6 99%Z) (mkDM [0; 1; 2; 3; 4; 5; 6; 7]%Z 1 2 3 4) = Ok (mkDM [1; 5; 2; 6; 3; 7]%Z 0 3 2 2).
Proof. vm_compute. done. Qed.
Definition ex_alloc (n k : nat) : csrbuf Z := mkBuf (replicate k 77%Z) (replicate k 77) (replicate (n + 1) 77).
Example ex_alloc_ok : alloc_ok ex_alloc.
Proof. intros n k. unfold ex_alloc. cbn [bvals bcols broff]. by rewrite !replicate_length. Qed.
Definition ex_rows : list (row Z) := [[(1, 5%Z)]; [(0, 6%Z); (2, 7%Z)]; [(2, 8%Z)]].
Definition ex_buf : csrbuf Z := mkBuf [5; 6; 7; 8]%Z [1; 0; 2; 2] [0; 1; 3; 4].
Definition ex_h : csrh := mkH 1 2 3 2 true 4 0.
Example C27_ex_shows : shows ex_buf ex_h [[(0, 6%Z); (2, 7%Z)]; [(2, 8%Z)]].
Proof.
  exists ex_rows. split; [|done]. split; [| |simpl; lia|done|done].
  - split; [done|]. exists [], []. done.
  - repeat (constructor; [split; repeat constructor; simpl; lia|]). constructor.
Qed.
Example C27_ex_sparse : tr_csr ex_alloc ex_buf ex_h = Ok (mkBuf [6; 7; 8]%Z [0; 0; 1] [0; 1; 1; 3], mkH 0 3 2 3 false 3 0).
Proof. vm_compute. done. Qed.

Print Assumptions C27_dense.
Print Assumptions C27_dense_twice.
Print Assumptions C27_sparse.
Print Assumptions C27_sparse_twice.
