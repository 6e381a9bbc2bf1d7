(** C28: casting between data types keeps the cells (and where it does not). *)
From stdpp Require Import base numbers sorting list list_numbers.
From Coq Require Import Lia.
From Verif Require Import CppBase Mem CSRModel CSRSpec CSRProofs CSRView SinkSpec SinkProofs SparseLoops CastModel CastProofs.

Section csr.
Context {V : Type} `{Val V}.

(** Dense to sparse: a valid sparse matrix of the same shape, without explicit zeros, with the same cells ([norm] maps every value that
    compares equal to zero, e.g. -0.0, to the zero). For every stride and every contents of the new arrays. *)
Theorem C28_dense_to_sparse alloc (a : dmat V) n m x : alloc_ok alloc -> is_dense a n m x ->
  exists res rows, cast_ds alloc a = Ok res /\ is_matrix n m rows res /\ no_zeros rows /\
    forall r c, r < n -> c < m -> csr_get (fst res) (snd res) r c = Ok (norm (x r c)).
Proof.
  intros Hal Hd. destruct (cast_ds_spec alloc a n m x Hal Hd) as (res & E & Hm). exists res, (nz_rows n m x). split; [done|]. split; [done|]. split; [apply nz_rows_no_zeros|].
  intros r c Hr Hc. destruct Hm as (Hcov & Ho & Hn & Hm & Hlen). rewrite (shows_cell _ _ (nz_rows n m x)); [f_equal; by apply nz_rows_cell|apply shows_all; [done|done|lia]|lia|lia].
Qed.
(** Sparse to dense, for every matrix or view of rows of one (explicit zeros or not). *)
Theorem C28_sparse_to_dense junk (b : csrbuf V) h rs : shows b h rs -> length junk = h_rows h * h_cols h ->
  exists a x, cast_sd junk b h = Ok a /\ is_dense a (h_rows h) (h_cols h) x /\
    forall r c, r < h_rows h -> c < h_cols h -> csr_get b h r c = Ok (x r c).
Proof.
  intros Hs Hj. destruct (cast_sd_spec junk b h rs Hs Hj) as (vs & E & Ht). exists (mkDM vs 0 (h_rows h) (h_cols h) (h_cols h)), (cell rs). split; [done|].
  split; [by apply tabulated_is_dense|]. intros r c Hr Hc. by apply shows_cell.
Qed.
(** There and back. *)
Theorem C28_dense_round_trip alloc junk (a : dmat V) n m x : alloc_ok alloc -> is_dense a n m x -> length junk = n * m ->
  exists res a', cast_ds alloc a = Ok res /\ cast_sd junk (fst res) (snd res) = Ok a' /\ is_dense a' n m (fun r c => norm (x r c)).
Proof.
  intros Hal Hd Hj. destruct (cast_ds_spec alloc a n m x Hal Hd) as (res & E & Hcov & Ho & Hn & Hm & Hlen).
  destruct (cast_sd_spec junk (fst res) (snd res) (nz_rows n m x)) as (vs & E2 & Ht); [apply shows_all; [done|done|lia]|by rewrite Hn, Hm|].
  rewrite Hn, Hm in *. exists res, (mkDM vs 0 n m m). split; [done|]. split; [done|]. apply tabulated_is_dense. destruct Ht as [Hl Ht]. split; [done|].
  intros r c Hr Hc. rewrite Ht by done. f_equal. by apply nz_rows_cell.
Qed.
Theorem C28_sparse_round_trip alloc junk (b : csrbuf V) h rs : viszero vzero = true -> alloc_ok alloc -> shows b h rs -> no_zeros rs -> length junk = h_rows h * h_cols h ->
  exists a res, cast_sd junk b h = Ok a /\ cast_ds alloc a = Ok res /\ is_matrix (h_rows h) (h_cols h) rs res.
Proof.
  intros Hz Hal Hs Hnz Hj. destruct (cast_sd_spec junk b h rs Hs Hj) as (vs & E & Ht). apply tabulated_is_dense in Ht.
  destruct (cast_ds_spec alloc _ _ _ _ Hal Ht) as (res & E2 & Hm). eexists _, res. split; [exact E|]. split; [done|].
  assert (Eq : nz_rows (h_rows h) (h_cols h) (cell rs) = rs); [|by rewrite Eq in Hm].
  destruct (shows_reads _ _ _ Hs) as (base & HR & _). pose proof (rd_ok _ _ _ _ HR) as Hok. pose proof (rd_rows _ _ _ _ HR) as Hlen.
  apply list_eq. intros r. destruct (decide (r < h_rows h)) as [Hr|Hr].
  - destruct (lookup_lt_is_Some_2 rs r) as [l Hl]; [lia|]. rewrite Hl. unfold nz_rows. rewrite lookup_fseq by done. f_equal. rewrite Forall_lookup in Hok. apply (row_ext (h_cols h)); [apply ents_ok|by eapply Hok|].
    intros c Hc. rewrite find_col_ents, decide_True by lia. unfold nzG, cell. rewrite Hl, cell_in_find. destruct (find_col c l) as [v|] eqn:Hf; cbn [from_option id]; [|by rewrite Hz].
    apply find_col_Some in Hf. unfold no_zeros in Hnz. rewrite Forall_lookup in Hnz. specialize (Hnz _ _ Hl). rewrite Forall_forall in Hnz. specialize (Hnz _ Hf). cbn in Hnz. unfold id. by rewrite Hnz.
  - rewrite !lookup_ge_None_2; [done|lia|rewrite nz_rows_length; lia].
Qed.
End csr.

(** Dense to dense with another value type ([f] casts a value): strided or not, the cells are cast. *)
Theorem C28_dense_to_dense {W V} (f : W -> V) junk (a : dmat W) n m x : is_dense a n m x -> length junk = n * m ->
  exists a', cast_dd f junk a = Ok a' /\ is_dense a' n m (fun r c => f (x r c)).
Proof. apply cast_dd_spec. Qed.
(** Matrix to frame and back: the same cells. *)
Theorem C28_frame_round_trip {V} (same : bool) junk junk' (a : dmat V) n m x : is_dense a n m x -> (forall c, length (junk c) = n) -> length junk' = n * m ->
  exists cols a', cast_fd junk a = Ok (n, cols) /\ length cols = m /\ cast_df (fun _ v => v) (if same then Some (fun v => v) else None) junk' n cols = Ok a' /\ is_dense a' n m x.
Proof.
  intros Hd Hj Hj'. destruct (cast_fd_spec junk a n m x Hd Hj) as (cols & E & Hc).
  destruct (cast_df_spec (fun _ v => v) (if same then Some (fun v => v) else None) junk' n m cols x Hc) as (a' & E' & Hd'); [destruct same; [by intros g [= <-]|done]|done|].
  exists cols, a'. split; [done|]. split; [apply Hc|]. done.
Qed.
(** Column matrix to column and back. *)
Theorem C28_column_round_trip {V} junk (a : dmat V) n x : is_dense a n 1 x -> length junk = n ->
  exists col, cast_cd junk a = Ok col /\ fst col = n /\ (forall r, r < n -> snd col !! r = Some (x r 0)) /\ is_dense (cast_dc col) n 1 x.
Proof.
  intros Hd Hj. destruct (cast_cd_spec junk a n x Hd Hj) as (b & E & H1 & H2). exists (n, b). split; [done|]. split; [done|]. split; [done|].
  unfold cast_dc, is_dense. cbn [m_rows m_cols m_skip m_off m_buf fst snd]. split; [done|]. split; [done|]. split; [done|]. split; [lia|].
  intros r c Hr Hc. assert (c = 0) by lia. subst. rewrite <- (H1 r Hr). f_equal. lia.
Qed.

(** Sparse to sparse with another value type. It holds for square matrices that start at the first row ... *)
Theorem C28_sparse_to_sparse {W V} `{Val W} `{Val V} (f : W -> V) (b : csrbuf W) h rs : shows b h rs -> h_off h = 0 -> h_rows h = h_cols h ->
  exists res, cast_ss f b h = Ok res /\ is_matrix (h_rows h) (h_cols h) ((fun l : row W => (fun e : nat * W => (fst e, f (snd e))) <$> l) <$> rs) res.
Proof. apply cast_ss_square. Qed.
(** ... it writes outside of the new arrays for every matrix with more rows than columns ... *)
Theorem C28_sparse_to_sparse_tall_refuted {W V} `{Val W} `{Val V} (f : W -> V) (b : csrbuf W) h rs : shows b h rs -> h_off h = 0 -> h_cols h < h_rows h -> cast_ss f b h = UB.
Proof. intros Hs H1 H2. by eapply cast_ss_tall. Qed.
(** ... it never keeps the shape of a matrix that is not square ... *)
Theorem C28_sparse_to_sparse_shape_refuted {W V} `{Val W} `{Val V} (f : W -> V) (b : csrbuf W) h res : h_rows h <> h_cols h -> cast_ss f b h = Ok res ->
  h_rows (snd res) <> h_rows h /\ h_cols (snd res) <> h_cols h.
Proof. intros Hne E. apply cast_ss_shape in E as [-> ->]. auto. Qed.
(** ... and for a view that does not start at the first row the row offsets of the result point past its entries: reading it is an
    out-of-bounds access. *)
Definition sv_buf : csrbuf Z := mkBuf [5; 6; 7]%Z [1; 0; 1] [0; 1; 2; 3].
Definition sv_h : csrh := mkH 1 2 2 2 true 3 0.
Theorem C28_sparse_to_sparse_view_refuted : exists (b : csrbuf Z) h rs res, shows b h rs /\ h_rows h = h_cols h /\ cast_ss (fun v : Z => v) b h = Ok res /\
  csr_get b h 1 1 = Ok 7%Z /\ csr_get (fst res) (snd res) 1 1 = UB.
Proof.
  exists sv_buf, sv_h, [[(0, 6%Z)]; [(1, 7%Z)]]. eexists. split; [|split; [done|split; [vm_compute; reflexivity|split; vm_compute; done]]].
  exists [[(1, 5%Z)]; [(0, 6%Z)]; [(1, 7%Z)]]. split; [|done]. split; [| |simpl; lia|done|done].
  - split; [done|]. exists [], []. done.
  - repeat (constructor; [split; repeat constructor; simpl; lia|]). constructor.
Qed.

(** Concrete cases: a strided dense matrix with some zeros, one with none, one with only zeros; a view with gaps, a full view. *)
Definition c28_alloc (n k : nat) : csrbuf Z := mkBuf (replicate k 77%Z) (replicate k 77) (replicate (n + 1) 77).
Example C28_ex_some : cast_ds c28_alloc (mkDM [9; 0; 1; 9; 2; 0; 9]%Z 1 2 2 3) = Ok (mkBuf [1; 2]%Z [1; 0] [0; 1; 2], mkH 0 2 2 2 false 2 0).
Proof. vm_compute. done. Qed.
Example C28_ex_full : cast_ds c28_alloc (mkDM [9; 3; 1; 9; 2; 4; 9]%Z 1 2 2 3) = Ok (mkBuf [3; 1; 2; 4]%Z [0; 1; 0; 1] [0; 2; 4], mkH 0 2 2 2 false 4 0).
Proof. vm_compute. done. Qed.
Example C28_ex_none : cast_ds c28_alloc (mkDM [9; 0; 0; 9; 0; 0; 9]%Z 1 2 2 3) = Ok (mkBuf [] [] [0; 0; 0], mkH 0 2 2 2 false 0 0).
Proof. vm_compute. done. Qed.
Example C28_ex_view : cast_sd (replicate 4 99%Z) sv_buf sv_h = Ok (mkDM [6; 0; 0; 7]%Z 0 2 2 2).
Proof. vm_compute. done. Qed.
Example C28_ex_full_view : cast_sd (replicate 2 99%Z) (mkBuf [5; 6; 7]%Z [1; 0; 1] [0; 1; 3]) (mkH 1 1 2 1 true 3 0) = Ok (mkDM [6; 7]%Z 0 1 2 2).
Proof. vm_compute. done. Qed.
Example C28_ex_dense : is_dense (mkDM [9; 0; 1; 9; 2; 0; 9]%Z 1 2 2 3) 2 2 (fun r c => if decide (r = 0 /\ c = 1) then 1%Z else if decide (r = 1 /\ c = 0) then 2%Z else 0%Z).
Proof.
  unfold is_dense. cbn [m_rows m_cols m_skip m_off m_buf]. split; [done|]. split; [done|]. split; [lia|]. split; [right; simpl; lia|].
  intros r c Hr Hc. destruct r as [|[|r]]; [| |lia]; (destruct c as [|[|c]]; [done|done|lia]).
Qed.

Print Assumptions C28_dense_to_sparse.
Print Assumptions C28_sparse_to_dense.
Print Assumptions C28_dense_round_trip.
Print Assumptions C28_sparse_round_trip.
Print Assumptions C28_dense_to_dense.
Print Assumptions C28_frame_round_trip.
Print Assumptions C28_column_round_trip.
Print Assumptions C28_sparse_to_sparse.
Print Assumptions C28_sparse_to_sparse_tall_refuted.
Print Assumptions C28_sparse_to_sparse_shape_refuted.
Print Assumptions C28_sparse_to_sparse_view_refuted.
