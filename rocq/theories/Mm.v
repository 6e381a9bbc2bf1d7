(** C79: Matrix Market files. *)
From stdpp Require Import base numbers sorting list list_numbers.
From Coq Require Import ZArith Lia.
From Verif Require Import CppBase Mem CSRModel CSRSpec CSRView SparseSpec MmModel MmSpec MmProofs MmReadProofs.
Local Open Scope nat_scope.

(** A well-formed file gives every cell exactly one value. *)
Theorem C79_meaning {V} `{Val V} (one : V) neg f i j v w : well_formed f -> denotes one neg f i j v -> denotes one neg f i j w -> v = w.
Proof. apply denotes_unique. Qed.
(** Dense matrices: whatever the memory of the new matrix held, cell (i, j) is the one the file gives, for array and coordinate files, general, symmetric and skew-symmetric, with values or pattern only. *)
Theorem C79_dense {V} `{Val V} (one : V) neg f junk : well_formed f -> length junk = f_rows f * f_cols f ->
  exists a, read_dense one neg f junk = Ok a /\ length a = f_rows f * f_cols f /\ forall i j, i < f_rows f -> j < f_cols f -> exists v, a !! (i * f_cols f + j) = Some v /\ denotes one neg f i j v.
Proof. apply read_dense_ok. Qed.
(** Sparse matrices: the result is a valid sparse matrix with these cells. *)
Theorem C79_sparse {V} `{Val V} (one : V) neg f fresh : well_formed f -> (forall k, exists h, csr_new_uninit (f_rows f) (f_cols f) k (fresh k) h) ->
  exists b k x, read_csr one neg f fresh = Ok (b, k) /\ sparse_cells b (mkH 0 (f_rows f) (f_cols f) (f_rows f) false k 0) (f_rows f) (f_cols f) x /\ forall i j, i < f_rows f -> j < f_cols f -> denotes one neg f i j (x i j).
Proof. intros Hw Hf. destruct (read_csr_ok one neg f fresh Hw Hf) as (b & x & E & Hs & Hd). by exists b, (length (all one neg f)), x. Qed.
(** Frames: column j holds at row i the converted value of cell (i, j). *)
Theorem C79_frame {V W} `{Val V} (one : V) neg (conv : V -> W) wzero f junk : well_formed f -> conv vzero = wzero -> length junk = f_cols f -> Forall (fun col => length col = f_rows f) junk ->
  exists cols, read_frame one neg conv wzero f junk = Ok cols /\ length cols = f_cols f /\ Forall (fun col => length col = f_rows f) cols /\
    forall i j, i < f_rows f -> j < f_cols f -> exists v, (cols !! j ≫= (.!! i)) = Some (conv v) /\ denotes one neg f i j v.
Proof. apply read_frame_ok. Qed.
(** The dense and the sparse matrix read from a file have the same cells. *)
Theorem C79_dense_sparse {V} `{Val V} (one : V) neg f junk fresh a b k h : well_formed f -> length junk = f_rows f * f_cols f -> (forall k, exists h, csr_new_uninit (f_rows f) (f_cols f) k (fresh k) h) ->
  read_dense one neg f junk = Ok a -> read_csr one neg f fresh = Ok (b, k) -> h = mkH 0 (f_rows f) (f_cols f) (f_rows f) false k 0 ->
  forall i j, i < f_rows f -> j < f_cols f -> exists v, a !! (i * f_cols f + j) = Some v /\ csr_get b h i j = Ok v.
Proof.
  intros Hw Hj Hf E1 E2 -> i j Hi Hj'. destruct (C79_dense one neg f junk Hw Hj) as (a' & E1' & _ & Ha). rewrite E1 in E1'. injection E1' as <-. destruct (C79_sparse one neg f fresh Hw Hf) as (b' & k' & x & E2' & (_ & _ & _ & Hg) & Hx). rewrite E2 in E2'. injection E2' as <- <-.
  destruct (Ha i j Hi Hj') as (v & Hv & Hd). exists v. split; [done|]. rewrite Hg by done. f_equal. eapply denotes_unique; [done|by apply Hx|done].
Qed.

(** * What fails *)
(** A file that announces as many entries as the matrix has cells but holds none (it was cut off): the result is whatever was in memory. *)
Theorem C79_cut_off_refuted {V} `{Val V} (one : V) neg pat n m junk : (Z.of_nat n * Z.of_nat m < 2 ^ 64)%Z -> read_dense one neg (mkFile Coordinate pat General n m (n * m) []) junk = Ok junk.
Proof. intros Hs. unfold read_dense, for_each, init_cells. cbn. rewrite decide_False; [done|]. intros Hne. apply Hne. unfold entry_count. cbn. rewrite (decide_False (P := General = Skew)) by done. f_equal. rewrite Nat2Z.inj_mul. ring. Qed.
(** The same with an entry that is listed twice: a file with two lines for cell (1, 1) of a 1 x 2 matrix leaves the other cell uninitialised. *)
Theorem C79_duplicate_refuted {V} `{Val V} (one : V) neg v w x y : read_dense one neg (mkFile Coordinate false General 1 2 2 [mkLine 1 1 v; mkLine 1 1 w]) [x; y] = Ok [w; y].
Proof. reflexivity. Qed.
(** A line with the position 0 0 ends the reading: all lines after it are ignored, without an error. *)
Theorem C79_zero_position_refuted {V} `{Val V} (one : V) neg pat s n m nnz v ls junk : read_dense one neg (mkFile Coordinate pat s n m nnz (mkLine 0 0 v :: ls)) junk = Ok (init_cells (mkFile Coordinate pat s n m nnz (mkLine 0 0 v :: ls)) junk).
Proof. unfold read_dense, for_each. destruct (start _) as [r c]. cbn [f_lines fst snd mm_loop]. unfold position. cbn [f_fmt l_row l_col]. change (stoi_m1 0) with (Ok (2 ^ 64 - 1)%Z). cbn [obind fst snd]. rewrite decide_True by done. done. Qed.
(** Positions outside of the matrix are not checked: the line may set another cell, or write out of bounds. *)
Theorem C79_range_refuted {V} `{Val V} (one : V) neg v (x : V) :
  read_dense one neg (mkFile Coordinate false General 2 2 1 [mkLine 1 3 v]) [x; x; x; x] = Ok [vzero; vzero; v; vzero] /\ read_dense one neg (mkFile Coordinate false General 2 2 1 [mkLine 3 1 v]) [x; x; x; x] = UB.
Proof. split; reflexivity. Qed.
(** Array files with more values than cells: the first value too many replaces cell (2, 1). *)
Theorem C79_too_long_refuted {V} `{Val V} (one : V) neg a b c d e (x : V) :
  read_dense one neg (mkFile Array false General 2 2 0 (mkLine 0 0 <$> [a; b; c; d; e])) [x; x; x; x] = Ok [a; c; e; d].
Proof. reflexivity. Qed.
(** Hermitian files are accepted and read as if they were general: the other triangle is left out. *)
Theorem C79_hermitian_refuted {V} `{Val V} (one : V) neg fmt pat n m nnz ls junk :
  read_dense one neg (mkFile fmt pat Hermitian n m nnz ls) junk = read_dense one neg (mkFile fmt pat General n m nnz ls) junk.
Proof.
  unfold read_dense, for_each, init_cells. cbn [f_sym f_lines f_rows f_cols]. change (start Hermitian) with (start General). change (entry_count (mkFile fmt pat Hermitian n m nnz ls)) with (entry_count (mkFile fmt pat General n m nnz ls)).
  generalize (if decide (entry_count (mkFile fmt pat General n m nnz ls) ≠ wrap (Z.of_nat m * Z.of_nat n)) then replicate (n * m) vzero else junk). generalize (start General).1, (start General).2.
  set (fh := mkFile fmt pat Hermitian n m nnz ls). set (fg := mkFile fmt pat General n m nnz ls).
  assert (Hgo : forall ls' r c s, mm_loop one neg fh (fun e a => wrz a (wrap (e.1.1 * Z.of_nat m + e.1.2)) e.2) ls' r c s = mm_loop one neg fg (fun e a => wrz a (wrap (e.1.1 * Z.of_nat m + e.1.2)) e.2) ls' r c s).
  { induction ls' as [|l ls' IH]; intros r c s; [done|]. cbn [mm_loop]. change (position fh) with (position (V := V) fg). destruct (position fg l r c) as [p| |]; [|done|done]. cbn [obind]. unfold mirrored. cbn [f_sym fh fg f_pattern f_rows progress]. destruct (decide _); [done|]. match goal with |- obind ?m _ = _ => destruct m; [|done|done] end. cbn [obind]. apply IH. }
  intros. apply Hgo.
Qed.
(** Symmetric files of matrices that are not square are accepted, and write out of bounds. *)
Theorem C79_not_square_refuted {V} `{Val V} (one : V) neg v (x y : V) : read_dense one neg (mkFile Coordinate false Symmetric 1 2 1 [mkLine 1 2 v]) [x; y] = UB.
Proof. reflexivity. Qed.
(** Rows and columns from 2^31 on are rejected in coordinate files. *)
Theorem C79_large_refuted {V} `{Val V} (one : V) neg pat s n m nnz i j v ls junk : (2 ^ 31 <= i)%Z -> read_dense one neg (mkFile Coordinate pat s n m nnz (mkLine i j v :: ls)) junk = Throw.
Proof. intros Hi. unfold read_dense, for_each. destruct (start _) as [r c]. cbn [f_lines fst snd mm_loop]. unfold position. cbn [f_fmt l_row l_col]. unfold stoi_m1. rewrite (decide_False (P := (- 2 ^ 31 <= i < 2 ^ 31)%Z)) by lia. done. Qed.

(** * Cases *)
Definition sym_array : mmfile (V := Z) := mkFile Array false Symmetric 3 3 0 (mkLine 0 0 <$> [1; 2; 3; 4; 5; 6]%Z).
Theorem C79_ex_array : well_formed sym_array /\ read_dense 1%Z Z.opp sym_array (replicate 9 7%Z) = Ok [1; 2; 3; 2; 4; 5; 3; 5; 6]%Z.
Proof. split; [|vm_compute; reflexivity]. repeat split; cbn; try lia; try done. Qed.
Definition skew_coord : mmfile (V := Z) := mkFile Coordinate false Skew 3 3 2 [mkLine 3 1 5%Z; mkLine 2 1 4%Z].
Theorem C79_ex_coord : well_formed skew_coord /\ read_dense 1%Z Z.opp skew_coord (replicate 9 7%Z) = Ok [0; -4; -5; 4; 0; 0; 5; 0; 0]%Z /\
  read_csr 1%Z Z.opp skew_coord (fun k => mkBuf (replicate k 9%Z) (replicate k 9) (replicate 4 9)) = Ok (mkBuf [-4; -5; 4; 5]%Z [1; 2; 0; 0] [0; 2; 3; 4], 4) /\
  read_frame 1%Z Z.opp id 0%Z skew_coord (replicate 3 (replicate 3 7%Z)) = Ok [[0; 4; 5]; [-4; 0; 0]; [-5; 0; 0]]%Z.
Proof.
  split; [|repeat split; vm_compute; reflexivity]. split; [cbn; lia|]. split; [cbn; lia|]. split; [cbn; lia|]. split; [done|]. split; [done|]. cbn. split; [done|]. split; [apply (bool_decide_unpack _); vm_compute; exact I|]. split; [repeat constructor; cbn; lia|]. split; [done|]. intros _. repeat constructor; cbn; lia.
Qed.
Definition pattern_coord : mmfile (V := Z) := mkFile Coordinate true General 2 3 2 [mkLine 2 3 0%Z; mkLine 1 2 0%Z].
Theorem C79_ex_pattern : well_formed pattern_coord /\ read_dense 1%Z Z.opp pattern_coord (replicate 6 7%Z) = Ok [0; 1; 0; 0; 0; 1]%Z.
Proof.
  split; [|vm_compute; reflexivity]. split; [cbn; lia|]. split; [cbn; lia|]. split; [cbn; lia|]. split; [done|]. split; [done|]. cbn. split; [done|]. split; [apply (bool_decide_unpack _); vm_compute; exact I|]. split; [repeat constructor; cbn; lia|]. done.
Qed.
Print Assumptions C79_meaning.
Print Assumptions C79_dense.
Print Assumptions C79_sparse.
Print Assumptions C79_frame.
Print Assumptions C79_dense_sparse.
Print Assumptions C79_hermitian_refuted.
