(** C30: sparse matrix multiplication equals the mathematical product for every variant. *)
From stdpp Require Import base numbers sorting list list_numbers.
From Coq Require Import Lia.
From Verif Require Import CppBase Mem CSRModel CSRSpec CSRProofs CSRView SinkSpec SinkProofs SparseLoops AggModel AggSpec AggProofs MachInt SparseSpec MatMulModel MatMulSpec MatMulProofs.
Local Open Scope nat_scope.

Section mm.
Context {V : Type} `{Val V} (A : arith V).

Lemma prod_ext K (x x' y y' : nat -> nat -> V) i j : (forall k, k < K -> x i k = x' i k) -> (forall k, k < K -> y k j = y' k j) -> prod A K x y i j = prod A K x' y' i j.
Proof.
  intros Hx Hy. unfold prod. assert (Hg : forall q s, Forall (fun k => k < K) q -> foldl (fun s k => aadd A s (amul A (x i k) (y k j))) s q = foldl (fun s k => aadd A s (amul A (x' i k) (y' k j))) s q).
  { induction q as [|k q IH]; intros s Hq; [done|]. apply Forall_cons in Hq as [Hk Hq]. cbn [foldl]. rewrite Hx, Hy by done. by apply IH. }
  apply Hg. apply Forall_seq. lia.
Qed.

(** Sparse times dense, the default (serial, row-wise) variant. *)
Theorem C30_sparse_dense junk b h rhs n K m x y : zero_laws A -> sparse_cells b h n K x -> is_dense rhs K m y -> length junk = n * m ->
  exists res, mm_csr_dense A false false junk b h rhs = Ok res /\ is_dense res n m (prod A K x y).
Proof.
  intros Hz Hs Hd Hj. destruct (sparse_cells_cell _ _ _ _ _ Hs) as (rs & Hsh & <- & <- & Hx). pose proof Hd as (En & Em & _). unfold mm_csr_dense. rewrite En, Em, decide_False by tauto.
  destruct (mm_rowwise_spec A junk b h rs rhs m y Hz Hsh Hd Hj) as (res & E & Ht). rewrite E. cbn [obind]. eexists. split; [done|].
  eapply is_dense_ext; [by apply tabulated_is_dense|]. intros r c Hr Hc. apply prod_ext; auto.
Qed.
(** The parallel variant: whatever the order in which the threads make their memory accesses, no access is out of bounds, and once all
    iterations are done the result is the product. They are done at the latest when each of them has had 2 * K * m turns. *)
Theorem C30_parallel sched junk b h rhs n K m x y : zero_laws A -> sparse_cells b h n K x -> is_dense rhs K m y -> length junk = n * m ->
  exists ts res, mm_parallel A sched junk b h rhs = Ok (ts, res) /\ length ts = n /\
    (finished ts -> is_dense (mkDM res 0 n m m) n m (prod A K x y)) /\
    ((forall i, i < n -> 2 * (K * m) <= count_occ Nat.eq_dec sched i) -> finished ts).
Proof.
  intros Hz Hs Hd Hj. destruct (sparse_cells_cell _ _ _ _ _ Hs) as (rs & Hsh & <- & <- & Hx).
  destruct (mm_parallel_spec A sched junk b h rs rhs m y Hz Hsh Hd Hj) as (ts & res & E & Hl & H1 & H2). exists ts, res. split; [done|]. split; [done|]. split; [|done]. intros Hf.
  eapply is_dense_ext; [by apply tabulated_is_dense, H1|]. intros r c Hr Hc. apply prod_ext; auto.
Qed.
(** The blocked variant, for every block size. *)
Theorem C30_blocked bs sched junk b h rhs n K m x y : zero_laws A -> bs <> 0 -> sparse_cells b h n K x -> is_dense rhs K m y -> length junk = n * m ->
  exists ts res, mm_blocked A bs sched junk b h rhs = Ok (ts, res) /\
    (finished ts -> is_dense (mkDM res 0 n m m) n m (prod A K x y)) /\
    ((forall i, i < length ts -> 2 * (bs * (K * m)) <= count_occ Nat.eq_dec sched i) -> finished ts).
Proof.
  intros Hz Hbs Hs Hd Hj. destruct (sparse_cells_cell _ _ _ _ _ Hs) as (rs & Hsh & <- & <- & Hx).
  destruct (mm_blocked_spec A bs sched junk b h rs rhs m y Hz Hbs Hsh Hd Hj) as (ts & res & E & Hl & H1 & H2). exists ts, res. split; [done|]. rewrite Hl. split; [|done]. intros Hf.
  eapply is_dense_ext; [by apply tabulated_is_dense, H1|]. intros r c Hr Hc. apply prod_ext; auto.
Qed.
(** Dense times sparse. *)
Theorem C30_dense_sparse lhs b h n K m x y : zero_laws A -> is_dense lhs n K x -> sparse_cells b h K m y ->
  exists res, mm_dense_csr A false false lhs b h = Ok res /\ is_dense res n m (prod A K x y).
Proof.
  intros Hz Hd Hs. destruct (sparse_cells_cell _ _ _ _ _ Hs) as (rs & Hsh & <- & <- & Hy). destruct (mm_dense_csr_spec A false false lhs b h rs n x Hz Hd Hsh) as (res & E & Hr).
  exists res. split; [done|]. eapply is_dense_ext; [exact Hr|]. intros r c Hrn Hc. apply prod_ext; auto.
Qed.
(** Sparse times sparse: the space allocated for the result (product of the numbers of entries) always suffices, no zero is stored, and the
    cells are those of the product. *)
Theorem C30_sparse_sparse lb lh rb rh n K m x y : zero_laws A -> viszero vzero = true -> sparse_cells lb lh n K x -> sparse_cells rb rh K m y ->
  exists b h, mm_csr_csr A false false lb lh rb rh = Ok (b, h) /\ sparse_cells b h n m (fun r c => norm (prod A K x y r c)) /\ exists rs, shows b h rs /\ no_zeros rs.
Proof.
  intros Hz Hv0 Hl Hr. destruct (sparse_cells_cell _ _ _ _ _ Hl) as (lrs & Hsl & <- & <- & Hx). destruct (sparse_cells_cell _ _ _ _ _ Hr) as (rrs & Hsr & HK & <- & Hy).
  destruct (mm_csr_csr_spec A false false lb lh lrs rb rh rrs Hv0 Hz Hsl Hsr) as (b & h & rows & E & E1 & E2 & Hsh & Hnz & Hg); [done|]. exists b, h. split; [done|]. split; [|by exists rows].
  split; [by exists rows|]. split; [done|]. split; [done|]. intros r c Hrn Hcm. rewrite Hg by done. f_equal. f_equal. apply prod_ext; auto.
Qed.
(** The variant for arbitrary matrices, also with transposed operands. *)
Theorem C30_generic (ta tb : bool) junk lr lc lget rr rc rget x y :
  (forall r k, r < lr -> k < lc -> lget r k = Ok (x r k)) -> (forall k c, k < rr -> c < rc -> rget k c = Ok (y k c)) ->
  (if ta then lr else lc) = (if tb then rc else rr) -> length junk = (if ta then lc else lr) * (if tb then rr else rc) ->
  exists res, mm_generic A ta tb junk lr lc lget rr rc rget = Ok res /\
    is_dense res (if ta then lc else lr) (if tb then rr else rc)
      (prod A (if ta then lr else lc) (if ta then fun r k => x k r else x) (if tb then fun k c => y c k else y)).
Proof. apply mm_generic_spec. Qed.
(** Operands that do not fit are rejected. *)
Theorem C30_shapes ta tb junk b h rhs lhs rb rh : (h_cols h <> m_rows rhs -> mm_csr_dense A ta tb junk b h rhs = Throw) /\
  (m_cols lhs <> h_rows h -> mm_dense_csr A ta tb lhs b h = Throw) /\ (h_cols h <> h_rows rh -> mm_csr_csr A ta tb b h rb rh = Throw).
Proof.
  split; [|split]; intros Hn.
  - unfold mm_csr_dense. by rewrite decide_True.
  - unfold mm_dense_csr. by rewrite decide_True.
  - unfold mm_csr_csr. by rewrite decide_True.
Qed.
End mm.

(** The laws hold for int64_t (with wrap-around) and hence C30 is exact there. *)
Theorem C30_int64 : zero_laws ar64 /\ viszero (vzero : int64) = true.
Proof.
  split; [|done]. assert (Hw : forall s : int64, wrap (ival s + 0) = s) by (intros s; rewrite Z.add_0_r; apply wrap_id). split; intros s y; cbn [aadd amul ar64].
  - change (ival vzero) with 0%Z. rewrite Z.mul_0_l. apply Hw.
  - change (ival vzero) with 0%Z. rewrite Z.mul_0_r. apply Hw.
Qed.

(** Without the laws the sparse kernels differ from the product: with a NaN in the right operand (None) a missing entry on the left
    contributes nothing, where 0 * NaN is NaN. *)
#[local] Instance Val_nan : Val (option Z) := { vzero := Some 0%Z; viszero v := bool_decide (v = Some 0%Z) }.
Definition ar_nan : arith (option Z) := {|
  aone := Some 1%Z; aadd a b := match a, b with Some a, Some b => Some (a + b)%Z | _, _ => None end; asub a b := match a, b with Some a, Some b => Some (a - b)%Z | _, _ => None end;
  amul a b := match a, b with Some a, Some b => Some (a * b)%Z | _, _ => None end; alt a b := match a, b with Some a, Some b => (a <? b)%Z | _, _ => false end;
  atop := None; abot := None; aofnat k := Some (Z.of_nat k); adiv a k := a; asqrt a := a |}.
Theorem C30_nan_refuted : exists b h rhs res, sparse_cells b h 1 1 (fun _ _ => Some 0%Z) /\ is_dense rhs 1 1 (fun _ _ => None) /\
  mm_csr_dense ar_nan false false [None] b h rhs = Ok res /\ dm_at res 0 0 = Ok (Some 0%Z) /\ prod ar_nan 1 (fun _ _ => Some 0%Z) (fun _ _ => None) 0 0 = None.
Proof.
  exists (mkBuf [] [] [0; 0]), (mkH 0 1 1 1 false 0 0), (mkDM [None] 0 1 1 1). eexists. split.
  - split; [|split; [done|split; [done|]]].
    + exists [[]]. exists [[]]. split; [|done]. split; [|repeat constructor|done|done|done]. split; [done|]. by exists [], [].
    + intros r c Hr Hc. assert (r = 0) as -> by lia. assert (c = 0) as -> by lia. done.
  - split; [split; [done|split; [done|split; [done|split; [cbn; lia|]]]]|].
    + intros r c Hr Hc. assert (r = 0) as -> by lia. assert (c = 0) as -> by lia. done.
    + split; [vm_compute; reflexivity|]. done.
Qed.

(** The flags for transposed operands are ignored by the kernels with a sparse operand ... *)
Theorem C30_flags_ignored {V} `{Val V} (A : arith V) ta tb junk b h rhs lhs rb rh :
  mm_csr_dense A ta tb junk b h rhs = mm_csr_dense A false false junk b h rhs /\ mm_dense_csr A ta tb lhs b h = mm_dense_csr A false false lhs b h /\
  mm_csr_csr A ta tb b h rb rh = mm_csr_csr A false false b h rb rh.
Proof. done. Qed.
(** ... although the compiler moves the transposition of a right operand into the flag unless the right operand is sparse: the expression
    X @ t(Y) with a sparse X and a dense Y then yields X @ Y (or an error if Y is not square). *)
Definition w (z : Z) : int64 := wrap z.
Definition c30_b : csrbuf int64 := mkBuf [w 9; w 1; w 2; w 3] [1; 0; 1; 1] [0; 1; 3; 4].
Definition c30_h : csrh := mkH 1 2 2 2 true 4 0. (* rows 1 and 2 of a matrix: (1 2; 0 3) *)
Definition c30_y : dmat int64 := mkDM [w 0; w 5; w 99; w 7; w 0; w 99] 0 2 2 3. (* (0 5; 7 0) *)
Definition c30_x (r c : nat) : int64 := match r, c with 0, 0 => w 1 | 0, 1 => w 2 | 1, 1 => w 3 | _, _ => w 0 end.
Definition c30_f (r c : nat) : int64 := match r, c with 0, 1 => w 5 | 1, 0 => w 7 | _, _ => w 0 end.
Lemma c30_sparse : sparse_cells c30_b c30_h 2 2 c30_x.
Proof.
  assert (Hs : shows c30_b c30_h [[(0, w 1); (1, w 2)]; [(1, w 3)]]).
  { exists [[(1, w 9)]; [(0, w 1); (1, w 2)]; [(1, w 3)]]. split; [|done]. split; [| |cbn; lia|done|done].
    - split; [done|]. by exists [], [].
    - repeat (constructor; [split; repeat constructor; simpl; lia|]). constructor. }
  split; [by eexists|]. split; [done|]. split; [done|]. intros r c Hr Hc. destruct r as [|[|r]]; [| |lia]; (destruct c as [|[|c]]; [done|done|lia]).
Qed.
Lemma c30_dense : is_dense c30_y 2 2 c30_f.
Proof. split; [done|]. split; [done|]. split; [cbn; lia|]. split; [cbn; lia|]. intros r c Hr Hc. destruct r as [|[|r]]; [| |lia]; (destruct c as [|[|c]]; [done|done|lia]). Qed.
Theorem C30_transposed_refuted : exists (b : csrbuf int64) h (rhs : dmat int64) x y res,
  sparse_cells b h 2 2 x /\ is_dense rhs 2 2 y /\
  (* X @ t(Y) becomes X @ Y with the flag set *)
  canon_matmul true true false = (true, true) /\ mm_csr_dense ar64 false true (replicate 4 (w 77)) b h rhs = Ok res /\
  (* and the result is not the product of X and t(Y) *)
  dm_at res 0 0 = Ok (w 14) /\ prod ar64 2 x (fun k c => y c k) 0 0 = w 10.
Proof.
  exists c30_b, c30_h, c30_y, c30_x, c30_f. eexists. split; [apply c30_sparse|]. split; [apply c30_dense|]. split; [done|]. split; [vm_compute; reflexivity|]. split; vm_compute; done.
Qed.

Definition show_all (r : outcome (dmat int64)) : option (list Z) := match r with Ok a => Some (ival <$> m_buf a) | _ => None end.
(** (1 2; 0 3) * (0 5; 7 0) = (14 5; 21 0), in all variants and under an interleaving of two rows. *)
Example C30_ex_serial : show_all (mm_csr_dense ar64 false false (replicate 4 (w 77)) c30_b c30_h c30_y) = Some [14; 5; 21; 0]%Z.
Proof. vm_compute. done. Qed.
Example C30_ex_parallel : exists ts res, mm_parallel ar64 (concat (replicate 8 [1; 0])) (replicate 4 (w 77)) c30_b c30_h c30_y = Ok (ts, res) /\ finished ts /\ ival <$> res = [14; 5; 21; 0]%Z.
Proof. eexists _, _. split; [vm_compute; reflexivity|]. split; [repeat constructor|done]. Qed.
Example C30_ex_blocked : exists ts res, mm_blocked ar64 64 (replicate 12 0) (replicate 4 (w 77)) c30_b c30_h c30_y = Ok (ts, res) /\ finished ts /\ ival <$> res = [14; 5; 21; 0]%Z.
Proof. eexists _, _. split; [vm_compute; reflexivity|]. split; [repeat constructor|done]. Qed.
Example C30_ex_dense_sparse : show_all (mm_dense_csr ar64 false false c30_y c30_b c30_h) = Some [0; 15; 7; 14]%Z.
Proof. vm_compute. done. Qed.
Example C30_ex_sparse_sparse : exists b h, mm_csr_csr ar64 false false c30_b c30_h c30_b c30_h = Ok (b, h) /\ broff b = [0; 2; 3] /\ take 3 (ival <$> bvals b) = [1; 8; 9]%Z.
Proof. eexists _, _. split; [vm_compute; reflexivity|]. done. Qed.

Print Assumptions C30_sparse_dense.
Print Assumptions C30_parallel.
Print Assumptions C30_blocked.
Print Assumptions C30_dense_sparse.
Print Assumptions C30_sparse_sparse.
Print Assumptions C30_generic.
Print Assumptions C30_int64.
Print Assumptions C30_nan_refuted.
Print Assumptions C30_transposed_refuted.
