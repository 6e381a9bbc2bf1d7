(** C35: sampling. C42: random matrices. *)
From stdpp Require Import base numbers sorting list list_numbers.
From Coq Require Import Lia.
From Verif Require Import CppBase Mem CSRModel CSRSpec CSRProofs CSRView SparseSpec RandModel RandProofs.
Local Open Scope nat_scope.

(** ** C35 *)
(** For every stream of random numbers and every permutation done by shuffling: [size] different values from 0 .. range-1. *)
Theorem C35_sample_distinct range size rnd shuffle (junk : list Z) : (0 < size <= range)%Z -> length junk = Z.to_nat size -> (forall l, shuffle l ≡ₚ l) ->
  exists res, sample_int range size false rnd shuffle junk = Ok res /\ length res = Z.to_nat size /\ NoDup res /\ Forall (fun v => 0 <= v < range)%Z res.
Proof.
  intros Hr Hj Hsh. unfold sample_int. rewrite !decide_False by lia. destruct (sample_positions (Z.to_nat range) (Z.to_nat size) rnd junk) as (sel & -> & Hl & Hs & Hf); [lia|done|]. cbn [obind fst]. eexists. split; [done|].
  rewrite (Hsh (Z.of_nat <$> sel)). rewrite fmap_length. split; [done|]. split.
  - apply (NoDup_fmap_2 _). by apply nodup_sorted.
  - rewrite Forall_fmap. eapply Forall_impl; [exact Hf|]. intros x Hx. cbn in *. lia.
Qed.
(** In particular, sampling as many values as there are gives each value exactly once. *)
Theorem C35_sample_all range rnd shuffle (junk : list Z) : (0 < range)%Z -> length junk = Z.to_nat range -> (forall l, shuffle l ≡ₚ l) ->
  exists res, sample_int range range false rnd shuffle junk = Ok res /\ forall v, (0 <= v < range)%Z -> v ∈ res.
Proof.
  intros Hr Hj Hsh. destruct (C35_sample_distinct range range rnd shuffle junk) as (res & E & Hl & Hnd & Hf); [lia|done|done|]. exists res. split; [done|].
  assert (Hp : res ≡ₚ Z.of_nat <$> seq 0 (Z.to_nat range)).
  { apply submseteq_Permutation_length_le; [rewrite fmap_length, seq_length; lia|]. apply NoDup_submseteq; [done|]. intros x Hx. rewrite Forall_forall in Hf. specialize (Hf _ Hx). apply elem_of_list_fmap. exists (Z.to_nat x). split; [lia|]. apply elem_of_seq. lia. }
  intros v Hv. rewrite Hp. apply elem_of_list_fmap. exists (Z.to_nat v). split; [lia|]. apply elem_of_seq. lia.
Qed.
Theorem C35_with_replacement range size rnd shuffle (junk : list Z) : (0 < size)%Z -> (0 < range)%Z -> length junk = Z.to_nat size -> (forall i, Z.of_nat (rnd i) < range)%Z ->
  exists res, sample_int range size true rnd shuffle junk = Ok res /\ length res = Z.to_nat size /\ Forall (fun v => 0 <= v < range)%Z res.
Proof.
  intros Hs Hr Hj Hrnd. unfold sample_int. rewrite !decide_False by (done || lia || by intros [? _]).
  destruct (for_up_write (Z.to_nat size) (fun c res => wr res c (Z.of_nat (rnd c))) (fun c => Z.of_nat (rnd c)) junk Hj) as (res & -> & Hl & Hres); [done|]. exists res. split; [done|]. split; [done|].
  apply Forall_lookup. intros i v Hi. rewrite Hres in Hi by (rewrite <- Hl; by eapply lookup_lt_Some). injection Hi as <-. specialize (Hrnd i). lia.
Qed.
Theorem C35_rejects range size wr' rnd shuffle junk : (size <= 0 \/ range <= 0 \/ (wr' = false /\ range < size))%Z -> sample_int range size wr' rnd shuffle junk = Throw.
Proof. intros Hd. unfold sample_int. repeat case_decide; try done. exfalso. tauto. Qed.
(** Floating-point values: a finished run has different values, all of them drawn; a run finishes as soon as enough different values have
    been drawn; no run touches memory outside the result. *)
Theorem C35_float {V} (eqb : V -> V -> bool) size ds (junk : list V) : (forall x y, eqb x y = true <-> x = y) -> length junk = size ->
  sample_float eqb size ds junk <> UB /\
  (forall res, sample_float eqb size ds junk = Ok res -> length res = size /\ NoDup res /\ Forall (fun x => x ∈ ds) res) /\
  (forall l, NoDup l -> length l = size -> Forall (fun x => x ∈ ds) l -> exists res, sample_float eqb size ds junk = Ok res).
Proof.
  intros He Hj. pose proof (sample_float_spec eqb He size ds junk Hj) as Hs. split; [intros E; by rewrite E in Hs|]. split; [intros res E; by rewrite E in Hs|]. intros l. by apply sample_float_ok.
Qed.

(** ** C42 *)
(** number of cells of an n x m matrix that are not zero *)
Definition nonzero_cells {V} `{Val V} (n m : nat) (x : nat -> nat -> V) : nat := sum_list ((fun r => length (filter (fun c => viszero (x r c) = false) (seq 0 m))) <$> seq 0 n).

Section rand.
Context {V : Type} `{Val V}.
Lemma nzcells_app (l l' : list V) : nzcells (l ++ l') = nzcells l + nzcells l'.
Proof. unfold nzcells. by rewrite filter_app, app_length. Qed.
Lemma nzcells_seq (l : list V) (g : nat -> V) a : (forall i, i < length l -> l !! i = Some (g (a + i))) -> nzcells l = length (filter (fun i => viszero (g i) = false) (seq a (length l))).
Proof.
  revert a. induction l as [|v l IH]; intros a Hg; [done|]. unfold nzcells. cbn [length seq]. rewrite !filter_cons. pose proof (Hg 0 ltac:(cbn; lia)) as H0. cbn in H0. injection H0 as ->. rewrite Nat.add_0_r.
  assert (Hi : nzcells l = length (filter (fun i => viszero (g i) = false) (seq (S a) (length l)))). { apply IH. intros i Hi. specialize (Hg (S i)). cbn in Hg. replace (S a + i) with (a + S i) by lia. apply Hg. lia. }
  unfold nzcells in Hi. case_decide; cbn [length]; lia.
Qed.
Lemma nzcells_matrix (l : list V) n m x : tabulated n m x l -> nzcells l = nonzero_cells n m x.
Proof.
  unfold nonzero_cells. revert l. induction n as [|n IH]; intros l [Hl Hx].
  - destruct l; [done|cbn in Hl; lia].
  - rewrite seq_S, fmap_app, sum_list_app. cbn [fmap list_fmap sum_list sum_list_with foldr plus]. rewrite <- (take_drop (n * m) l), nzcells_app. f_equal.
    + apply IH. split; [rewrite take_length; lia|]. intros r c Hr Hc. rewrite lookup_take by (by apply pos_lt). apply Hx; lia.
    + rewrite (nzcells_seq _ (x n) 0); [cbn; rewrite drop_length; rewrite Nat.add_0_r; do 3 f_equal; lia|]. intros i Hi. rewrite drop_length in Hi. rewrite lookup_drop. apply Hx; lia.
Qed.
Lemma tabulated_of (l : list V) n m : length l = n * m -> exists x, tabulated n m x l /\ forall r c, r < n -> c < m -> x r c ∈ l.
Proof.
  intros Hl. exists (fun r c => default vzero (l !! (r * m + c))). assert (Hx : forall r c, r < n -> c < m -> l !! (r * m + c) = Some (default vzero (l !! (r * m + c)))).
  { intros r c Hr Hc. destruct (lookup_lt_is_Some_2 l (r * m + c)) as [v ->]; [rewrite Hl; by apply pos_lt|done]. }
  split; [done|]. intros r c Hr Hc. eapply elem_of_list_lookup_2. by apply Hx.
Qed.

(** Dense matrices: for every stream of index numbers and of values, the result has exactly the number of non-zero cells that was asked
    for, and these are values that were drawn. The hypothesis on the values says that the loops that draw until a value is not zero end. *)
Theorem C42_dense (many : bool) limit n m rndIdx (ds junk : list V) : (forall v : V, viszero v = true <-> v = vzero) -> length junk = n * m -> limit <= n * m ->
  (if many then n * m else limit) <= length (filter (fun v => viszero v = false) ds) ->
  exists res rest x, rand_dense many limit n m rndIdx ds junk = Ok (res, rest) /\ is_dense (mkDM res 0 n m m) n m x /\
    nonzero_cells n m x = (if many then n * m - limit else limit) /\ forall r c, r < n -> c < m -> x r c = vzero \/ x r c ∈ ds.
Proof.
  intros Hz Hj Hlim Hds. destruct (rand_dense_spec Hz many limit n m rndIdx ds junk Hj Hlim Hds) as (res & rest & E & Hl & Hf & Hn). destruct (tabulated_of res n m Hl) as (x & Hx & Hin).
  exists res, rest, x. split; [done|]. split; [by apply tabulated_is_dense|]. split; [by rewrite <- (nzcells_matrix res)|]. intros r c Hr Hc. rewrite Forall_forall in Hf. destruct (Hf _ (Hin r c Hr Hc)) as [?|[? _]]; auto.
Qed.
(** Sparse matrices: whatever rows and columns are drawn, a finished run gives a valid sparse matrix with exactly [nnz] stored entries in
    distinct positions whose values are the drawn ones; no run touches memory outside the new arrays. *)
Theorem C42_sparse (few : bool) nnz n m (vals : nat -> V) rds cds b h : csr_new_uninit n m nnz b h -> nnz <= n * m -> Forall (fun r => r < n) rds -> Forall (fun c => c < m) cds ->
  rand_csr few nnz n m vals rds cds b <> UB /\
  forall b' h', rand_csr few nnz n m vals rds cds b = Ok (b', h') ->
    exists rs, shows b' h' rs /\ h_rows h' = n /\ h_cols h' = m /\ csr_nnz b' h' = Ok nnz /\ (concat rs).*2 = vals <$> seq 0 nnz.
Proof.
  intros Hb Hn Hr Hc. pose proof (rand_csr_spec few nnz n m vals rds cds b h Hb Hn Hr Hc) as Hs. split; [intros E; by rewrite E in Hs|]. intros b' h' E. rewrite E in Hs. destruct Hs as (rs & Hcov & Hh & Hl & Hst & Hv). cbn [fst snd] in *.
  destruct Hb as (_ & _ & _ & ->). subst h'. exists rs. assert (Hsh : shows b' (mkH 0 n m n false nnz 0) rs) by (by apply shows_all). split; [done|]. split; [done|]. split; [done|]. split; [|done].
  destruct (shows_reads _ _ _ Hsh) as (base & HR & _). by rewrite (reads_nnz _ _ _ _ HR), Hst.
Qed.
End rand.

(** The values of a sparse random matrix are not drawn again if they are zero: the result can have fewer non-zero cells than asked for. *)
Local Instance Val_nat : Val nat := { vzero := 0; viszero := Nat.eqb 0 }.
Definition c42_b : csrbuf nat := mkBuf [9; 9] [9; 9] [9; 9; 9].
Definition c42_h : csrh := mkH 0 2 3 2 false 2 0.
Theorem C42_sparse_zero_refuted : csr_new_uninit 2 3 2 c42_b c42_h /\
  exists b h rs, rand_csr true 2 2 3 (fun i => i) [0; 1] [2; 0] c42_b = Ok (b, h) /\ shows b h rs /\ csr_nnz b h = Ok 2 /\ nonzero_cells 2 3 (cell rs) = 1.
Proof.
  split; [done|]. exists (mkBuf [0; 1] [2; 0] [0; 1; 2]), c42_h, [[(2, 0)]; [(0, 1)]]. split; [vm_compute; done|]. split; [|vm_compute; done].
  exists [[(2, 0)]; [(0, 1)]]. split; [|done]. split; [| |simpl; lia|done|done].
  - split; [done|]. exists [], []. done.
  - repeat (constructor; [split; repeat constructor; simpl; lia|]). constructor.
Qed.

(** Examples *)
Example C35_ex : sample_int 6 4 false (fun i => 5 * i + 3) (@rev Z) [0; 0; 0; 0]%Z = Ok [5; 3; 2; 0]%Z /\ sample_int 3 4 false (fun _ => 0) (@rev Z) [0; 0; 0; 0]%Z = Throw.
Proof. vm_compute. done. Qed.
Example C35_ex_float : sample_float Nat.eqb 3 [4; 4; 7; 4; 7; 1; 2] [0; 0; 0] = Ok [4; 7; 1] /\ sample_float Nat.eqb 3 [4; 4; 7; 4; 7] [0; 0; 0] = Throw.
Proof. vm_compute. done. Qed.
Example C42_ex_dense : rand_dense true 2 2 3 (fun i => 5 * i + 4) [0; 5; 6; 7; 0; 8; 9; 1] (replicate 6 77) = Ok ([5; 6; 7; 0; 0; 1], []) /\
  rand_dense false 2 2 3 (fun i => 5 * i + 4) [0; 5; 0; 6] (replicate 6 77) = Ok ([0; 0; 0; 5; 6; 0], []).
Proof. vm_compute. done. Qed.
Example C42_ex_sparse : rand_csr true 3 3 4 (fun i => i + 5) [2; 0; 2] [1; 3; 3; 0] (mkBuf [9; 9; 9] [9; 9; 9] [9; 9; 9; 9]) = Ok (mkBuf [5; 6; 7] [1; 0; 3] [0; 1; 1; 3], mkH 0 3 4 3 false 3 0) /\
  rand_csr false 4 2 3 (fun i => i + 5) [1; 1] [2; 1; 2] (mkBuf [9; 9; 9; 9] [9; 9; 9; 9] [9; 9; 9]) = Ok (mkBuf [5; 6; 7; 8] [0; 1; 2; 0] [0; 3; 4], mkH 0 2 3 2 false 4 0).
Proof. vm_compute. done. Qed.

Print Assumptions C35_sample_distinct.
Print Assumptions C35_sample_all.
Print Assumptions C35_with_replacement.
Print Assumptions C35_rejects.
Print Assumptions C35_float.
Print Assumptions C42_dense.
Print Assumptions C42_sparse.
Print Assumptions C42_sparse_zero_refuted.
