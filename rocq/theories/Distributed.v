(** Properties C10 and C39: row partitioning and result collection in the distributed runtime. *)
From stdpp Require Import base sorting numbers list list_numbers.
From Coq Require Import Lia.
From Verif Require Import CppBase Mem DenseModel DenseSpec DenseProofs DistributedModel DistributedSpec.

(** Start of the i-th range. *)
Definition st (total workers i : nat) : nat := i * (total / workers) + i `min` (total mod workers).
Lemma st_0 t w : st t w 0 = 0. Proof. unfold st. lia. Qed.
Lemma st_all t w : w <> 0 -> st t w w = t.
Proof. intros Hw. unfold st. pose proof (Nat.div_mod t w Hw). pose proof (Nat.mod_upper_bound t w Hw). lia. Qed.
Lemma st_succ t w i : st t w i <= st t w (i + 1) <= st t w i + t / w + 1 /\ st t w i + t / w <= st t w (i + 1).
Proof. unfold st. lia. Qed.
Lemma st_mono t w i j : i <= j -> st t w i <= st t w j.
Proof. intros H. induction H as [|j H IH]; [lia|]. pose proof (st_succ t w j). replace (j + 1) with (S j) in H0 by lia. lia. Qed.
Lemma st_find t w n r : r < st t w n -> exists i, i < n /\ st t w i <= r < st t w (i + 1).
Proof.
  induction n as [|n IH]; [rewrite st_0; lia|]. intros Hr. destruct (decide (r < st t w n)) as [H|H].
  - destruct (IH H) as (i & Hi & Hx). exists i. split; [lia|done].
  - exists n. replace (n + 1) with (S n) by lia. lia.
Qed.
Lemma st_unique t w i j r : st t w i <= r < st t w (i + 1) -> st t w j <= r < st t w (j + 1) -> i = j.
Proof.
  intros Hi Hj. destruct (Nat.lt_total i j) as [H|[H|H]]; [|done|].
  - pose proof (st_mono t w (i + 1) j ltac:(lia)). lia.
  - pose proof (st_mono t w (j + 1) i ltac:(lia)). lia.
Qed.

Lemma st_even_cover total workers (rs : list (nat * nat)) : workers <> 0 ->
  (forall i, rs !! i = if decide (i < workers) then Some (st total workers i, st total workers (i + 1) - st total workers i) else None) ->
  even_cover total rs.
Proof.
  intros Hw Hrs. split.
  - intros r Hr. destruct (st_find total workers workers r) as (i & Hi & Hx); [by rewrite st_all|]. exists i. split.
    + rewrite Hrs, decide_True by done. eexists _, _. split; [done|]. lia.
    + intros j s l Hj Hin. rewrite Hrs in Hj. case_decide; [|done]. injection Hj as <- <-.
      pose proof (st_succ total workers j). eapply st_unique; [|exact Hx]. lia.
  - intros i s l Hi. rewrite Hrs in Hi. case_decide; [|done]. injection Hi as <- <-.
    pose proof (st_succ total workers i). pose proof (st_mono total workers (i + 1) workers ltac:(lia)). rewrite st_all in H1 by done. lia.
  - intros i j s l s' l' Hi Hj. rewrite Hrs in Hi, Hj. case_decide; [|done]. case_decide; [|done]. injection Hi as <- <-. injection Hj as <- <-.
    pose proof (st_succ total workers i). pose proof (st_succ total workers j). lia.
  - intros i s l s' l' Hi Hj. rewrite Hrs in Hi, Hj. case_decide; [|done]. case_decide; [|done]. injection Hi as <- <-. injection Hj as <- <-.
    pose proof (st_succ total workers i). lia.
Qed.

(** C10. The rows are partitioned evenly among the workers; each range spans all columns. *)
Theorem C10_rows_evenly_partitioned rows cols workers : workers <> 0 ->
  let rgs := distribute_ranges rows cols workers in
  length rgs = workers /\ even_cover rows ((fun rg => (r_start rg, r_len rg)) <$> rgs) /\ Forall (fun rg => c_start rg = 0 /\ c_len rg = cols) rgs.
Proof.
  intros Hw. cbn zeta. unfold distribute_ranges. split; [by rewrite fmap_length, seq_length|]. split.
  - apply (st_even_cover rows workers); [done|]. intros i. rewrite !list_lookup_fmap. case_decide as Hi.
    + rewrite lookup_seq_lt by done. simpl. unfold st. done.
    + by rewrite lookup_seq_ge by lia.
  - apply Forall_fmap, Forall_forall. intros i _. done.
Qed.

Lemma output_ranges_loop_spec cb rows cols workers n : forall ix, cb <> OTHER ->
  exists rgs, output_ranges_loop cb rows cols workers ix n = Ok rgs /\ length rgs = n /\
    forall i, i < n -> exists rg, rgs !! i = Some rg /\ output_range cb rows cols workers (ix + i) = Ok rg.
Proof.
  induction n as [|n IH]; intros ix Hc; simpl; [eexists; split; [done|]; split; [done|lia]|].
  destruct (output_range cb rows cols workers ix) as [rg| |] eqn:E; [|by destruct cb|by destruct cb]. cbn [obind].
  destruct (IH (ix + 1) Hc) as (rgs & -> & Hl & H). cbn [obind]. eexists. split; [done|]. split; [simpl; lia|].
  intros [|i] Hi; [exists rg; rewrite Nat.add_0_r; done|]. destruct (H i) as (rg' & Hr & Hx); [lia|].
  exists rg'. split; [done|]. rewrite <- Hx. f_equal. lia.
Qed.

(** The shape of the ranges of an output. *)
Definition out_rg (cb : combine) (rows cols workers i : nat) : range :=
  match cb with
  | ROWS => mkR (st rows workers i) 0 (st rows workers (i + 1) - st rows workers i) cols
  | _ => mkR 0 (st cols workers i) rows (st cols workers (i + 1) - st cols workers i)
  end.
Lemma output_ranges_spec cb rows cols workers : cb <> OTHER ->
  exists rgs, output_ranges cb rows cols workers = Ok rgs /\ length rgs = workers /\ forall i, i < workers -> rgs !! i = Some (out_rg cb rows cols workers i).
Proof.
  intros Hc. destruct (output_ranges_loop_spec cb rows cols workers workers 0 Hc) as (rgs & E & Hl & H).
  exists rgs. split; [done|]. split; [done|]. intros i Hi. destruct (H i Hi) as (rg & -> & Hr). simpl in Hr. unfold out_rg.
  destruct cb; simpl in Hr; [..|done]; by injection Hr as <-.
Qed.

(** The ranges of the outputs: row-combined outputs are partitioned by rows, column-combined (and added) ones by columns. *)
Theorem C10_outputs_evenly_partitioned cb rows cols workers : workers <> 0 -> cb <> OTHER ->
  exists rgs, output_ranges cb rows cols workers = Ok rgs /\ length rgs = workers /\
    match cb with
    | ROWS => even_cover rows ((fun rg => (r_start rg, r_len rg)) <$> rgs) /\ Forall (fun rg => c_start rg = 0 /\ c_len rg = cols) rgs
    | _ => even_cover cols ((fun rg => (c_start rg, c_len rg)) <$> rgs) /\ Forall (fun rg => r_start rg = 0 /\ r_len rg = rows) rgs
    end.
Proof.
  intros Hw Hc. destruct (output_ranges_spec cb rows cols workers Hc) as (rgs & E & Hl & H). exists rgs. split; [done|]. split; [done|].
  assert (Hall : forall P : range -> Prop, (forall i, i < workers -> P (out_rg cb rows cols workers i)) -> Forall P rgs).
  { intros P HP. apply Forall_lookup. intros i rg Hi. pose proof (lookup_lt_Some _ _ _ Hi). rewrite H in Hi by lia. injection Hi as <-. apply HP. lia. }
  destruct cb; try done.
  - split; [|apply Hall; intros; done]. apply (st_even_cover rows workers); [done|]. intros i. rewrite list_lookup_fmap.
    destruct (decide (i < workers)); [by rewrite H|]. by rewrite lookup_ge_None_2 by lia.
  - split; [|apply Hall; intros; done]. apply (st_even_cover cols workers); [done|]. intros i. rewrite list_lookup_fmap.
    destruct (decide (i < workers)); [by rewrite H|]. by rewrite lookup_ge_None_2 by lia.
  - split; [|apply Hall; intros; done]. apply (st_even_cover cols workers); [done|]. intros i. rewrite list_lookup_fmap.
    destruct (decide (i < workers)); [by rewrite H|]. by rewrite lookup_ge_None_2 by lia.
Qed.

(** Cutting the matrix along the ranges works if there are at least as many rows as workers... *)
Lemma foldr_slices_ok rows cols rgs :
  Forall (fun rg => r_start rg < rows /\ r_start rg + r_len rg <= rows) rgs ->
  exists vs, foldr (fun rg acc => let* v := dm_sliceRow (dm_new rows cols) (Z.of_nat (r_start rg)) (Z.of_nat (r_start rg + r_len rg)) in
                       let* vs := acc in Ok (v :: vs)) (Ok []) rgs = Ok vs /\
    Forall2 (fun v rg => is_view_on rows cols v (mkW (r_start rg) 0 (r_len rg) cols)) vs rgs.
Proof.
  induction 1 as [|rg rgs [H1 H2] _ IH]; simpl; [eauto|]. destruct IH as (vs & -> & HF).
  destruct (slice_is_view rows cols (dm_new rows cols) (whole rows cols) (Z.of_nat (r_start rg)) (Z.of_nat (r_start rg + r_len rg)) 0 (Z.of_nat cols) (new_is_view _ _))
    as [Hs _].
  destruct Hs as (v & E & Hv); [unfold valid_bounds, whole; simpl; lia|].
  unfold dm_sliceRow. change (d_cols (dm_new rows cols)) with cols. rewrite E. cbn [obind]. eexists. split; [done|]. constructor; [|done].
  unfold sub_window, whole in Hv. simpl in Hv. rewrite Z.sub_0_r, !Nat2Z.id in Hv.
  replace (Z.to_nat (Z.of_nat (r_start rg + r_len rg) - Z.of_nat (r_start rg))) with (r_len rg) in Hv by lia. done.
Qed.
Theorem C10_distribute_enough_rows rows cols workers : workers <> 0 -> workers <= rows ->
  exists vs, distribute_slices rows cols workers = Ok vs /\
    Forall2 (fun v rg => is_view_on rows cols v (mkW (r_start rg) 0 (r_len rg) cols)) vs (distribute_ranges rows cols workers).
Proof.
  intros Hw Hle. apply foldr_slices_ok. unfold distribute_ranges. apply Forall_fmap, Forall_forall. intros i Hi. apply elem_of_seq in Hi.
  simpl. fold (st rows workers i). fold (st rows workers (i + 1)).
  pose proof (st_succ rows workers i). pose proof (st_mono rows workers (i + 1) workers ltac:(lia)). rewrite st_all in H0 by done.
  assert (1 <= rows / workers) by (apply Nat.div_le_lower_bound; lia). lia.
Qed.
(** ... and fails with an exception if there are fewer rows (but at least one) than workers: the empty last range starts
    at the number of rows, which the slicing function rejects. *)
Theorem C10_distribute_few_rows_refuted rows cols workers : 0 < rows < workers -> distribute_slices rows cols workers = Throw.
Proof.
  intros Hr. unfold distribute_slices, distribute_ranges.
  assert (Hin : exists i, i ∈ seq 0 workers /\ r_start (create_range rows cols workers i) = rows /\ r_len (create_range rows cols workers i) = 0).
  { exists rows. split; [apply elem_of_seq; lia|]. simpl. rewrite Nat.div_small, Nat.mod_small by lia. lia. }
  destruct Hin as (i & Hi & H1 & H2). revert Hi. generalize (seq 0 workers). intros l Hi.
  assert (Hno : forall rg, dm_sliceRow (dm_new rows cols) (Z.of_nat (r_start rg)) (Z.of_nat (r_start rg + r_len rg)) <> UB).
  { intros rg. unfold dm_sliceRow, dm_slice. by repeat case_match. }
  assert (Hno2 : forall l, foldr (fun rg acc => let* v := dm_sliceRow (dm_new rows cols) (Z.of_nat (r_start rg)) (Z.of_nat (r_start rg + r_len rg)) in
                       let* vs := acc in Ok (v :: vs)) (Ok []) (create_range rows cols workers <$> l) <> UB).
  { induction l0 as [|j l0 IH]; [done|]. rewrite fmap_cons. cbn [foldr]. destruct (dm_sliceRow _ _ _) eqn:E; [|done|by apply Hno in E].
    cbn [obind]. destruct (foldr _ _ _); done. }
  induction l as [|j l IH]; [by apply elem_of_nil in Hi|]. rewrite fmap_cons. cbn [foldr]. apply elem_of_cons in Hi as [<-|Hi].
  - rewrite H1, H2, Nat.add_0_r. unfold dm_sliceRow, dm_slice.
    replace (bad_range (Z.of_nat rows) (Z.of_nat rows) (d_rows (dm_new rows cols))) with true; [done|].
    symmetry. apply bool_decide_eq_true. simpl. lia.
  - rewrite IH by done. destruct (dm_sliceRow _ _ _) eqn:E; [done|done|by apply Hno in E].
Qed.

(** C39. Collecting. *)
Lemma out_rg_inside cb rows cols workers i : workers <> 0 -> i < workers ->
  r_start (out_rg cb rows cols workers i) + r_len (out_rg cb rows cols workers i) <= rows /\
  c_start (out_rg cb rows cols workers i) + c_len (out_rg cb rows cols workers i) <= cols.
Proof.
  intros Hw Hi.
  pose proof (st_succ rows workers i). pose proof (st_mono rows workers (i + 1) workers ltac:(lia)). rewrite st_all in H0 by done.
  pose proof (st_succ cols workers i). pose proof (st_mono cols workers (i + 1) workers ltac:(lia)). rewrite st_all in H2 by done.
  destruct cb; simpl; lia.
Qed.
Definition in_rg (rg : range) (r c : nat) : Prop := r_start rg <= r < r_start rg + r_len rg /\ c_start rg <= c < c_start rg + c_len rg.
Lemma out_rg_cover cb rows cols workers r c : workers <> 0 -> r < rows -> c < cols ->
  exists i, i < workers /\ in_rg (out_rg cb rows cols workers i) r c.
Proof.
  intros Hw Hr Hc. unfold in_rg. destruct cb.
  - destruct (st_find rows workers workers r) as (i & Hi & Hx); [by rewrite st_all|]. exists i. simpl. lia.
  - destruct (st_find cols workers workers c) as (i & Hi & Hx); [by rewrite st_all|]. exists i. simpl. lia.
  - destruct (st_find cols workers workers c) as (i & Hi & Hx); [by rewrite st_all|]. exists i. simpl. lia.
  - destruct (st_find cols workers workers c) as (i & Hi & Hx); [by rewrite st_all|]. exists i. simpl. lia.
Qed.
Definition area (rg : range) : nat := r_len rg * c_len rg.

Section collect.
Context {V : Type} (add : V -> V -> V).

Lemma place_part_spec (x : nat -> nat -> V) rows cols rg res part : length res = rows * cols ->
  r_start rg + r_len rg <= rows -> c_start rg + c_len rg <= cols ->
  part_of x (r_start rg) (r_len rg) (c_start rg) (c_len rg) part ->
  exists res', place_part res cols rg part (c_len rg) = Ok res' /\ length res' = length res /\
    forall r c, r < rows -> c < cols -> (in_rg rg r c -> res' !! (r * cols + c) = Some (x r c)) /\ (~ in_rg rg r c -> res' !! (r * cols + c) = res !! (r * cols + c)).
Proof.
  intros Hl Hr Hc [Lp Hp]. unfold place_part.
  destruct (copy_block_spec res (r_start rg * cols + c_start rg) cols part 0 (c_len rg) (r_len rg) (c_len rg)) as (res' & E & Hl' & F1 & F2).
  - lia.
  - destruct (r_len rg) as [|n]; [by left|right]. replace (S n - 1) with n by lia. nia.
  - destruct (r_len rg) as [|n]; [by left|right]. replace (S n - 1) with n by lia. nia.
  - exists res'. split; [done|]. split; [done|]. intros r c Hrr Hcc. split.
    + intros [H1 H2]. replace (r * cols + c) with (r_start rg * cols + c_start rg + (r - r_start rg) * cols + (c - c_start rg)) by nia.
      rewrite F1 by lia. simpl. rewrite Hp by lia. f_equal. f_equal; lia.
    + intros Hn. apply F2. intros r' c' Hr' Hc' E'. apply Hn.
      assert (E2 : r * cols + c = (r_start rg + r') * cols + (c_start rg + c')) by lia. apply pos_inj in E2; [|lia|lia]. unfold in_rg. lia.
Qed.

(** Everything received so far is in place. *)
Definition placed (cb : combine) (rows cols workers : nat) (x : nat -> nat -> V) (done : list nat) (res : list V) : Prop :=
  length res = rows * cols /\ forall r c w, r < rows -> c < cols -> w ∈ done -> in_rg (out_rg cb rows cols workers w) r c -> res !! (r * cols + c) = Some (x r c).
Lemma placed_step cb rows cols workers x don res w part : workers <> 0 -> w < workers -> cb <> ADD ->
  placed cb rows cols workers x don res ->
  (let rg := out_rg cb rows cols workers w in part_of x (r_start rg) (r_len rg) (c_start rg) (c_len rg) part) ->
  exists res', collect_one add cb cols res (out_rg cb rows cols workers w) part = Ok res' /\ placed cb rows cols workers x (w :: don) res'.
Proof.
  intros Hw Hi Hcb [Hl Hd] Hp. cbn zeta in Hp. pose proof (out_rg_inside cb rows cols workers w Hw Hi) as [Hr Hc].
  destruct (place_part_spec x rows cols _ res part Hl Hr Hc Hp) as (res' & E & Hl' & H). exists res'.
  split; [unfold collect_one; by destruct cb|]. split; [lia|]. intros r c w' Hrr Hcc Hin Hrg. destruct (H r c Hrr Hcc) as [H1 H2].
  destruct (decide (r_start (out_rg cb rows cols workers w) <= r < r_start (out_rg cb rows cols workers w) + r_len (out_rg cb rows cols workers w)
    /\ c_start (out_rg cb rows cols workers w) <= c < c_start (out_rg cb rows cols workers w) + c_len (out_rg cb rows cols workers w))) as [Hy|Hn]; [by apply H1|].
  rewrite H2 by done. apply elem_of_cons in Hin as [->|Hin]; [by destruct Hn|]. by eapply Hd.
Qed.
Lemma placed_all cb rows cols workers x don res : workers <> 0 -> placed cb rows cols workers x don res ->
  (forall w, w < workers -> w ∈ don \/ area (out_rg cb rows cols workers w) = 0) -> tabulated rows cols x res.
Proof.
  intros Hw [Hl Hd] Hall. split; [done|]. intros r c Hr Hc. destruct (out_rg_cover cb rows cols workers r c Hw Hr Hc) as (i & Hi & Hin).
  destruct (Hall i Hi) as [H|H]; [by eapply Hd|]. unfold in_rg, area in *. nia.
Qed.

Lemma collect_grpc_gen cb rows cols workers rgs x parts order : workers <> 0 -> cb <> ADD ->
  (forall i, i < workers -> rgs !! i = Some (out_rg cb rows cols workers i)) ->
  (forall w, w < workers -> let rg := out_rg cb rows cols workers w in part_of x (r_start rg) (r_len rg) (c_start rg) (c_len rg) (parts w)) ->
  Forall (fun w => w < workers) order ->
  forall res don, placed cb rows cols workers x don res ->
  exists res', collect_grpc add cb cols rgs parts res order = Ok res' /\ placed cb rows cols workers x (rev order ++ don) res'.
Proof.
  intros Hw Hcb Hrg Hp. induction 1 as [|w order Hi _ IH]; intros res don Hd; simpl; [eauto|].
  rewrite (rd_Ok _ _ _ (Hrg w Hi)). cbn [obind].
  destruct (placed_step cb rows cols workers x don res w (parts w) Hw Hi Hcb Hd (Hp w Hi)) as (res1 & -> & Hd1). cbn [obind].
  destruct (IH res1 _ Hd1) as (res2 & -> & Hd2). exists res2. split; [done|]. by rewrite <- app_assoc.
Qed.
End collect.

(** Asynchronous gRPC: whatever the order of the responses, row- and column-combined results are assembled correctly. *)
Theorem C39_collect_any_order {V} (add : V -> V -> V) cb rows cols workers (x : nat -> nat -> V) parts res order :
  workers <> 0 -> cb = ROWS \/ cb = COLS -> length res = rows * cols -> order ≡ₚ seq 0 workers ->
  exists rgs, output_ranges cb rows cols workers = Ok rgs /\
    ((forall w rg, rgs !! w = Some rg -> part_of x (r_start rg) (r_len rg) (c_start rg) (c_len rg) (parts w)) ->
     exists res', collect_grpc add cb cols rgs parts res order = Ok res' /\ tabulated rows cols x res').
Proof.
  intros Hw Hcb Hl Ho. assert (cb <> OTHER /\ cb <> ADD) as [H1 H2] by (by destruct Hcb as [-> | ->]).
  destruct (output_ranges_spec cb rows cols workers H1) as (rgs & E & Hlr & Hrg). exists rgs. split; [done|]. intros Hp.
  assert (HF : Forall (fun w => w < workers) order).
  { apply Forall_forall. intros w Hi. rewrite Ho in Hi. apply elem_of_seq in Hi. lia. }
  destruct (collect_grpc_gen add cb rows cols workers rgs x parts order Hw H2 Hrg) with (res := res) (don := @nil nat) as (res' & E' & Hd); [|done| |].
  - intros w Hi. apply Hp. auto.
  - split; [done|]. intros r c w _ _ Hi. by apply elem_of_nil in Hi.
  - exists res'. split; [done|]. eapply placed_all; [done|exact Hd|]. intros w Hi. left. rewrite app_nil_r. apply elem_of_list_In, in_rev.
    rewrite rev_involutive. apply elem_of_list_In. rewrite Ho. apply elem_of_seq. lia.
Qed.

(** The total number of cells in distinct workers' ranges is at most that of the matrix. *)
Fixpoint sum_area (cb : combine) (rows cols workers : nat) (l : list nat) : nat :=
  match l with [] => 0 | w :: l' => area (out_rg cb rows cols workers w) + sum_area cb rows cols workers l' end.
Lemma sum_area_app cb rows cols workers l1 l2 :
  sum_area cb rows cols workers (l1 ++ l2) = sum_area cb rows cols workers l1 + sum_area cb rows cols workers l2.
Proof. induction l1; simpl; [done|]. rewrite IHl1. lia. Qed.
Lemma sum_area_perm cb rows cols workers l1 l2 : l1 ≡ₚ l2 -> sum_area cb rows cols workers l1 = sum_area cb rows cols workers l2.
Proof. induction 1; simpl; lia. Qed.
Lemma sum_area_seq cb rows cols workers n :
  sum_area cb rows cols workers (seq 0 n) = match cb with ROWS => st rows workers n * cols | _ => rows * st cols workers n end.
Proof.
  induction n as [|n IH]; [destruct cb; unfold st; simpl; lia|].
  rewrite seq_S, sum_area_app, IH. simpl. pose proof (st_succ rows workers n). pose proof (st_succ cols workers n).
  unfold area. destruct cb; simpl; replace (S n) with (n + 1) by lia; nia.
Qed.
Lemma sum_area_total cb rows cols workers : workers <> 0 -> sum_area cb rows cols workers (seq 0 workers) = rows * cols.
Proof. intros Hw. rewrite sum_area_seq. rewrite !st_all by done. by destruct cb. Qed.
Lemma sum_area_le cb rows cols workers l : workers <> 0 -> NoDup l -> Forall (fun w => w < workers) l -> sum_area cb rows cols workers l <= rows * cols.
Proof.
  intros Hw Hnd HF. rewrite <- (sum_area_total cb rows cols workers Hw).
  assert (Hs : l ⊆+ seq 0 workers).
  { apply NoDup_submseteq; [done|]. intros w Hi. rewrite Forall_forall in HF. apply elem_of_seq. specialize (HF w Hi). lia. }
  apply submseteq_Permutation in Hs as (k & Hk). rewrite (sum_area_perm _ _ _ _ _ _ Hk), sum_area_app. lia.
Qed.
(** When the counter reaches the number of cells, all the remaining ranges are empty. *)
Lemma stop_means_complete cb rows cols workers don : workers <> 0 -> NoDup don -> Forall (fun w => w < workers) don ->
  (N.of_nat (sum_area cb rows cols workers don) mod 2 ^ 32)%N = N.of_nat (rows * cols) ->
  forall w, w < workers -> w ∈ don \/ area (out_rg cb rows cols workers w) = 0.
Proof.
  intros Hw Hnd HF Hm w Hi. destruct (decide (w ∈ don)) as [|Hn]; [by left|right].
  pose proof (sum_area_le cb rows cols workers (w :: don) Hw) as H. simpl in H.
  specialize (H ltac:(by constructor) ltac:(by constructor)).
  pose proof (N.mod_le (N.of_nat (sum_area cb rows cols workers don)) (2 ^ 32) ltac:(done)). lia.
Qed.

Lemma collect_mpi_gen {V} (add : V -> V -> V) cb rows cols workers rgs x parts order : workers <> 0 -> cb <> ADD ->
  (forall i, i < workers -> rgs !! i = Some (out_rg cb rows cols workers i)) ->
  (forall w, w < workers -> let rg := out_rg cb rows cols workers w in part_of x (r_start rg) (r_len rg) (c_start rg) (c_len rg) (parts w)) ->
  Forall (fun w => w < workers) order -> NoDup order ->
  forall res items don, placed cb rows cols workers x don res -> NoDup don -> Forall (fun w => w < workers) don ->
    (forall w, w < workers -> w ∈ order \/ w ∈ don) -> (forall w, w ∈ order -> w ∉ don) ->
    items = (N.of_nat (sum_area cb rows cols workers don) mod 2 ^ 32)%N ->
  exists res', collect_mpi add cb rows cols rgs parts res items order = Ok res' /\ tabulated rows cols x res'.
Proof.
  intros Hw Hcb Hrg Hp. induction 1 as [|w order Hi HF IH]; intros Hnd res items don Hd Hnd' HF' Hcov Hdis Hit; cbn [collect_mpi].
  - exists res. split; [done|]. eapply placed_all; [done|exact Hd|]. intros w Hi. left. destruct (Hcov w Hi) as [H|H]; [by apply elem_of_nil in H|done].
  - apply NoDup_cons in Hnd as [Hnw Hnd]. rewrite (rd_Ok _ _ _ (Hrg w Hi)). cbn [obind].
    destruct (placed_step add cb rows cols workers x don res w (parts w) Hw Hi Hcb Hd (Hp w Hi)) as (res1 & -> & Hd1). cbn [obind].
    assert (Hwd : w ∉ don) by (apply Hdis; apply elem_of_list_here).
    assert (Hit' : ((items + N.of_nat (area (out_rg cb rows cols workers w))) mod 2 ^ 32)%N = (N.of_nat (sum_area cb rows cols workers (w :: don)) mod 2 ^ 32)%N).
    { rewrite Hit. rewrite N.add_mod_idemp_l by done. simpl. f_equal. lia. }
    change (r_len (out_rg cb rows cols workers w) * c_len (out_rg cb rows cols workers w)) with (area (out_rg cb rows cols workers w)). rewrite Hit'. case_decide as Hstop.
    + exists res1. split; [done|]. eapply placed_all; [done|exact Hd1|].
      eapply stop_means_complete; [done| | |exact Hstop]; by constructor.
    + eapply IH; [done|exact Hd1|by constructor|by constructor| | |done].
      * intros v Hv. destruct (Hcov v Hv) as [H|H]; [apply elem_of_cons in H as [->|H]; [right; apply elem_of_list_here|by left]|right; by apply elem_of_list_further].
      * intros v Hv Hin. apply elem_of_cons in Hin as [->|Hin]; [done|]. eapply Hdis; [by apply elem_of_list_further|done].
Qed.

(** MPI: stopping when the counter says that all cells have arrived (even with a 32-bit counter) never stops too early. *)
Theorem C39_collect_mpi_any_order {V} (add : V -> V -> V) cb rows cols workers (x : nat -> nat -> V) parts res order :
  workers <> 0 -> cb = ROWS \/ cb = COLS -> length res = rows * cols -> order ≡ₚ seq 0 workers ->
  exists rgs, output_ranges cb rows cols workers = Ok rgs /\
    ((forall w rg, rgs !! w = Some rg -> part_of x (r_start rg) (r_len rg) (c_start rg) (c_len rg) (parts w)) ->
     exists res', collect_mpi add cb rows cols rgs parts res 0 order = Ok res' /\ tabulated rows cols x res').
Proof.
  intros Hw Hcb Hl Ho. assert (cb <> OTHER /\ cb <> ADD) as [H1 H2] by (by destruct Hcb as [-> | ->]).
  destruct (output_ranges_spec cb rows cols workers H1) as (rgs & E & Hlr & Hrg). exists rgs. split; [done|]. intros Hp.
  apply (collect_mpi_gen add cb rows cols workers rgs x parts order) with (don := @nil nat); try done.
  - intros w Hi. apply Hp. auto.
  - apply Forall_forall. intros w Hi. rewrite Ho in Hi. apply elem_of_seq in Hi. lia.
  - rewrite Ho. apply NoDup_seq.
  - split; [done|]. intros r c w _ _ Hi. by apply elem_of_nil in Hi.
  - constructor.
  - intros w Hi. left. rewrite Ho. apply elem_of_seq. lia.
  - intros w _ Hi. by apply elem_of_nil in Hi.
Qed.

(** Added results. Addition is associative and commutative here (not so for floating point). *)
Section adding.
Context {V : Type} (add : V -> V -> V) (z : V).
Context (add_comm : forall a b, add a b = add b a) (add_assoc : forall a b c, add a (add b c) = add (add a b) c).

Lemma add_part_spec n (f g : nat -> V) res part : length res = n -> (forall i, i < n -> res !! i = Some (f i)) -> length part = n ->
  (forall i, i < n -> part !! i = Some (g i)) ->
  exists res', add_part add res part = Ok res' /\ length res' = n /\ forall i, i < n -> res' !! i = Some (add (f i) (g i)).
Proof.
  intros Hl Hf Hlp Hg. unfold add_part. rewrite Hl.
  destruct (for_up_inv (fun i b => length b = n /\ (forall j, j < i -> b !! j = Some (add (f j) (g j))) /\ (forall j, i <= j < n -> b !! j = Some (f j)))
    0 n (fun i b => let* x := rd b i in let* y := rd part i in wr b i (add x y)) res) as (res' & E & Hl' & H & _).
  - lia.
  - split; [done|]. split; [lia|]. intros j Hj. apply Hf. lia.
  - intros i s Hi (Hs & H1 & H2). rewrite (rd_Ok _ _ _ (H2 i ltac:(lia))), (rd_Ok _ _ _ (Hg i ltac:(lia))). cbn [obind]. rewrite wr_Ok by lia.
    eexists. split; [done|]. rewrite insert_length. split; [done|]. split.
    + intros j Hj. destruct (decide (j = i)) as [->|]; [apply list_lookup_insert; lia|]. rewrite list_lookup_insert_ne by done. apply H1. lia.
    + intros j Hj. rewrite list_lookup_insert_ne by lia. apply H2. lia.
  - exists res'. auto.
Qed.

Lemma sum_with_perm (f : nat -> V) l1 l2 : l1 ≡ₚ l2 -> sum_with add z f l1 = sum_with add z f l2.
Proof.
  unfold sum_with. induction 1 as [|w l1 l2 _ IH|w1 w2 l|l1 l2 l3 _ IH1 _ IH2]; simpl; [done|by rewrite IH| |by rewrite IH1].
  rewrite !add_assoc. f_equal. apply add_comm.
Qed.

Lemma collect_add_gen rows cols workers rgs (parts : nat -> list V) order :
  (forall i, i < workers -> exists rg, rgs !! i = Some rg) -> (forall w, w < workers -> length (parts w) = rows * cols) ->
  Forall (fun w => w < workers) order ->
  forall res f, length res = rows * cols -> (forall i, i < rows * cols -> res !! i = Some (f i)) ->
  exists res', collect_grpc add ADD cols rgs parts res order = Ok res' /\ length res' = rows * cols /\
    forall i, i < rows * cols -> res' !! i = Some (foldl (fun acc w => add acc (default z (parts w !! i))) (f i) order).
Proof.
  intros Hrg Hp. induction 1 as [|w order Hi _ IH]; intros res f Hl Hf; simpl; [eauto|].
  destruct (Hrg w Hi) as (rg & Hw). rewrite (rd_Ok _ _ _ Hw). cbn [obind].
  destruct (add_part_spec (rows * cols) f (fun i => default z (parts w !! i)) res (parts w)) as (res1 & -> & Hl1 & H1); [done|done|by apply Hp| |].
  { intros i Hx. destruct (lookup_lt_is_Some_2 (parts w) i) as [v ->]; [by rewrite Hp|]. done. }
  cbn [obind]. destruct (IH res1 _ Hl1 H1) as (res2 & -> & Hl2 & H2). exists res2. auto.
Qed.
Lemma foldl_sum f (a : V) order : (forall b, add b z = b) -> foldl (fun acc w => add acc (f w)) a order = add a (sum_with add z f order).
Proof.
  intros Hz. revert a. induction order as [|w order IH]; intros a; simpl; [by rewrite Hz|]. rewrite IH. rewrite <- add_assoc. done.
Qed.

(** gRPC: each cell of the result is the sum of that cell over all workers, for every arrival order. *)
Theorem C39_collect_add_any_order rows cols workers parts order : (forall b, add b z = b) ->
  workers <> 0 -> order ≡ₚ seq 0 workers -> (forall w, w < workers -> length (parts w) = rows * cols) ->
  exists rgs res', output_ranges ADD rows cols workers = Ok rgs /\
    collect_grpc add ADD cols rgs parts (replicate (rows * cols) z) order = Ok res' /\ length res' = rows * cols /\
    forall i, i < rows * cols -> res' !! i = Some (sum_with add z (fun w => default z (parts w !! i)) (seq 0 workers)).
Proof.
  intros Hz Hw Ho Hp. destruct (output_ranges_spec ADD rows cols workers ltac:(done)) as (rgs & E & Hlr & Hrg).
  destruct (collect_add_gen rows cols workers rgs parts order) with (res := replicate (rows * cols) z) (f := fun _ : nat => z) as (res' & E' & Hl' & H).
  - intros i Hi. eauto.
  - done.
  - apply Forall_forall. intros w Hi. rewrite Ho in Hi. apply elem_of_seq in Hi. lia.
  - by rewrite replicate_length.
  - intros i Hi. by apply lookup_replicate_2.
  - exists rgs, res'. split; [done|]. split; [done|]. split; [done|]. intros i Hi. rewrite H by done.
    rewrite (foldl_sum (fun w => default z (parts w !! i))) by done. rewrite (sum_with_perm _ _ _ Ho). by rewrite add_comm, Hz.
Qed.

(** MPI: the same if there are at least as many columns as workers (and at least one row). *)
Lemma mpi_add_no_early_stop rows cols workers rgs (parts : nat -> list V) order : workers <> 0 -> workers <= cols -> 0 < rows ->
  (forall i, i < workers -> rgs !! i = Some (out_rg ADD rows cols workers i)) ->
  Forall (fun w => w < workers) order -> NoDup order ->
  forall res items don, NoDup don -> Forall (fun w => w < workers) don -> (forall w, w ∈ order -> w ∉ don) ->
    items = (N.of_nat (sum_area ADD rows cols workers don) mod 2 ^ 32)%N ->
    collect_mpi add ADD rows cols rgs parts res items order = collect_grpc add ADD cols rgs parts res order.
Proof.
  intros Hw Hle Hr Hrg. induction 1 as [|w order Hi HF IH]; intros Hnd res items don Hnd' HF' Hdis Hit; [done|].
  apply NoDup_cons in Hnd as [Hnw Hnd]. cbn [collect_mpi collect_grpc]. rewrite (rd_Ok _ _ _ (Hrg w Hi)). cbn [obind].
  destruct (collect_one add ADD cols res (out_rg ADD rows cols workers w) (parts w)) as [res1| |]; [|done|done]. cbn [obind].
  assert (Hwd : w ∉ don) by (apply Hdis; apply elem_of_list_here).
  assert (Hit' : ((items + N.of_nat (area (out_rg ADD rows cols workers w))) mod 2 ^ 32)%N = (N.of_nat (sum_area ADD rows cols workers (w :: don)) mod 2 ^ 32)%N).
  { rewrite Hit. rewrite N.add_mod_idemp_l by done. simpl. f_equal. lia. }
  change (r_len (out_rg ADD rows cols workers w) * c_len (out_rg ADD rows cols workers w)) with (area (out_rg ADD rows cols workers w)). rewrite Hit'. case_decide as Hstop.
  - destruct order as [|w2 order]; [done|]. exfalso.
    assert (Hw2 : w2 < workers) by (by apply Forall_cons in HF as [? _]).
    destruct (stop_means_complete ADD rows cols workers (w :: don) Hw) with (w := w2) as [Hin|Hz]; [by constructor|by constructor|done|done| |].
    + apply elem_of_cons in Hin as [->|Hin]; [apply Hnw, elem_of_list_here|]. eapply Hdis; [|exact Hin]. apply elem_of_list_further, elem_of_list_here.
    + unfold area in Hz. simpl in Hz. pose proof (st_succ cols workers w2). assert (1 <= cols / workers) by (apply Nat.div_le_lower_bound; lia). nia.
  - eapply IH; [done|by constructor|by constructor| |done].
    intros v Hv Hin. apply elem_of_cons in Hin as [->|Hin]; [done|]. eapply Hdis; [by apply elem_of_list_further|done].
Qed.
Theorem C39_collect_mpi_add_enough_columns rows cols workers parts order : (forall b, add b z = b) ->
  workers <> 0 -> workers <= cols -> 0 < rows -> order ≡ₚ seq 0 workers -> (forall w, w < workers -> length (parts w) = rows * cols) ->
  exists rgs res', output_ranges ADD rows cols workers = Ok rgs /\
    collect_mpi add ADD rows cols rgs parts (replicate (rows * cols) z) 0 order = Ok res' /\ length res' = rows * cols /\
    forall i, i < rows * cols -> res' !! i = Some (sum_with add z (fun w => default z (parts w !! i)) (seq 0 workers)).
Proof.
  intros Hz Hw Hle Hr Ho Hp. destruct (C39_collect_add_any_order rows cols workers parts order Hz Hw Ho Hp) as (rgs & res' & E & E' & H).
  exists rgs, res'. split; [done|]. split; [|done]. rewrite <- E'.
  destruct (output_ranges_spec ADD rows cols workers ltac:(done)) as (rgs2 & E2 & Hlr & Hrg). rewrite E in E2. injection E2 as <-.
  apply mpi_add_no_early_stop with (workers := workers) (don := []); try done.
  - apply Forall_forall. intros w Hi. rewrite Ho in Hi. apply elem_of_seq in Hi. lia.
  - rewrite Ho. apply NoDup_seq.
  - constructor.
  - intros w _ Hi. by apply elem_of_nil in Hi.
Qed.
End adding.

(** MPI, more workers than columns: the partial sum of the second worker is dropped when the first one answers first
    (a scalar-sized sum over two workers), so the result depends on the order. *)
Theorem C39_collect_mpi_add_refuted :
  exists rgs (parts : nat -> list Z), output_ranges ADD 1 1 2 = Ok rgs /\ (forall w, w < 2 -> length (parts w) = 1) /\
    collect_mpi Z.add ADD 1 1 rgs parts [0%Z] 0 [0; 1] = Ok [10%Z] /\
    collect_mpi Z.add ADD 1 1 rgs parts [0%Z] 0 [1; 0] = Ok [42%Z] /\
    sum_with Z.add 0%Z (fun w => default 0%Z (parts w !! 0)) (seq 0 2) = 42%Z.
Proof.
  eexists _, (fun w => match w with 0 => [10%Z] | _ => [32%Z] end). split; [vm_compute; reflexivity|].
  split; [by intros [|[|w]] Hw|]. repeat split; vm_compute; reflexivity.
Qed.

Example C10_example : distribute_ranges 7 3 4 = [mkR 0 0 2 3; mkR 2 0 2 3; mkR 4 0 2 3; mkR 6 0 1 3] /\ distribute_slices 2 3 3 = Throw.
Proof. split; vm_compute; reflexivity. Qed.
Example C39_example :
  exists rgs, output_ranges ROWS 3 2 2 = Ok rgs /\
    collect_grpc Z.add ROWS 2 rgs (fun w => match w with 0 => [1; 2; 3; 4]%Z | _ => [5; 6]%Z end) (replicate 6 9%Z) [1; 0] = Ok [1; 2; 3; 4; 5; 6]%Z.
Proof. eexists. split; vm_compute; reflexivity. Qed.

Print Assumptions C10_rows_evenly_partitioned.
Print Assumptions C10_outputs_evenly_partitioned.
Print Assumptions C10_distribute_enough_rows.
Print Assumptions C10_distribute_few_rows_refuted.
Print Assumptions C39_collect_any_order.
Print Assumptions C39_collect_mpi_any_order.
Print Assumptions C39_collect_add_any_order.
Print Assumptions C39_collect_mpi_add_enough_columns.
Print Assumptions C39_collect_mpi_add_refuted.
