(** Property theorems C01, C02, C03, C37 about the partitioning of rows into tasks. *)
From Coq Require Import NArith ZArith List Lia Permutation.
From Verif Require Import LoadPartitioningModel PartitionSpec LoadPartitioningProofs.
Import ListNotations.
Local Open Scope N_scope.

(** Row ranges obtained by laying chunks one after the other, starting at [a]. *)
Fixpoint ranges_of (a : N) (chunks : list N) : list (N * N) :=
  match chunks with
  | [] => []
  | c :: r => (a, a + c) :: ranges_of (a + c) r
  end.

Lemma ranges_of_consecutive a l : Forall (fun c => 0 < c) l -> consecutive a (a + sumN l) (ranges_of a l).
Proof.
  intros H. revert a. induction H as [|c l Hc Hl IH]; simpl; intros a; [lia|].
  split; [reflexivity|]. split; [lia|].
  rewrite N.add_assoc. apply IH.
Qed.

(** A concrete instance of the floating-point formulas, used in the examples only (exact integer ceilings). *)
Definition cd (a b : N) : N := (a + b - 1) / b.
Definition ff_ex : float_formulas := {|
  ff_stages := fun t w => 3; ff_mfsc := fun t w => 4; ff_auto := fun t w => 0;
  ff_tssChunk := fun t w => cd t (2 * w); ff_tssDelta := fun t c => 1;
  ff_gss := fun r w => cd r w; ff_fac2 := fun st q => cd q (2 ^ (st + 1)); ff_tfss := fun r w => cd r (2 * w);
  ff_initChunk := fun t f w => cd t ((2 + f) * w); ff_fissInc := fun t f w => 1; ff_vissFac := fun st => 2;
  ff_plsDynamic := fun r t => t / 2 <? r; ff_plsStatic := fun t w => cd t (2 * w);
  ff_pss := fun r w => cd (2 * r) (3 * w); ff_mstatic := fun q => cd q 4 |}.

(** ** C01: all schemes, all row counts (of the type), all worker counts >= 1, all minimum sizes >= 1, all values
    the floating-point formulas may return. The chunks are positive, and the ranges they form cover [0, rows)
    exactly; a chunk never exceeds what is left ([ranges] end at or before [rows], by [exact_cover]). *)
Theorem C01_chunks_cover_exactly : forall ff sch rows minChunk workers autoChunk,
  rows < 2 ^ 64 -> 1 <= workers -> 1 <= minChunk ->
  exists chunks,
    allChunks ff (N.to_nat rows) (lp_init ff sch rows minChunk workers autoChunk) = Done chunks /\
    Forall (fun c => 0 < c) chunks /\ sumN chunks = rows /\
    consecutive 0 rows (ranges_of 0 chunks) /\ exact_cover rows (ranges_of 0 chunks).
Proof.
  intros ff sch rows mc w auto Hr Hw Hc.
  assert (Hok : lp_ok (lp_init ff sch rows mc w auto)) by (apply lp_init_ok; auto).
  destruct (allChunks_spec ff _ Hok) as (l & H1 & H2 & H3 & _ & _).
  exists l. simpl in H2. split; [apply H1; simpl; lia|]. split; [exact H3|]. split; [exact H2|].
  pose proof (ranges_of_consecutive 0 l H3) as HC. rewrite H2, N.add_0_l in HC.
  split; [exact HC|]. apply consecutive_exact_cover. exact HC.
Qed.
Print Assumptions C01_chunks_cover_exactly.

Example C01_example : allChunks ff_ex 100 (lp_init ff_ex GSS 100 3 4 false) = Done [25; 19; 14; 11; 8; 6; 5; 3; 3; 3; 3]
  /\ 100 < 2 ^ 64 /\ 1 <= 4 /\ 1 <= 3.
Proof. vm_compute. repeat split; congruence. Qed.

(** ** C02: production ends after at most [rows] chunks, whatever the loop bound given beyond that, and every chunk but
    the last is at least the minimum chunk size. *)
Theorem C02_chunks_terminate_and_min_size : forall ff sch rows minChunk workers,
  rows < 2 ^ 64 -> 1 <= workers -> 1 <= minChunk ->
  exists chunks,
    (forall fuel, (N.to_nat rows <= fuel)%nat ->
        allChunks ff fuel (lp_init ff sch rows minChunk workers false) = Done chunks) /\
    (length chunks <= N.to_nat rows)%nat /\
    (forall before last, chunks = before ++ [last] -> Forall (fun c => minChunk <= c) before).
Proof.
  intros ff sch rows mc w Hr Hw Hc.
  assert (Hok : lp_ok (lp_init ff sch rows mc w false)) by (apply lp_init_ok; auto).
  destruct (allChunks_spec ff _ Hok) as (l & H1 & H2 & H3 & H4 & H5).
  exists l. split; [exact H1|]. split; [exact H5|].
  intros before last ->. apply Forall_forall. intros c Hin.
  destruct (In_nth_error _ _ Hin) as (i & Hi).
  assert (Hlt : (i < length before)%nat) by (apply nth_error_Some; congruence).
  apply (H4 i c).
  - rewrite nth_error_app1 by exact Hlt. exact Hi.
  - rewrite app_length. simpl. lia.
Qed.
Print Assumptions C02_chunks_terminate_and_min_size.

Example C02_example : allChunks ff_ex 100 (lp_init ff_ex MSTATIC 100 9 4 false) = Done (repeat 9 11 ++ [1]).
Proof. vm_compute. reflexivity. Qed.

(** With a minimum chunk size of 0 the property is false: fewer rows than workers under STATIC, the loop never ends,
    whatever the number of iterations allowed. *)
Theorem C02_min_size_zero_refuted : forall ff rows workers fuel,
  0 < rows -> rows < workers -> rows < 2 ^ 64 ->
  allChunks ff fuel (lp_init ff STATIC rows 0 workers false) = OutOfFuel.
Proof.
  intros ff rows w fuel H0 H1 H2.
  assert (G : forall fuel s, lp_scheme s = STATIC -> lp_total s = rows -> lp_chunkParam s = 0 -> lp_scheduled s = 0 ->
     lp_remaining s = rows -> lp_workers s = w -> allChunks ff fuel s = OutOfFuel).
  { clear fuel. induction fuel as [|f IH]; intros s E1 E2 E3 E4 E5 E6; simpl; unfold hasNextChunk; rewrite E4, E2;
      destruct (N.ltb_spec 0 rows); try lia; try reflexivity.
    unfold getNextChunk, rawChunk. rewrite E1, E2, E6. rewrite cdiv_some by lia.
    rewrite N.div_small by lia. rewrite E3, E5, E4, N.max_0_l, N.min_0_l.
    assert (U : usub64 rows 0 = rows) by (unfold usub64; destruct (N.leb_spec 0 rows); lia).
    rewrite IH; simpl; rewrite ?U; auto. }
  apply G; reflexivity.
Qed.
Print Assumptions C02_min_size_zero_refuted.

(** ** C03: the tasks in all queues together cover every row exactly once. [pre] = both distribution modes.
    The minimum task size is any integer (non-positive values are replaced by 1 in the code). *)
Theorem C03_single_queue_partition : forall ff sch rows (minTask : Z) threads,
  rows < 2 ^ 64 -> 1 <= threads ->
  exists tasks, singleQueueTasks ff (N.to_nat rows) sch rows minTask threads = Done tasks /\
                exact_cover rows tasks /\ consecutive 0 rows tasks.
Proof.
  intros ff sch rows mt thr Hr Ht. destruct (singleQueue_lemma ff sch rows mt thr Hr Ht) as (l & H1 & H2).
  exists l. split; [apply H1; lia|]. split; [apply consecutive_exact_cover; exact H2|exact H2].
Qed.
Print Assumptions C03_single_queue_partition.

Theorem C03_multi_queue_partition : forall ff pre sch rows (minTask : Z) threads numQueues,
  rows < 2 ^ 64 -> 1 <= threads -> (0 < numQueues)%nat ->
  exists queues, cpuQueuesTasks ff (N.to_nat rows) pre sch rows minTask threads numQueues = Done queues /\
                 length queues = numQueues /\ exact_cover_queues rows queues.
Proof.
  intros ff pre sch rows mt thr nq Hr Ht Hq.
  destruct (cpuQueues_lemma ff pre sch rows mt thr nq Hr Ht Hq) as (qs & H1 & H2 & H3).
  exists qs. split; [apply H1; lia|]. split; assumption.
Qed.
Print Assumptions C03_multi_queue_partition.

Example C03_example_rr : cpuQueuesTasks ff_ex 20 false TFSS 20 2 2 3 =
  Done [[(0, 5); (12, 14); (18, 20)]; [(5, 9); (14, 16)]; [(9, 12); (16, 18)]].
Proof. vm_compute. reflexivity. Qed.

Example C03_example_pre : cpuQueuesTasks ff_ex 20 true GSS 20 2 2 3 =
  Done [[(0, 4); (4, 6); (6, 8)]; [(8, 11); (11, 13); (13, 14)]; [(14, 17); (17, 19); (19, 20)]].
Proof. vm_compute. reflexivity. Qed.

(** ** C37: the STATIC scheme hands out at most 2W-1 chunks to W workers (a worker gets at most two), but not
    "one chunk per worker". *)
Lemma static_count ff : forall fuel s l, lp_ok s -> lp_scheme s = STATIC -> allChunks ff fuel s = Done l ->
  let c := N.max (lp_total s / lp_workers s) (lp_chunkParam s) in
  N.of_nat (length l) * c < lp_remaining s + c.
Proof.
  induction fuel as [|f IH]; intros s l Hok Hsch; simpl; destruct (hasNextChunk s) eqn:Hn; try discriminate.
  - intros [= <-]. simpl. destruct Hok; lia.
  - unfold getNextChunk at 1, rawChunk. rewrite Hsch, cdiv_some by (destruct Hok; assumption).
    destruct (getNextChunk_step ff s Hok Hn) as (c & s' & Hg & Hok' & Hc & Hrem & Hsched & Htot & Hp & Hw & _).
    unfold getNextChunk, rawChunk in Hg. rewrite Hsch, cdiv_some in Hg by (destruct Hok; assumption).
    injection Hg as Ec Es. rewrite Es, Ec.
    destruct (allChunks ff f s') as [l'| |] eqn:E; try discriminate. intros [= <-].
    apply IH in E; [|exact Hok'|rewrite <- Es; reflexivity].
    cbv zeta in E. rewrite Htot, Hw, Hrem in E.
    rewrite Hp in E.
    set (m := N.max (lp_total s / lp_workers s) (lp_chunkParam s)) in *.
    change (length (c :: l')) with (S (length l')). rewrite Nat2N.inj_succ.
    destruct (N.le_gt_cases (lp_remaining s) m).
    + assert (H0 : lp_remaining s - c = 0) by lia. rewrite H0 in E.
      assert (N.of_nat (length l') = 0) by nia. nia.
    + assert (c = m) by lia. nia.
  - intros [= <-]. simpl. destruct Hok; lia.
Qed.

Theorem C37_static_at_most_two_per_worker : forall ff rows workers chunks,
  rows < 2 ^ 64 -> 1 <= workers ->
  allChunks ff (N.to_nat rows) (lp_init ff STATIC rows 1 workers false) = Done chunks ->
  N.of_nat (length chunks) <= 2 * workers - 1.
Proof.
  intros ff rows w chunks Hr Hw H.
  assert (Hok : lp_ok (lp_init ff STATIC rows 1 w false)) by (apply lp_init_ok; auto; lia).
  pose proof (static_count ff _ _ _ Hok eq_refl H) as HB. cbv zeta in HB. simpl in HB.
  pose proof (N.div_mod rows w ltac:(lia)) as HD. pose proof (N.mod_lt rows w ltac:(lia)) as HM.
  set (q := rows / w) in *. set (r := rows mod w) in *. set (n := N.of_nat (length chunks)) in *.
  destruct (N.eq_dec q 0) as [E|E].
  - rewrite E in *. simpl in HB. lia.
  - rewrite N.max_l in HB by lia.
    destruct (N.le_gt_cases n (2 * w - 1)); [assumption|]. exfalso.
    assert (2 * w * q <= n * q) by nia. nia.
Qed.
Print Assumptions C37_static_at_most_two_per_worker.

Theorem C37_one_chunk_per_worker_refuted : forall ff, exists rows workers chunks,
  allChunks ff (N.to_nat rows) (lp_init ff STATIC rows 1 workers false) = Done chunks /\
  1 <= workers <= rows /\ N.of_nat (length chunks) <> workers.
Proof.
  intros ff. exists 7, 4, [1;1;1;1;1;1;1]. split; [vm_compute; reflexivity|]. split; [lia|]. vm_compute. discriminate.
Qed.
Print Assumptions C37_one_chunk_per_worker_refuted.
