(** Properties C11, C12, C13, C14: the sparse matrix class. *)
From stdpp Require Import base numbers sorting list list_numbers.
From Coq Require Import Lia.
From Verif Require Import CppBase CSRModel CSRSpec CSRProofs CSRAppendProofs.

Section props.
Context {V : Type} `{Val V}.
Implicit Types (rows : list (row V)) (hist ops : list (nat * nat * V)).

Lemma stored_insert rows i (l l' : row V) : rows !! i = Some l -> stored (<[i := l']> rows) + length l = stored rows + length l'.
Proof.
  intros Hl. destruct (split_at _ _ _ Hl) as (pre & post & -> & <-). rewrite insert_split by done.
  unfold stored. rewrite !concat_app. simpl. rewrite !app_length. lia.
Qed.
Lemma covers_h_eq b h h' rows : covers b h rows -> h_off h' = h_off h -> h_rows h' <= h_alloc h' -> h_cols h' = h_cols h ->
  h_alloc h' = h_alloc h -> h_max h' = h_max h -> covers b h' rows.
Proof. intros [] E0 ? E1 E2 E3. split; rewrite ?E0, ?E1, ?E2, ?E3 in *; auto. Qed.

(** C11. Any history of set calls: no memory error, the representation stays valid and keeps having no explicit zeros,
    every cell of the object reads as the last value written (or as before), rows of a larger matrix outside of the
    object (when it is a view) are untouched. Capacity: room for every write of the history. *)
Theorem C11_set_get_history b h rows ops :
  covers b h rows -> in_range (h_rows h) (h_cols h) ops -> stored rows + length ops <= h_max h ->
  exists b' rows', csr_sets b h ops = Ok b' /\ covers b' h rows' /\ (no_zeros rows -> no_zeros rows') /\
    (forall r c, r < h_rows h -> c < h_cols h ->
       csr_get b' h r c = Ok (after_writes (fun r c => cell rows (h_off h + r) c) ops r c)) /\
    (forall i, ~ (h_off h <= i < h_off h + h_rows h) -> rows' !! i = rows !! i).
Proof.
  revert b rows. induction ops as [|[[r c] v] ops IH]; intros b rows Hcov Hir Hcap; simpl.
  - exists b, rows. split; [done|]. split; [done|]. split; [done|]. split; [|done]. intros r c Hr Hc. by apply csr_get_spec.
  - apply Forall_cons_1 in Hir as [Hx Hir]. simpl in Hx. destruct Hx as [Hr Hc]. simpl in Hcap.
    destruct (csr_set_spec b h rows r c v Hcov Hr Hc) as (b1 & l' & -> & Hcov1 & Hcell & Hnz & Hlen); [lia|]. cbn [obind].
    assert (exists l, rows !! (h_off h + r) = Some l) as [l Hl].
    { apply lookup_lt_is_Some_2. pose proof (cov_alloc _ _ _ Hcov). pose proof (cov_in _ _ _ Hcov). lia. }
    rewrite Hl in Hlen. simpl in Hlen. pose proof (stored_insert rows _ l l' Hl) as Hst.
    destruct (IH b1 _ Hcov1 Hir) as (b2 & rows2 & -> & Hcov2 & Hnz2 & Hget & Hout); [lia|].
    exists b2, rows2. split; [done|]. split; [done|]. split; [auto|]. split.
    + intros r' c' Hr' Hc'. rewrite Hget by done. f_equal.
      assert (Hext : forall f g ops, (forall a d, f a d = g a d) -> forall a d, after_writes (V:=V) f ops a d = after_writes g ops a d).
      { clear. intros f g ops. revert f g. induction ops as [|[[r c] v] ops IH]; intros f g Hfg a d; simpl; [auto|].
        apply IH. intros. unfold upd. case_decide; auto. }
      apply Hext. intros a d. unfold upd, cell. case_decide as Hd.
      * destruct Hd as [-> ->]. rewrite list_lookup_insert by (by eapply lookup_lt_Some). rewrite Hcell, decide_True by done. done.
      * destruct (decide (a = r)) as [->|Hne].
        { rewrite list_lookup_insert by (by eapply lookup_lt_Some). rewrite Hcell, decide_False by tauto. unfold cell. done. }
        { rewrite list_lookup_insert_ne by lia. done. }
    + intros i Hi. rewrite Hout by done. rewrite list_lookup_insert_ne; [done|lia].
Qed.

Lemma offsets_replicate k n : offsets k (replicate n ([] : row V)) = replicate (n + 1) k.
Proof. revert k. induction n as [|n IH]; intros k; simpl; [done|]. f_equal. rewrite Nat.add_0_r. apply IH. Qed.
(** The hypotheses of C11 hold for a freshly created (zeroed) matrix of any shape and capacity. *)
Lemma C11_new_covers n m cap : covers (fst (csr_new (V:=V) n m cap)) (snd (csr_new (V:=V) n m cap)) (replicate n []).
Proof.
  split; simpl.
  - split; simpl; [by rewrite offsets_replicate|]. rewrite concat_replicate_nil. simpl. exists (replicate cap 0), (replicate cap vzero). by rewrite !replicate_length.
  - apply Forall_replicate. split; constructor.
  - lia.
  - by rewrite replicate_length.
  - by rewrite replicate_length.
Qed.

(** C12. The append protocol on a new matrix, whatever the arrays contained before. *)
Theorem C12_append_builds n m cap b h hist :
  csr_new_uninit n m cap b h -> 0 < n -> row_major hist -> in_range n m hist -> nonzeros hist <= cap ->
  exists b' h', csr_append_all b h hist = Ok (b', h') /\ covers b' h' (appended hist n) /\ no_zeros (appended hist n) /\
    h_off h' = 0 /\ h_rows h' = n /\ h_cols h' = m /\
    (forall r c v, (r, c, v) ∈ hist -> viszero v = false -> csr_get b' h' r c = Ok v) /\
    (forall r c, r < n -> c < m -> (forall v, (r, c, v) ∈ hist -> viszero v = true) -> csr_get b' h' r c = Ok vzero).
Proof.
  intros (Hv & Hc & Hr & ->) Hn Hrm Hir Hcap.
  destruct (append_all_gen b (mkH 0 n m n false cap 0) [] (broff b) (bcols b) (bvals b) hist) as (b' & h' & E & (rest & Hro) & Hx & Hl & Hvl & ->); simpl; try done; try lia.
  simpl in Hro.
  assert (Hlen : length (appended hist n) = n) by (unfold appended; rewrite fmap_length, seq_length; done).
  assert (rest = []) as ->.
  { assert (length (broff b') = n + 1) by lia. rewrite Hro, app_length, offsets_length, Hlen in H0. destruct rest; [done|simpl in H0; lia]. }
  rewrite app_nil_r in Hro.
  assert (Hcov : covers b' (mkH 0 n m n false cap (n - 1)) (appended hist n)).
  { split; simpl.
    - split; [done|]. simpl in Hx. done.
    - apply Forall_lookup_2. intros i l Hl'. unfold appended in Hl'. rewrite list_lookup_fmap in Hl'.
      destruct (seq 0 n !! i); [|done]. simpl in Hl'. injection Hl' as <-. by eapply entries_for_ok.
    - done.
    - lia.
    - lia. }
  exists b', (mkH 0 n m n false cap (n - 1)). split; [done|]. split; [done|].
  split.
  { apply Forall_lookup_2. intros i l Hl'. unfold appended in Hl'. rewrite list_lookup_fmap in Hl'.
    destruct (seq 0 n !! i); [|done]. simpl in Hl'. injection Hl' as <-. apply entries_for_nz. }
  split; [done|]. split; [done|]. split; [done|]. split.
  - intros r c v Hin Hz. assert (r < n /\ c < m) as [? ?].
    { unfold in_range in Hir. rewrite Forall_forall in Hir. apply (Hir _ Hin). }
    erewrite csr_get_spec by (simpl; eauto). simpl. f_equal. unfold cell. rewrite appended_lookup by done. by apply entries_for_cell_in.
  - intros r c Hr' Hc' Hno. erewrite csr_get_spec by (simpl; eauto). simpl. f_equal. unfold cell. rewrite appended_lookup by done. by apply entries_for_cell_out.
Qed.

(** C12 for a view on rows [h_off h ..) of a larger matrix that has been populated up to just before the view. *)
Theorem C12_append_builds_view b h pre restro restc restv hist :
  h_before h = true -> length pre = h_off h -> 0 < h_rows h -> h_off h + h_rows h + 1 <= length (broff b) ->
  broff b = offsets 0 pre ++ restro ->
  bcols b = (concat pre).*1 ++ restc -> bvals b = (concat pre).*2 ++ restv -> length restc = length restv ->
  row_major hist -> in_range (h_rows h) (h_cols h) hist -> nonzeros hist <= length restv ->
  exists b' h', csr_append_all b h hist = Ok (b', h') /\
    exists restro' restc' restv', broff b' = offsets 0 (pre ++ appended hist (h_rows h)) ++ restro' /\
      bcols b' = (concat (pre ++ appended hist (h_rows h))).*1 ++ restc' /\
      bvals b' = (concat (pre ++ appended hist (h_rows h))).*2 ++ restv' /\ length restc' = length restv'.
Proof.
  intros Hb Hp Hr Hl Hro Hc Hv Hrl Hrm Hir Hcap.
  destruct (append_all_gen b h pre restro restc restv hist) as (b' & h' & E & (rest & Hro') & (rc & rv & Hx) & _); auto; [congruence|].
  exists b', h'. split; [done|]. exists rest, rc, rv. split; [done|]. done.
Qed.

(** A matrix without rows cannot be built by the append protocol: the protocol writes out of bounds. *)
Theorem C12_empty_matrix_refuted m cap b h hist :
  csr_new_uninit (V:=V) 0 m cap b h -> csr_append_all b h hist = UB.
Proof.
  intros (Hv & Hc & Hr & ->). unfold csr_append_all, csr_prepareAppend. simpl. unfold wr.
  rewrite decide_True by lia. cbn [obind]. rewrite decide_False by (rewrite insert_length; lia). done.
Qed.

(** C13. Row views: accepted exactly for non-empty ranges inside the matrix; they show the selected rows. *)
Theorem C13_view_shows_rows b h rows rl ru :
  covers b h rows ->
  (rl < ru /\ ru <= h_rows h ->
   exists h', csr_view h rl ru = Ok h' /\ covers b h' rows /\ h_rows h' = ru - rl /\ h_cols h' = h_cols h /\
     (forall r c, r < ru - rl -> c < h_cols h -> csr_get b h' r c = csr_get b h (rl + r) c) /\
     (forall r, r < ru - rl -> csr_row_nnz b h' r = csr_row_nnz b h (rl + r)) /\
     csr_nnz b h' = Ok (stored (take (ru - rl) (drop (h_off h + rl) rows)))) /\
  (~ (rl < ru /\ ru <= h_rows h) -> csr_view h rl ru = Throw).
Proof.
  intros Hcov. pose proof Hcov as [Hst Hok Hin Hal Hmax]. split.
  - intros [H1 H2]. unfold csr_view. rewrite !decide_False by lia. eexists. split; [done|].
    match goal with |- covers b ?x rows /\ _ => set (h' := x) end.
    assert (Hcov' : covers b h' rows) by (split; simpl; auto; lia).
    split; [done|]. split; [done|]. split; [done|]. split; [|split].
    + intros r c Hr Hc. rewrite (csr_get_spec b h' rows) by (simpl; done || lia). rewrite (csr_get_spec b h rows) by (auto; lia).
      simpl. by rewrite Nat.add_assoc.
    + intros r Hr. unfold csr_row_nnz. simpl. rewrite !decide_False by lia. unfold roff. simpl. rewrite !Nat.add_assoc. done.
    + unfold csr_nnz, roff. simpl. destruct Hst as [-> _].
      rewrite (rd_Ok _ _ (0 + length (concat (take (h_off h + rl + (ru - rl)) rows)))) by (apply offsets_lookup; lia). cbn [obind].
      rewrite (rd_Ok _ _ (0 + length (concat (take (h_off h + rl + 0) rows)))) by (apply offsets_lookup; lia). cbn [obind].
      f_equal. rewrite Nat.add_0_r. simpl. unfold stored.
      rewrite <- (take_drop (h_off h + rl) (take (h_off h + rl + (ru - rl)) rows)).
      rewrite take_take, Nat.min_l by lia. rewrite skipn_firstn_comm. replace (h_off h + rl + (ru - rl) - (h_off h + rl)) with (ru - rl) by lia.
      rewrite concat_app, app_length. lia.
  - intros Hn. unfold csr_view. destruct (decide (h_rows h <= rl)); [done|]. destruct (decide (h_rows h < ru)); [done|]. rewrite decide_True by lia. done.
Qed.

Lemma forn_shift {St} n lo k (f : nat -> St -> outcome St) s : forn n (lo + k) f s = forn n lo (fun i => f (i + k)) s.
Proof. revert lo s. induction n as [|n IH]; intros lo s; simpl; [done|]. destruct (f (lo + k) s); simpl; [|done|done]. apply (IH (S lo)). Qed.

(** Writing through a view is writing to the selected row of the original. *)
Theorem C13_view_set_is_set b h rl ru r c v h' :
  csr_view h rl ru = Ok h' -> h_rows h <= h_alloc h -> r < ru - rl -> csr_set (V:=V) b h' r c v = csr_set b h (rl + r) c v.
Proof.
  unfold csr_view. intros Hv Hin Hr.
  destruct (decide (h_rows h <= rl)); [done|]. destruct (decide (h_rows h < ru)); [done|]. destruct (decide (ru <= rl)); [done|]. injection Hv as <-.
  unfold csr_set. simpl. unfold roff. simpl.
  rewrite decide_False by lia. rewrite (decide_False (P := h_rows h <= rl + r)) by lia.
  rewrite !Nat.add_assoc. replace (h_off h + rl + (h_alloc h - rl)) with (h_off h + h_alloc h) by lia.
  case_decide; [done|].
  assert (Hloop : forall (g : nat -> nat) ro,
    for_up (r + 1) (h_alloc h - rl + 1) (fun i ro => let* x := rd ro (h_off h + rl + i) in wr ro (h_off h + rl + i) (g x)) ro =
    for_up (rl + r + 1) (h_alloc h + 1) (fun i ro => let* x := rd ro (h_off h + i) in wr ro (h_off h + i) (g x)) ro).
  { intros g ro. unfold for_up. replace (rl + r + 1) with (r + 1 + rl) by lia. rewrite (forn_shift _ (r + 1) rl).
    replace (h_alloc h + 1 - (r + 1 + rl)) with (h_alloc h - rl + 1 - (r + 1)) by lia.
    apply forn_ext. intros i s _. replace (h_off h + rl + i) with (h_off h + (i + rl)) by lia. done. }
  pose proof (Hloop (fun x => x + 1)) as Hl1. pose proof (Hloop (fun x => x - 1)) as Hl2. simpl in Hl1, Hl2.
  destruct (rd (broff b) (h_off h + rl + r)); cbn [obind]; [|done|done].
  destruct (rd (broff b) (h_off h + rl + r + 1)); cbn [obind]; [|done|done].
  destruct (lower_bound _ _ _ _ _); cbn [obind]; [|done|done].
  destruct (rd (broff b) (h_off h + h_alloc h)); cbn [obind]; [|done|done].
  match goal with |- obind ?m _ = _ => destruct m as [[]| |]; cbn [obind]; [| |done|done] end.
  - destruct (viszero v); [done|]. 
    repeat (match goal with |- obind ?m _ = _ => destruct m; cbn [obind]; [|done|done] end || rewrite Hl1). done.
  - destruct (viszero v); [|done].
    repeat (match goal with |- obind ?m _ = _ => destruct m; cbn [obind]; [|done|done] end || rewrite Hl2). done.
Qed.
End props.

(** C14. Equality of sparse matrices. *)
Section eq.
Context {V : Type} `{Val V} `{EqDecision V}.
Implicit Types (rows : list (row V)).

Definition veq_bytes (l1 l2 : list V) : bool := bool_decide (l1 = l2).

(** Contents determine the stored rows when there are no explicit zeros. *)
Lemma cell_in_head n k v (l : row V) : row_ok n ((k, v) :: l) -> forall c, c < k -> cell_in c ((k, v) :: l) = vzero.
Proof.
  intros [Hs _] c Hc. apply cell_in_lt. simpl in *. apply StronglySorted_inv in Hs as [_ Hs]. constructor; [done|].
  eapply Forall_impl; [exact Hs|]. simpl. lia.
Qed.
Lemma row_canonical n (l1 l2 : row V) : viszero vzero = true -> row_ok n l1 -> row_ok n l2 ->
  Forall (fun e => viszero (snd e) = false) l1 -> Forall (fun e => viszero (snd e) = false) l2 ->
  (forall c, c < n -> cell_in c l1 = cell_in c l2) -> l1 = l2.
Proof.
  intros Hz0. revert l2. induction l1 as [|[k1 v1] l1 IH]; intros l2 Ho1 Ho2 Hz1 Hz2 He.
  - destruct l2 as [|[k2 v2] l2]; [done|]. exfalso. destruct Ho2 as [_ Hn]. simpl in Hn. inversion Hn; subst. inversion Hz2; subst.
    specialize (He k2). simpl in He. rewrite decide_True in He by done. simpl in *. rewrite <- He in H4 by done. congruence.
  - destruct l2 as [|[k2 v2] l2].
    { exfalso. destruct Ho1 as [_ Hn]. simpl in Hn. inversion Hn; subst. inversion Hz1; subst.
      specialize (He k1). simpl in He. rewrite decide_True in He by done. simpl in *. rewrite He in H4 by done. congruence. }
    assert (k1 < n /\ k2 < n) as [Hk1 Hk2].
    { destruct Ho1 as [_ Hn1], Ho2 as [_ Hn2]. simpl in Hn1, Hn2. inversion Hn1; inversion Hn2; subst. done. }
    pose proof (Forall_inv Hz1) as Hv1. pose proof (Forall_inv Hz2) as Hv2. simpl in Hv1, Hv2.
    assert (k1 = k2) as ->.
    { destruct (Nat.lt_total k1 k2) as [Hlt|[?|Hlt]]; [|done|]; exfalso.
      - pose proof (He k1 Hk1) as E. rewrite (cell_in_head n k2 v2 l2 Ho2 k1 Hlt) in E. simpl in E. rewrite decide_True in E by done. congruence.
      - pose proof (He k2 Hk2) as E. rewrite (cell_in_head n k1 v1 l1 Ho1 k2 Hlt) in E. simpl in E. rewrite decide_True in E by done. congruence. }
    assert (v1 = v2) as ->.
    { pose proof (He k2 Hk2) as E. simpl in E. rewrite !decide_True in E by done. done. }
    f_equal. destruct Ho1 as [Hs1 Hn1], Ho2 as [Hs2 Hn2]. simpl in *.
    apply StronglySorted_inv in Hs1 as [Hs1 Hf1]. apply StronglySorted_inv in Hs2 as [Hs2 Hf2]. inversion Hn1; inversion Hn2; subst.
    apply IH; try (by split); try (by eapply Forall_inv_tail).
    intros c Hc. destruct (decide (c = k2)) as [->|Hne].
    + rewrite !cell_in_lt; done.
    + specialize (He c Hc). rewrite !decide_False in He by congruence. done.
Qed.

Definition view_rows (h : csrh) rows : list (row V) := take (h_rows h) (drop (h_off h) rows).

Lemma eq_unfold b1 h1 rows1 : covers b1 h1 rows1 ->
  roff b1 h1 0 = Ok (stored (take (h_off h1) rows1)) /\
  roff b1 h1 (h_rows h1) = Ok (stored (take (h_off h1) rows1) + stored (view_rows h1 rows1)) /\
  take (stored (view_rows h1 rows1)) (drop (stored (take (h_off h1) rows1)) (bvals b1)) = (concat (view_rows h1 rows1)).*2 /\
  take (stored (view_rows h1 rows1)) (drop (stored (take (h_off h1) rows1)) (bcols b1)) = (concat (view_rows h1 rows1)).*1.
Proof.
  intros [Hst Hok Hin Hal Hmax]. destruct Hst as (Hro & rc & rv & Hc & Hv & _). unfold roff, stored, view_rows.
  assert (Hsp : rows1 = take (h_off h1) rows1 ++ take (h_rows h1) (drop (h_off h1) rows1) ++ drop (h_rows h1) (drop (h_off h1) rows1)).
  { rewrite take_drop, take_drop. done. }
  assert (Hx : concat rows1 = concat (take (h_off h1) rows1) ++ concat (take (h_rows h1) (drop (h_off h1) rows1)) ++ concat (drop (h_rows h1) (drop (h_off h1) rows1))).
  { rewrite Hsp at 1. by rewrite !concat_app. }
  split; [|split; [|split]].
  - apply rd_Ok. rewrite Hro, Nat.add_0_r. rewrite offsets_lookup by lia. done.
  - apply rd_Ok. rewrite Hro. rewrite offsets_lookup by lia. simpl. f_equal.
    rewrite <- (take_drop (h_off h1) (take (h_off h1 + h_rows h1) rows1)). rewrite take_take, Nat.min_l by lia.
    rewrite skipn_firstn_comm. replace (h_off h1 + h_rows h1 - h_off h1) with (h_rows h1) by lia. by rewrite concat_app, app_length.
  - rewrite Hv, Hx, !fmap_app, <- !app_assoc. rewrite drop_app_alt by (by rewrite fmap_length). by rewrite take_app_alt by (by rewrite fmap_length).
  - rewrite Hc, Hx, !fmap_app, <- !app_assoc. rewrite drop_app_alt by (by rewrite fmap_length). by rewrite take_app_alt by (by rewrite fmap_length).
Qed.

Lemma csr_eq_spec b1 h1 rows1 b2 h2 rows2 : covers b1 h1 rows1 -> covers b2 h2 rows2 ->
  csr_eq veq_bytes b1 h1 b2 h2 = Ok (bool_decide (h_rows h1 = h_rows h2 /\ h_cols h1 = h_cols h2 /\
     concat (view_rows h1 rows1) = concat (view_rows h2 rows2))).
Proof.
  intros Hc1 Hc2. destruct (eq_unfold _ _ _ Hc1) as (E1 & E2 & E3 & E4). destruct (eq_unfold _ _ _ Hc2) as (F1 & F2 & F3 & F4).
  unfold csr_eq. case_decide as Hsh.
  { f_equal. symmetry. apply bool_decide_eq_false_2. tauto. }
  assert (Hre : h_rows h1 = h_rows h2) by (destruct (decide (h_rows h1 = h_rows h2)); tauto).
  assert (Hce : h_cols h1 = h_cols h2) by (destruct (decide (h_cols h1 = h_cols h2)); tauto).
  rewrite E1, E2. cbn [obind]. rewrite Hre, F1, F2. cbn [obind].
  replace (stored (take (h_off h1) rows1) + stored (view_rows h1 rows1) - stored (take (h_off h1) rows1)) with (stored (view_rows h1 rows1)) by lia.
  replace (stored (take (h_off h2) rows2) + stored (view_rows h2 rows2) - stored (take (h_off h2) rows2)) with (stored (view_rows h2 rows2)) by lia.
  case_decide as Hn.
  { f_equal. symmetry. apply bool_decide_eq_false_2. intros (_ & _ & E). apply Hn. unfold stored. by rewrite E. }
  rewrite E3, E4. rewrite Hn, F3, F4.
  unfold veq_bytes. destruct (decide ((concat (view_rows h1 rows1)).*2 = (concat (view_rows h2 rows2)).*2)) as [Ev|Ev].
  2:{ rewrite (bool_decide_eq_false_2 _ Ev). simpl. f_equal. symmetry. apply bool_decide_eq_false_2. intros (_ & _ & E). apply Ev. by rewrite E. }
  rewrite (bool_decide_eq_true_2 _ Ev). simpl. case_decide as Ec.
  { f_equal. symmetry. apply bool_decide_eq_false_2. intros (_ & _ & E). apply Ec. by rewrite E. }
  f_equal. symmetry. apply bool_decide_eq_true_2. split; [done|]. split; [done|].
  rewrite <- (zip_fst_snd (concat (view_rows h1 rows1))), <- (zip_fst_snd (concat (view_rows h2 rows2))).
  unfold zip in *. by rewrite Ev, Ec.
Qed.

Lemma concat_same_lengths rows1 rows2 : length <$> rows1 = length <$> rows2 -> concat rows1 = concat rows2 -> rows1 = rows2.
Proof.
  revert rows2. induction rows1 as [|l1 rows1 IH]; intros [|l2 rows2] Hl Hc; simpl in *; try done.
  injection Hl as Hl1 Hl2. apply app_inj_1 in Hc as [-> Hc]; [|done]. f_equal. by apply IH.
Qed.

(** Equal contents always compare equal (no explicit zeros). *)
Theorem C14_same_contents_compare_equal b1 h1 rows1 b2 h2 rows2 :
  viszero (vzero : V) = true -> covers b1 h1 rows1 -> covers b2 h2 rows2 -> no_zeros rows1 -> no_zeros rows2 ->
  h_rows h1 = h_rows h2 -> h_cols h1 = h_cols h2 ->
  (forall r c, r < h_rows h1 -> c < h_cols h1 -> csr_get b1 h1 r c = csr_get b2 h2 r c) ->
  csr_eq veq_bytes b1 h1 b2 h2 = Ok true.
Proof.
  intros Hz0 Hc1 Hc2 Hz1 Hz2 Hre Hce Heq. rewrite (csr_eq_spec _ _ rows1 _ _ rows2) by done. f_equal. apply bool_decide_eq_true_2.
  split; [done|]. split; [done|]. f_equal. unfold view_rows. rewrite <- Hre. apply list_eq. intros r.
  destruct (decide (r < h_rows h1)) as [Hr|Hr]; [|rewrite !lookup_take_ge by lia; done].
  rewrite !lookup_take, !lookup_drop by lia.
  destruct (lookup_lt_is_Some_2 rows1 (h_off h1 + r)) as [l1 Hl1]. { pose proof (cov_alloc _ _ _ Hc1). pose proof (cov_in _ _ _ Hc1). lia. }
  destruct (lookup_lt_is_Some_2 rows2 (h_off h2 + r)) as [l2 Hl2]. { pose proof (cov_alloc _ _ _ Hc2). pose proof (cov_in _ _ _ Hc2). lia. }
  rewrite Hl1, Hl2. f_equal. apply (row_canonical (h_cols h1)); auto.
  - exact (Forall_lookup_1 _ _ _ _ (cov_rows _ _ _ Hc1) Hl1).
  - rewrite Hce. exact (Forall_lookup_1 _ _ _ _ (cov_rows _ _ _ Hc2) Hl2).
  - exact (Forall_lookup_1 _ _ _ _ Hz1 Hl1).
  - exact (Forall_lookup_1 _ _ _ _ Hz2 Hl2).
  - intros c Hc. specialize (Heq r c Hr Hc). rewrite (csr_get_spec _ _ rows1), (csr_get_spec _ _ rows2) in Heq by (auto; lia).
    injection Heq as Heq. unfold cell in Heq. by rewrite Hl1, Hl2 in Heq.
Qed.

(** Comparing equal means equal contents, provided the two matrices have the same number of stored entries in every row. *)
Theorem C14_compare_equal_sound_if_row_counts_agree b1 h1 rows1 b2 h2 rows2 :
  covers b1 h1 rows1 -> covers b2 h2 rows2 ->
  (forall r, r < h_rows h1 -> csr_row_nnz b1 h1 r = csr_row_nnz b2 h2 r) ->
  csr_eq veq_bytes b1 h1 b2 h2 = Ok true ->
  h_rows h1 = h_rows h2 /\ h_cols h1 = h_cols h2 /\
  forall r c, r < h_rows h1 -> c < h_cols h1 -> csr_get b1 h1 r c = csr_get b2 h2 r c.
Proof.
  intros Hc1 Hc2 Hnnz. rewrite (csr_eq_spec _ _ rows1 _ _ rows2) by done. intros E. injection E as E. apply bool_decide_eq_true in E as (Hre & Hce & Hcon).
  split; [done|]. split; [done|].
  assert (Hrn : forall b h rows r l, covers b h rows -> r < h_rows h -> rows !! (h_off h + r) = Some l -> csr_row_nnz (V:=V) b h r = Ok (length l)).
  { clear. intros b h rows r l Hc Hr Hl. unfold csr_row_nnz. rewrite decide_False by lia.
    destruct (split_at _ _ _ Hl) as (pre & post & -> & Hp).
    destruct (find_row b h pre l post r 0 (h_cols h) (cov_stores _ _ _ Hc) Hp) as (-> & -> & _).
    { exact (Forall_lookup_1 _ _ _ _ (cov_rows _ _ _ Hc) Hl). }
    cbn [obind]. f_equal. lia. }
  assert (Hrows : view_rows h1 rows1 = view_rows h2 rows2).
  { apply concat_same_lengths; [|done]. unfold view_rows. rewrite <- Hre. apply list_eq. intros r. rewrite !list_lookup_fmap.
    destruct (decide (r < h_rows h1)) as [Hr|Hr]; [|rewrite !lookup_take_ge by lia; done].
    rewrite !lookup_take, !lookup_drop by lia.
    destruct (lookup_lt_is_Some_2 rows1 (h_off h1 + r)) as [l1 Hl1]. { pose proof (cov_alloc _ _ _ Hc1). pose proof (cov_in _ _ _ Hc1). lia. }
    destruct (lookup_lt_is_Some_2 rows2 (h_off h2 + r)) as [l2 Hl2]. { pose proof (cov_alloc _ _ _ Hc2). pose proof (cov_in _ _ _ Hc2). lia. }
    rewrite Hl1, Hl2. specialize (Hnnz r Hr). rewrite (Hrn _ _ _ _ _ Hc1 Hr Hl1), (Hrn b2 h2 rows2 r l2 Hc2 (eq_ind _ (fun x => r < x) Hr _ Hre) Hl2) in Hnnz. simpl. congruence. }
  intros r c Hr Hc. rewrite (csr_get_spec _ _ rows1), (csr_get_spec _ _ rows2) by (auto; lia). f_equal. unfold cell.
  assert (E : view_rows h1 rows1 !! r = view_rows h2 rows2 !! r) by (by rewrite Hrows).
  unfold view_rows in E. rewrite !lookup_take, !lookup_drop in E by lia. by rewrite E.
Qed.
End eq.

(** Concrete cases: hypotheses are met, and the refutations. *)
Open Scope Z_scope.

(** Setting a cell of a full matrix back to zero reads past the end of the arrays (CSRMatrix.h 293-296), although the
    capacity is never exceeded; and inserting into a full matrix writes past the end. *)
Theorem C11_full_matrix_refuted :
  exists b h, csr_new 1 1 1 = (b, h) /\ csr_sets b h [(0%nat, 0%nat, 5)] <> UB /\
    csr_sets b h [(0%nat, 0%nat, 5); (0%nat, 0%nat, 0)] = UB /\
    csr_sets (fst (csr_new 1 2 1)) (snd (csr_new (V:=Z) 1 2 1)) [(0%nat, 0%nat, 5); (0%nat, 1%nat, 6)] = UB.
Proof. eexists _, _. split; [reflexivity|]. vm_compute. repeat split; congruence. Qed.

Definition ex_ops : list (nat * nat * Z) := 
  [(1%nat, 2%nat, 7); (0%nat, 1%nat, 3); (1%nat, 0%nat, 4); (1%nat, 2%nat, 0); (2%nat, 2%nat, -1); (0%nat, 1%nat, 8)].
Example C11_example :
  exists b', csr_sets (fst (csr_new 3 3 10)) (snd (csr_new (V:=Z) 3 3 10)) ex_ops = Ok b' /\
    csr_get b' (snd (csr_new (V:=Z) 3 3 10)) 0 1 = Ok 8 /\ csr_get b' (snd (csr_new (V:=Z) 3 3 10)) 1 2 = Ok 0 /\
    csr_get b' (snd (csr_new (V:=Z) 3 3 10)) 1 0 = Ok 4 /\
    in_range 3 3 ex_ops /\ (stored (replicate 3 ([] : row Z)) + length ex_ops <= 10)%nat.
Proof. eexists. split; [vm_compute; reflexivity|]. repeat split; try (vm_compute; reflexivity); [repeat constructor|simpl; lia]. Qed.

Definition ex_hist : list (nat * nat * Z) := [(0%nat, 1%nat, 3); (0%nat, 2%nat, 0); (2%nat, 0%nat, 5); (2%nat, 2%nat, -4)].
Example C12_example :
  row_major ex_hist /\ in_range 4 3 ex_hist /\ (nonzeros ex_hist <= 3)%nat /\
  exists b h, csr_new_uninit 4 3 3 b h /\ b = mkBuf [9; 9; 9] [7; 7; 7]%nat [8; 8; 8; 8; 8]%nat /\
    exists b' h', csr_append_all b h ex_hist = Ok (b', h') /\ b' = mkBuf [3; 5; -4] [1; 0; 2]%nat [0; 1; 1; 3; 3]%nat.
Proof.
  split; [repeat constructor; lia|]. split; [repeat constructor; lia|]. split; [vm_compute; lia|].
  exists (mkBuf [9; 9; 9] [7; 7; 7]%nat [8; 8; 8; 8; 8]%nat), (mkH 0 4 3 4 false 3 0).
  split; [split; [|split; [|split]]; reflexivity|]. split; [reflexivity|].
  eexists _, _. split; vm_compute; reflexivity.
Qed.

(** A view of a view that starts at the first row of a view that does not: the class believes that no rows are
    allocated before it (isRowAllocatedBefore is computed from the inner bound only), so it is not recognised as a
    view and appending through it overwrites the row offsets as if it started at position 0. The base matrix loses
    the entry of its row 0. *)
Theorem C13_nested_view_refuted :
  exists b h rows v1 v2,
    covers b h rows /\ csr_view h 1 2 = Ok v1 /\ csr_view v1 0 1 = Ok v2 /\ csr_isView v1 = true /\ csr_isView v2 = false /\
    csr_get b h 0 0 = Ok 5 /\ csr_get b v2 0 0 = csr_get b h 1 0 /\
    exists b' h', csr_append_all b v2 [(0%nat, 0%nat, 7)] = Ok (b', h') /\ csr_get b' h 0 0 = Ok 0.
Proof.
  exists (mkBuf [5; 0] [0; 0]%nat [0; 1; 1]%nat), (mkH 0 2 1 2 false 2 0), [[(0%nat, 5)]; []].
  eexists _, _. split.
  { split; simpl; [|repeat constructor; simpl; lia|lia|lia|lia]. split; [reflexivity|]. exists [0%nat], [0]. done. }
  split; [reflexivity|]. split; [reflexivity|]. split; [reflexivity|]. split; [reflexivity|].
  split; [vm_compute; reflexivity|]. split; [vm_compute; reflexivity|].
  eexists _, _. split; vm_compute; reflexivity.
Qed.

(** Equality ignores to which rows the entries belong. *)
Theorem C14_compare_equal_refuted :
  exists (b1 b2 : csrbuf Z) h1 h2 rows1 rows2,
    covers b1 h1 rows1 /\ covers b2 h2 rows2 /\ no_zeros rows1 /\ no_zeros rows2 /\
    csr_eq veq_bytes b1 h1 b2 h2 = Ok true /\ csr_get b1 h1 0 0 = Ok 5 /\ csr_get b2 h2 0 0 = Ok 0.
Proof.
  exists (mkBuf [5] [0]%nat [0; 1; 1]%nat), (mkBuf [5] [0]%nat [0; 0; 1]%nat), (mkH 0 2 2 2 false 1 1), (mkH 0 2 2 2 false 1 1),
    [[(0%nat, 5)]; []], [[]; [(0%nat, 5)]].
  split; [split; simpl; [split; [reflexivity|by exists [], []]|repeat constructor; simpl; lia|lia|lia|lia]|].
  split; [split; simpl; [split; [reflexivity|by exists [], []]|repeat constructor; simpl; lia|lia|lia|lia]|].
  split; [repeat constructor|]. split; [repeat constructor|]. repeat split; vm_compute; reflexivity.
Qed.

Print Assumptions C11_set_get_history.
Print Assumptions C11_full_matrix_refuted.
Print Assumptions C12_append_builds.
Print Assumptions C12_append_builds_view.
Print Assumptions C12_empty_matrix_refuted.
Print Assumptions C13_view_shows_rows.
Print Assumptions C13_view_set_is_set.
Print Assumptions C13_nested_view_refuted.
Print Assumptions C14_same_contents_compare_equal.
Print Assumptions C14_compare_equal_sound_if_row_counts_agree.
Print Assumptions C14_compare_equal_refuted.
