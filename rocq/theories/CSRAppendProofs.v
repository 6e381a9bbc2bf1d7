(** Lemmas on the append protocol of the CSR model. *)
From stdpp Require Import base list list_numbers sorting.
From Coq Require Import Lia.
From Verif Require Import CppBase CSRModel CSRSpec CSRProofs.

Section ap.
Context {V : Type} `{Val V}.
Implicit Types (rows pre post : list (row V)) (l : row V) (hist : list (nat * nat * V)).

(** A whole call sequence: CSRMatrix.h 307-337. *)
Fixpoint csr_appends (b : csrbuf V) (h : csrh) hist : outcome (csrbuf V * csrh) :=
  match hist with
  | [] => Ok (b, h)
  | (r, c, v) :: hist' => let* (b', h') := csr_append b h r c v in csr_appends b' h' hist'
  end.
Definition csr_append_all (b : csrbuf V) (h : csrh) hist : outcome (csrbuf V * csrh) :=
  let* (b1, h1) := csr_prepareAppend b h in
  let* (b2, h2) := csr_appends b1 h1 hist in
  csr_finishAppend b2 h2.

Lemma offsets_snoc k rows l : offsets k (rows ++ [l]) = offsets k rows ++ [k + length (concat rows) + length l].
Proof.
  revert k. induction rows as [|l' rows IH]; intros k; simpl; [by rewrite Nat.add_0_r|].
  rewrite IH. rewrite app_length. do 3 f_equal. lia.
Qed.
Lemma write_range_n (x : nat) off n lo (A B : list nat) :
  length A = off + lo -> n <= length B ->
  forn n lo (fun i ro => wr ro (off + i) x) (A ++ B) = Ok (A ++ replicate n x ++ drop n B).
Proof.
  revert lo A B. induction n as [|n IH]; intros lo A B HA HB; simpl; [done|].
  destruct B as [|y B]; simpl in HB; [lia|].
  rewrite wr_Ok by (rewrite app_length; simpl; lia). cbn [obind].
  rewrite insert_app_r_alt by lia. replace (off + lo - length A) with 0 by lia. simpl.
  specialize (IH (S lo) (A ++ [x]) B). rewrite <- !app_assoc in IH. simpl in IH. rewrite IH; [done|rewrite app_length; simpl; lia|lia].
Qed.

Lemma offsets_app_empty k rows n : offsets k (rows ++ replicate n []) = offsets k rows ++ replicate n (k + length (concat rows)).
Proof.
  induction n as [|n IH]; simpl; [by rewrite !app_nil_r|].
  assert (E : forall A (x : A) n, x :: replicate n x = replicate n x ++ [x]).
  { intros A x m. induction m; simpl; [done|]. by f_equal. }
  rewrite (E _ ([] : row V) n), (E _ (k + _) n), app_assoc, offsets_snoc.
  rewrite IH, <- app_assoc. rewrite concat_app.
  assert (Hc : concat (replicate n ([] : row V)) = []) by (clear; induction n; auto). rewrite Hc, app_nil_r. simpl. by rewrite Nat.add_0_r.
Qed.

(** Invariant between append calls: [pre] are the rows before the view, [hist] the calls so far. *)
Record ainv (b : csrbuf V) (h : csrh) pre hist : Prop := mkAinv {
  ai_pre : length pre = h_off h;
  ai_roff : exists rest, broff b = offsets 0 (pre ++ appended hist (h_last h + 1)) ++ rest;
  ai_len : h_off h + h_rows h + 1 <= length (broff b);
  ai_last : h_last h < h_rows h;
  ai_hist : Forall (fun e => viszero (snd e) = true \/ fst (fst e) <= h_last h) hist;
  ai_vals : exists restc restv,
    bcols b = (concat (pre ++ appended hist (h_last h + 1))).*1 ++ restc /\
    bvals b = (concat (pre ++ appended hist (h_last h + 1))).*2 ++ restv /\ length restc = length restv
}.

Lemma entries_for_nil r hist : Forall (fun e => viszero (snd e) = true \/ fst (fst e) <> r) hist -> entries_for r hist = [].
Proof.
  induction hist as [|[[r' c] v] hist IH]; intros Hf; [done|]. inversion Hf; subst. unfold entries_for in *. simpl in *.
  rewrite decide_False by (destruct H2; intuition congruence). auto.
Qed.
Lemma appended_more hist n m : Forall (fun e => viszero (snd e) = true \/ fst (fst e) < n) hist ->
  appended hist (n + m) = appended hist n ++ replicate m [].
Proof.
  intros Hf. unfold appended. rewrite seq_app, fmap_app. f_equal. simpl.
  assert (Hg : forall k, n <= k -> (fun r => entries_for r hist) <$> seq k m = replicate m []).
  { induction m as [|m IH]; intros k Hk; simpl; [done|]. f_equal; [|apply IH; lia].
    apply entries_for_nil. eapply Forall_impl; [exact Hf|]. simpl. intros ? [|]; [auto|]. right. lia. }
  by apply Hg.
Qed.
Lemma concat_replicate_nil n : concat (replicate n ([] : row V)) = [].
Proof. induction n; auto. Qed.

Lemma ai_next b h pre hist : ainv b h pre hist ->
  roff b h (h_last h + 1) = Ok (length (concat (pre ++ appended hist (h_last h + 1)))).
Proof.
  intros [Hp (rest & Hr) Hl Hlast Hh Hv]. unfold roff. apply rd_Ok. rewrite Hr.
  assert (Hlen : length (pre ++ appended hist (h_last h + 1)) = h_off h + (h_last h + 1)).
  { rewrite app_length. unfold appended. rewrite fmap_length, seq_length. lia. }
  rewrite lookup_app_l by (rewrite offsets_length; lia).
  rewrite offsets_lookup by lia. by rewrite take_ge by lia.
Qed.

Lemma fill_spec b h pre hist r : ainv b h pre hist -> r < h_rows h -> h_last h <= r ->
  exists ro, csr_fillNextPosUntil (broff b) h (length (concat (pre ++ appended hist (h_last h + 1)))) r = Ok (ro, r) /\
    length ro = length (broff b) /\
    ainv (mkBuf (bvals b) (bcols b) ro) (mkH (h_off h) (h_rows h) (h_cols h) (h_alloc h) (h_before h) (h_max h) r) pre hist.
Proof.
  intros [Hp (rest & Hr) Hl Hlast Hh Hv] Hrr Hle. unfold csr_fillNextPosUntil. case_decide as Hd.
  2:{ exists (broff b). assert (h_last h = r) as <- by lia. split; [done|]. split; [done|]. split; simpl; eauto. }
  unfold for_up.
  assert (Hlen : length (pre ++ appended hist (h_last h + 1)) = h_off h + (h_last h + 1)).
  { rewrite app_length. unfold appended. rewrite fmap_length, seq_length. lia. }
  rewrite Hr. rewrite Hr in Hl. rewrite app_length, offsets_length in Hl.
  rewrite write_range_n; [|rewrite offsets_length; lia|lia]. cbn [obind].
  assert (Happ : appended hist (r + 1) = appended hist (h_last h + 1) ++ replicate (r - h_last h) []).
  { replace (r + 1) with (h_last h + 1 + (r - h_last h)) by lia. apply appended_more.
    eapply Forall_impl; [exact Hh|]. simpl. intros ? [|]; [auto|]. right. lia. }
  replace (r + 2 - (h_last h + 2)) with (r - h_last h) by lia.
  eexists. split; [done|]. split; [|split; simpl].
  - rewrite !app_length, replicate_length, drop_length, offsets_length. lia.
  - done.
  - exists (drop (r - h_last h) rest). rewrite Happ. rewrite (app_assoc pre). rewrite offsets_app_empty. rewrite <- app_assoc. done.
  - rewrite !app_length, replicate_length, drop_length, offsets_length. lia.
  - done.
  - eapply Forall_impl; [exact Hh|]. simpl. intros ? [|]; [auto|]. right. lia.
  - rewrite Happ, (app_assoc pre), concat_app, concat_replicate_nil, app_nil_r. done.
Qed.

Lemma entries_for_snoc r hist r' c v :
  entries_for r (hist ++ [(r', c, v)]) = entries_for r hist ++ (if decide (r' = r /\ viszero v = false) then [(c, v)] else []).
Proof. unfold entries_for. rewrite omap_app. f_equal. simpl. by case_decide. Qed.

Lemma append_spec b h pre hist r c v :
  ainv b h pre hist -> r < h_rows h -> c < h_cols h -> (viszero v = true \/ h_last h <= r) ->
  (viszero v = true \/ length (concat (pre ++ appended hist (h_last h + 1))) < length (bvals b)) ->
  exists b' h', csr_append b h r c v = Ok (b', h') /\ ainv b' h' pre (hist ++ [(r, c, v)]) /\
    h_off h' = h_off h /\ h_rows h' = h_rows h /\ h_cols h' = h_cols h /\ h_alloc h' = h_alloc h /\ h_max h' = h_max h /\ h_before h' = h_before h /\
    length (broff b') = length (broff b) /\ length (bvals b') = length (bvals b) /\ h_last h <= h_last h' /\ (h_last h' = h_last h \/ h_last h' = r) /\
    length (concat (pre ++ appended (hist ++ [(r, c, v)]) (h_last h' + 1))) =
      length (concat (pre ++ appended hist (h_last h + 1))) + (if viszero v then 0 else 1).
Proof.
  intros Hai Hr Hc Hord Hcap. unfold csr_append. rewrite !decide_False by lia. destruct (viszero v) eqn:Ez.
  - assert (E : appended (hist ++ [(r, c, v)]) (h_last h + 1) = appended hist (h_last h + 1)).
    { unfold appended. apply list_fmap_ext. intros i x _. rewrite entries_for_snoc. rewrite decide_False by (intros []; congruence). by rewrite app_nil_r. }
    exists b, h. split; [done|]. split; [|rewrite E; repeat split; auto; lia].
    destruct Hai as [Hp (rest & Hro) Hl Hlast Hh (rc & rv & Hv)].
    split; auto.
    + rewrite E. eauto.
    + apply Forall_app; split; [done|]. constructor; [|done]. auto.
    + rewrite E. eauto.
  - destruct Hord as [?|Hord]; [done|]. destruct Hcap as [?|Hcap]; [done|].
    rewrite (ai_next _ _ _ _ Hai). cbn [obind].
    assert (Hmore : forall k, h_last h <= k -> concat (pre ++ appended hist (k + 1)) = concat (pre ++ appended hist (h_last h + 1))).
    { intros k Hk. replace (k + 1) with (h_last h + 1 + (k - h_last h)) by lia. rewrite appended_more.
      - by rewrite (app_assoc pre), concat_app, concat_replicate_nil, app_nil_r.
      - eapply Forall_impl; [exact (ai_hist _ _ _ _ Hai)|]. simpl. intros ? [|]; [auto|]. right. lia. }
    destruct (fill_spec b h pre hist r Hai Hr Hord) as (ro & -> & Hrol & Hai'). cbn [obind].
    pose proof (ai_next _ _ _ _ Hai') as Hnx. simpl in Hnx. unfold roff in Hnx. simpl in Hnx. apply rd_inv in Hnx.
    pose proof (Hmore r Hord) as Em. rewrite Em in *.
    assert (Hcl : length (bcols b) = length (bvals b)).
    { destruct Hai as [_ _ _ _ _ (rc & rv & -> & -> & E)]. rewrite !app_length, !fmap_length. lia. }
    rewrite wr_Ok by done. cbn [obind]. rewrite wr_Ok by lia. cbn [obind].
    rewrite (rd_Ok _ _ _ Hnx). cbn [obind]. rewrite wr_Ok by (eapply lookup_lt_Some; eauto). cbn [obind].
    eexists _, _. split; [done|].
    assert (Eold : appended hist (r + 1) = appended hist r ++ [entries_for r hist]).
    { unfold appended. rewrite seq_app, fmap_app. simpl. done. }
    assert (Enew : appended (hist ++ [(r, c, v)]) (r + 1) = appended hist r ++ [entries_for r hist ++ [(c, v)]]).
    { unfold appended. rewrite seq_app, fmap_app. simpl. rewrite entries_for_snoc. rewrite decide_True by done. f_equal.
      apply list_fmap_ext. intros i x Hx. apply lookup_seq in Hx. rewrite entries_for_snoc. rewrite decide_False by lia. by rewrite app_nil_r. }
    assert (Econ : concat (pre ++ appended (hist ++ [(r, c, v)]) (r + 1)) = concat (pre ++ appended hist (h_last h + 1)) ++ [(c, v)]).
    { rewrite <- Em, Enew, Eold. rewrite !(app_assoc pre), !concat_app. simpl. rewrite !app_nil_r, <- !app_assoc. done. }
    split; [|simpl; rewrite !insert_length, Econ, app_length; repeat split; auto; lia].
    destruct Hai' as [Hp (rest & Hro) Hl Hlast Hh (rc & rv & Hc' & Hv' & Hrl)]. simpl in *.
    split; simpl; auto.
    + exists rest. rewrite Hro. rewrite Enew, Eold. rewrite !(app_assoc pre), !offsets_snoc.
      assert (El : length (pre ++ appended hist r) = h_off h + r).
      { rewrite app_length. unfold appended. rewrite fmap_length, seq_length. lia. }
      rewrite <- app_assoc. rewrite insert_app_r_alt by (rewrite offsets_length; lia).
      rewrite offsets_length. replace (h_off h + (r + 1) - (length (pre ++ appended hist r) + 1)) with 0 by lia. simpl.
      rewrite <- app_assoc. simpl. do 2 f_equal.
      rewrite <- Em, Eold, (app_assoc pre), concat_app. simpl. rewrite app_nil_r, !app_length. simpl. lia.
    + by rewrite insert_length.
    + apply Forall_app; split; [done|]. constructor; [|done]. simpl. right. lia.
    + rewrite Econ. 
      rewrite Em in Hc', Hv'.
      assert (exists vx rv', rv = vx :: rv') as (vx & rv' & ->).
      { destruct rv; [|eauto]. rewrite Hv', app_nil_r, fmap_length in Hcap. lia. }
      destruct rc as [|cx rc']; [done|]. simpl in Hrl. injection Hrl as Hrl.
      exists rc', rv'. rewrite Hc', Hv'. rewrite !fmap_app. simpl.
      rewrite !insert_app_r_alt by (rewrite fmap_length; lia). rewrite !fmap_length, Nat.sub_diag. simpl. rewrite <- !app_assoc. done.
Qed.

Lemma prepare_spec b h pre restro restc restv :
  length pre = h_off h -> 0 < h_rows h -> h_off h + h_rows h + 1 <= length (broff b) ->
  (h_before h = false -> h_off h = 0) ->
  (h_before h = true -> broff b = offsets 0 pre ++ restro) ->
  bcols b = (concat pre).*1 ++ restc -> bvals b = (concat pre).*2 ++ restv -> length restc = length restv ->
  exists b' h', csr_prepareAppend b h = Ok (b', h') /\ ainv b' h' pre [] /\
    h_last h' = 0 /\ h_off h' = h_off h /\ h_rows h' = h_rows h /\ h_cols h' = h_cols h /\ h_alloc h' = h_alloc h /\ h_max h' = h_max h /\ h_before h' = h_before h /\
    length (broff b') = length (broff b) /\ bvals b' = bvals b /\
    concat (pre ++ appended [] (h_last h' + 1)) = concat pre.
Proof.
  intros Hp Hr Hl Hbf Hbt Hc Hv Hrl. unfold csr_prepareAppend.
  assert (Econ : concat (pre ++ [[]]) = concat pre) by (rewrite concat_app; simpl; by rewrite app_nil_r).
  assert (exists ro, (if h_before h then let* x := roff b h 0 in wr (broff b) (h_off h + 1) x
              else let* ro := wr (broff b) (h_off h + 0) 0 in wr ro (h_off h + 1) 0) = Ok ro /\
            length ro = length (broff b) /\ exists rest, ro = offsets 0 (pre ++ [[]]) ++ rest) as (ro & -> & Hrol & Hro).
  { rewrite offsets_snoc. simpl. rewrite !Nat.add_0_r. destruct (h_before h).
    - specialize (Hbt eq_refl). unfold roff.
      rewrite (rd_Ok _ _ (length (concat pre))).
      2:{ rewrite Hbt, lookup_app_l by (rewrite offsets_length; lia). rewrite offsets_lookup by lia. rewrite take_ge by lia. done. }
      cbn [obind]. rewrite wr_Ok by lia. eexists. split; [done|]. rewrite insert_length. split; [done|].
      rewrite Hbt in Hl |- *. rewrite app_length, offsets_length in Hl. destruct restro as [|y rest]; [simpl in Hl; lia|].
      exists rest. rewrite insert_app_r_alt by (rewrite offsets_length; lia). rewrite offsets_length.
      replace (h_off h + 1 - (length pre + 1)) with 0 by lia. simpl. rewrite <- app_assoc. done.
    - specialize (Hbf eq_refl). rewrite Hbf in *. destruct pre; [|done]. simpl in *.
      destruct (broff b) as [|a [|a' rest]]; simpl in Hl; [lia|lia|].
      rewrite wr_Ok by (simpl; lia). cbn [obind]. simpl. rewrite wr_Ok by (simpl; lia). eexists. split; [done|]. split; [done|].
      exists rest. done. }
  cbn [obind]. eexists _, _. split; [done|]. simpl. split; [|repeat split; auto].
  split; simpl; auto.
  - lia.
  - change (appended [] 1) with [[] : row V]. rewrite Econ. eauto.
Qed.

Lemma finish_spec b h pre hist :
  ainv b h pre hist ->
  exists b' h', csr_finishAppend b h = Ok (b', h') /\
    (exists rest, broff b' = offsets 0 (pre ++ appended hist (h_rows h)) ++ rest) /\
    (exists restc restv, bcols b' = (concat (pre ++ appended hist (h_rows h))).*1 ++ restc /\
       bvals b' = (concat (pre ++ appended hist (h_rows h))).*2 ++ restv /\ length restc = length restv) /\
    length (broff b') = length (broff b) /\ bvals b' = bvals b /\
    h' = mkH (h_off h) (h_rows h) (h_cols h) (h_alloc h) (h_before h) (h_max h) (h_rows h - 1).
Proof.
  intros Hai. pose proof (ai_last _ _ _ _ Hai). unfold csr_finishAppend. rewrite (ai_next _ _ _ _ Hai). cbn [obind].
  rewrite decide_False by lia.
  destruct (fill_spec b h pre hist (h_rows h - 1) Hai) as (ro & -> & Hrol & Hai'); [lia|lia|]. cbn [obind].
  destruct Hai' as [Hp (rest & Hro) Hl Hlast Hh Hv]. simpl in *. replace (h_rows h - 1 + 1) with (h_rows h) in * by lia.
  eexists _, _. split; [done|]. simpl. repeat split; eauto.
Qed.

Lemma appends_spec hist2 : forall b h pre hist1,
  ainv b h pre hist1 -> row_major hist2 -> in_range (h_rows h) (h_cols h) hist2 ->
  Forall (fun e => h_last h <= fst (fst e)) hist2 ->
  length (concat (pre ++ appended hist1 (h_last h + 1))) + nonzeros hist2 <= length (bvals b) ->
  exists b' h', csr_appends b h hist2 = Ok (b', h') /\ ainv b' h' pre (hist1 ++ hist2) /\
    h_off h' = h_off h /\ h_rows h' = h_rows h /\ h_cols h' = h_cols h /\ h_alloc h' = h_alloc h /\ h_max h' = h_max h /\ h_before h' = h_before h /\
    length (broff b') = length (broff b) /\ length (bvals b') = length (bvals b).
Proof.
  induction hist2 as [|[[r c] v] hist2 IH]; intros b h pre hist1 Hai Hrm Hir Hle Hcap; simpl.
  - exists b, h. rewrite app_nil_r. split; [done|]. split; [done|]. repeat split; auto.
  - apply StronglySorted_inv in Hrm as [Hrm Hfirst]. apply Forall_cons in Hir as [Hx0 Hir']; simpl in Hx0; destruct Hx0 as [Hr Hc]. inversion Hle as [|? ? Hl0 Hle']; subst.
    assert (Hnz : nonzeros ((r, c, v) :: hist2) = (if viszero v then 0 else 1) + nonzeros hist2).
    { unfold nonzeros. rewrite filter_cons. simpl. destruct (viszero v) eqn:Ez; [rewrite decide_False by done; done|rewrite decide_True by done; done]. }
    rewrite Hnz in Hcap. simpl in Hl0.
    destruct (append_spec b h pre hist1 r c v Hai Hr Hc) as (b1 & h1 & -> & Hai1 & Ho & Hro & Hco & Hal & Hmx & Hbf & Hbl & Hvl & Hm & Hlast & Hlen).
    { auto. } { destruct (viszero v); [auto|]. right. lia. }
    cbn [obind].
    destruct (IH b1 h1 pre (hist1 ++ [(r, c, v)])) as (b2 & h2 & E & Hai2 & Hx); auto.
    + rewrite Hro, Hco. done.
    + destruct Hlast as [->| ->]; [done|]. eapply Forall_impl; [exact Hfirst|]. simpl. intros [[r' c'] v']. simpl. lia.
    + rewrite Hlen, Hvl. lia.
    + exists b2, h2. split; [done|]. rewrite <- app_assoc in Hai2. split; [done|]. destruct Hx as (?&?&?&?&?&?&?&?).
      repeat split; congruence.
Qed.

Lemma entries_for_ok hist n m r : row_major hist -> in_range n m hist -> row_ok m (entries_for r hist).
Proof.
  intros Hrm Hir. split.
  - induction hist as [|[[r' c] v] hist IH]; [constructor|]. apply StronglySorted_inv in Hrm as [Hrm Hfirst].
    apply Forall_cons in Hir as [Hx0 Hir']; simpl in Hx0; destruct Hx0 as [Hr Hc]. specialize (IH Hrm Hir'). unfold entries_for in *. simpl. case_decide as Hd; [|done].
    destruct Hd as [-> Hz]. simpl. constructor; [done|]. 
    clear IH Hir' Hrm. induction hist as [|[[r'' c'] v'] hist IH]; simpl; [constructor|].
    inversion Hfirst as [|? ? Hf1 Hf2]; subst. case_decide as Hd; [|auto]. simpl. constructor; [lia|auto].
  - induction hist as [|[[r' c] v] hist IH]; [constructor|]. apply StronglySorted_inv in Hrm as [Hrm Hfirst].
    apply Forall_cons in Hir as [Hx0 Hir']; simpl in Hx0; destruct Hx0 as [Hr Hc]. specialize (IH Hrm Hir'). unfold entries_for in *. simpl. case_decide as Hd; [|done].
    simpl. by constructor.
Qed.
Lemma entries_for_nz hist r : Forall (fun e => viszero (snd e) = false) (entries_for r hist).
Proof.
  induction hist as [|[[r' c] v] hist IH]; [constructor|]. unfold entries_for in *. simpl. case_decide as Hd; [|done]. constructor; [|done]. simpl. tauto.
Qed.
Lemma appended_lookup hist n r : r < n -> appended hist n !! r = Some (entries_for r hist).
Proof. intros Hr. unfold appended. rewrite list_lookup_fmap, lookup_seq_lt by lia. done. Qed.
Lemma entries_for_cell_in hist r c v :
  row_major hist -> (r, c, v) ∈ hist -> viszero v = false -> cell_in c (entries_for r hist) = v.
Proof.
  induction hist as [|[[r' c'] v'] hist IH]; intros Hrm Hin Hz; [by apply elem_of_nil in Hin|].
  apply StronglySorted_inv in Hrm as [Hrm Hfirst]. apply elem_of_cons in Hin as [E|Hin].
  - injection E as <- <- <-. unfold entries_for. simpl. rewrite decide_True by done. simpl. by rewrite decide_True.
  - specialize (IH Hrm Hin Hz). unfold entries_for in *. simpl. case_decide as Hd; [|done]. destruct Hd as [-> Hz']. simpl.
    rewrite Forall_forall in Hfirst. specialize (Hfirst _ Hin). simpl in Hfirst. rewrite decide_False by lia. done.
Qed.
Lemma entries_for_cell_out hist r c : (forall v, (r, c, v) ∈ hist -> viszero v = true) -> cell_in c (entries_for r hist) = vzero.
Proof.
  induction hist as [|[[r' c'] v'] hist IH]; intros Hno; [done|]. unfold entries_for in *. simpl.
  assert (IH' := IH ltac:(intros v Hv; apply Hno; by apply elem_of_list_further)).
  case_decide as Hd; [|done]. destruct Hd as [-> Hz]. simpl. case_decide as Hc; [|done]. subst.
  specialize (Hno v' ltac:(by apply elem_of_list_here)). congruence.
Qed.

(** The whole protocol on a view or a whole matrix. *)
Lemma append_all_gen b h pre restro restc restv hist :
  length pre = h_off h -> 0 < h_rows h -> h_off h + h_rows h + 1 <= length (broff b) ->
  (h_before h = false -> h_off h = 0) ->
  (h_before h = true -> broff b = offsets 0 pre ++ restro) ->
  bcols b = (concat pre).*1 ++ restc -> bvals b = (concat pre).*2 ++ restv -> length restc = length restv ->
  row_major hist -> in_range (h_rows h) (h_cols h) hist -> nonzeros hist <= length restv ->
  exists b' h', csr_append_all b h hist = Ok (b', h') /\
    (exists rest, broff b' = offsets 0 (pre ++ appended hist (h_rows h)) ++ rest) /\
    (exists restc restv, bcols b' = (concat (pre ++ appended hist (h_rows h))).*1 ++ restc /\
       bvals b' = (concat (pre ++ appended hist (h_rows h))).*2 ++ restv /\ length restc = length restv) /\
    length (broff b') = length (broff b) /\ length (bvals b') = length (bvals b) /\
    h' = mkH (h_off h) (h_rows h) (h_cols h) (h_alloc h) (h_before h) (h_max h) (h_rows h - 1).
Proof.
  intros Hp Hr Hl Hbf Hbt Hc Hv Hrl Hrm Hir Hcap. unfold csr_append_all.
  destruct (prepare_spec b h pre restro restc restv Hp Hr Hl Hbf Hbt Hc Hv Hrl) as (b1 & h1 & -> & Hai & Hlast & Ho & Hro & Hco & Hal & Hmx & Hb & Hbl & Hbv & Hcon).
  cbn [obind].
  destruct (appends_spec hist b1 h1 pre [] Hai Hrm) as (b2 & h2 & -> & Hai2 & Ho2 & Hro2 & Hco2 & Hal2 & Hmx2 & Hb2 & Hbl2 & Hvl2).
  { by rewrite Hro, Hco. } { apply Forall_forall. intros. rewrite Hlast. lia. }
  { rewrite Hcon, Hbv, Hv, app_length, fmap_length. lia. }
  cbn [obind]. simpl in Hai2.
  destruct (finish_spec b2 h2 pre hist Hai2) as (b3 & h3 & -> & Hro3 & Hx3 & Hbl3 & Hv3 & ->).
  rewrite Hro2, Hro in *. eexists _, _. split; [done|]. split; [done|]. split; [done|]. repeat split; congruence.
Qed.
End ap.
