(** The transpose kernels: the counting sort of the sparse one, the dense one. *)
From stdpp Require Import base numbers sorting list list_numbers.
From Coq Require Import Lia.
From Verif Require Import CppBase Mem ListUtil CSRModel CSRSpec CSRProofs CSRView PipelineModel PipelineSpec PipelineProofs PipelineAgg SinkModel SinkSpec SinkProofs SparseLoops TransposeModel.

Lemma tr_dense_spec {V} isview junk (a : dmat V) n m x : is_dense a n m x -> (isview = false -> m_skip a = m) -> m_off a <= length (m_buf a) -> length junk = n * m ->
  exists a', tr_dense isview junk a = Ok a' /\ is_dense a' m n (fun r c => x c r) /\ m_skip a' = n.
Proof.
  intros Hd Hv Hoff Hj. pose proof Hd as (Hn & Hm & Hs & Hb & Hx). unfold tr_dense. rewrite Hn, Hm.
  destruct (bool_decide (n = 1 \/ m = 1) && negb isview) eqn:E.
  - apply andb_true_iff in E as [E1%bool_decide_eq_true E2]. destruct isview; [done|]. specialize (Hv eq_refl). rewrite Hv in *. eexists. split; [done|]. split; [|done].
    unfold is_dense. cbn [m_rows m_cols m_skip m_off m_buf]. split; [done|]. split; [done|]. split; [done|].
    destruct E1 as [->| ->].
    + split; [destruct m; [by left|right; lia]|]. intros r c Hr Hc. assert (c = 0) by lia. subst c. rewrite <- (Hx 0 r) by lia. f_equal. lia.
    + split; [right; lia|]. intros r c Hr Hc. assert (r = 0) by lia. subst r. rewrite <- (Hx c 0) by lia. f_equal. lia.
  - destruct (for2_inv (fun r c b' => length b' = n * m /\ forall r' c', r' < n -> c' < m -> r' < r \/ (r' = r /\ c' < c) -> b' !! (c' * n + r') = Some (x r' c'))
      n m (fun r c b => let* v := dm_at a r c in wr b (r + c * n) v) junk) as (b' & -> & Hl & Hc).
    + split; [done|]. lia.
    + intros r c s Hr Hc [Hl H]. rewrite (dm_at_Ok a n m x) by done. cbn [obind]. assert (Hlt : r + c * n < n * m) by (pose proof (pos_lt m n c r Hc Hr); lia).
      rewrite wr_Ok by (by rewrite Hl). eexists. split; [done|]. rewrite insert_length. split; [done|]. intros r' c' Hr' Hc' Hlt'.
      destruct (decide (r' = r /\ c' = c)) as [[-> ->]|Hne].
      * rewrite (Nat.add_comm r). apply list_lookup_insert. lia.
      * rewrite list_lookup_insert_ne; [apply H; [done|done|lia]|]. intros Eq. rewrite (Nat.add_comm r) in Eq. apply pos_inj in Eq; [|done|done]. lia.
    + intros r s Hr [Hl H]. split; [done|]. intros r' c' Hr' Hc' Hlt'. apply H; [done|done|lia].
    + cbn [obind]. eexists. split; [done|]. split; [|done]. apply tabulated_is_dense. split; [lia|]. intros r c Hr Hcc. apply Hc; [done|done|]. by left.
Qed.

Section csr.
Context {V : Type} `{Val V}.

(** The entries of column [c] among a list of entries. *)
Definition tcol (T : list (nat * nat * V)) (c : nat) : row V := omap (fun t => if decide (t.1.2 = c) then Some (t.1.1, t.2) else None) T.
Lemma tcol_app T T' c : tcol (T ++ T') c = tcol T c ++ tcol T' c.
Proof. apply omap_app. Qed.
Lemma tcol_snoc T r c v c' : tcol (T ++ [(r, c, v)]) c' = if decide (c' = c) then tcol T c ++ [(r, v)] else tcol T c'.
Proof.
  rewrite tcol_app. unfold tcol at 2. cbn [omap list_omap fst snd]. destruct (decide (c' = c)) as [->|Hn]; [by rewrite decide_True by done|].
  rewrite decide_False by done. cbn. by rewrite app_nil_r.
Qed.
Lemma tcol_prefix T pre x post c : T = pre ++ x :: post -> tcol (pre ++ [x]) c `prefix_of` tcol T c.
Proof. intros ->. exists (tcol post c). rewrite <- tcol_app, <- app_assoc. done. Qed.

(** Transposed rows. *)
Definition transposed (m : nat) (rs : list (row V)) : list (row V) := tcol (triples rs) <$> seq 0 m.
Lemma tcol_row k (l : row V) c : StronglySorted lt l.*1 -> tcol ((fun e => (k, fst e, snd e)) <$> l) c = match find_col c l with Some v => [(k, v)] | None => [] end.
Proof.
  induction l as [|[c' v] l IH]; [done|]. rewrite !fmap_cons. intros [Hs Hf]%StronglySorted_inv. specialize (IH Hs).
  unfold tcol in *. cbn [omap list_omap fst snd find_col]. destruct (decide (c' = c)) as [->|Hn]; [|done]. f_equal.
  rewrite (proj2 (find_col_None c l)) in IH; [done|]. intros Hin. rewrite Forall_forall in Hf. specialize (Hf _ Hin). simpl in Hf. lia.
Qed.
Lemma tcol_triples m rs c : Forall (row_ok m) rs -> tcol (triples rs) c = ents (colG rs) 0 (length rs) c.
Proof.
  intros Hok. unfold triples.
  assert (Hx : forall k, tcol (triples_from k rs) c = ents (fun c r => colG rs c (r - k)) k (k + length rs) c).
  { induction Hok as [|l rs [Hl _] Hok IH]; intros k.
    - cbn [length]. by rewrite Nat.add_0_r, ents_nil.
    - rewrite triples_cons, tcol_app, tcol_row, IH by done. cbn [length]. rewrite (ents_app _ k (S k)) by lia. f_equal.
      + unfold ents. replace (S k - k) with 1 by lia. cbn [seq omap list_omap]. unfold colG. rewrite Nat.sub_diag. cbn [lookup list_lookup]. by destruct (find_col c l).
      + replace (k + S (length rs)) with (S k + length rs) by lia. apply ents_ext. intros r Hr. unfold colG. replace (r - k) with (S (r - S k)) by lia. done. }
  rewrite (Hx 0). apply ents_ext. intros r Hr. by rewrite Nat.sub_0_r.
Qed.
Lemma transposed_rows_ok m rs : Forall (row_ok m) rs -> Forall (row_ok (length rs)) (transposed m rs).
Proof. intros Hok. apply Forall_fmap, Forall_forall. intros c _. cbn. rewrite (tcol_triples m) by done. apply ents_ok. Qed.
Lemma transposed_length m rs : length (transposed m rs) = m.
Proof. unfold transposed. by rewrite fmap_length, seq_length. Qed.
Lemma transposed_find m rs c r : Forall (row_ok m) rs -> colG (transposed m rs) r c = if decide (c < m) then colG rs c r else None.
Proof.
  intros Hok. unfold colG at 1, transposed. destruct (decide (c < m)) as [Hc|Hc].
  - rewrite lookup_fseq by done. rewrite (tcol_triples m), find_col_ents by done. destruct (decide (0 <= r < length rs)); [done|].
    unfold colG. by rewrite lookup_ge_None_2 by lia.
  - by rewrite lookup_ge_None_2 by (rewrite fmap_length, seq_length; lia).
Qed.
Lemma transposed_twice m rs : Forall (row_ok m) rs -> transposed (length rs) (transposed m rs) = rs.
Proof.
  intros Hok. pose proof (transposed_rows_ok m rs Hok) as Hok'. apply list_eq. intros r. destruct (decide (r < length rs)) as [Hr|Hr].
  - destruct (lookup_lt_is_Some_2 rs r Hr) as [l Hl]. rewrite Hl. unfold transposed at 1. rewrite lookup_fseq by done. f_equal.
    rewrite Forall_lookup in Hok. apply (row_ext m); [|by eapply Hok|].
    + rewrite (tcol_triples (length rs)) by done. rewrite transposed_length. apply ents_ok.
    + intros c Hc. rewrite (tcol_triples (length rs)), transposed_length, find_col_ents by done. rewrite decide_True by lia.
      rewrite transposed_find by (by apply Forall_lookup). rewrite decide_True by done. unfold colG. by rewrite Hl.
  - rewrite !lookup_ge_None_2; [done|lia|rewrite transposed_length; lia].
Qed.
Lemma transposed_cell m rs r c : Forall (row_ok m) rs -> c < m -> cell (transposed m rs) c r = cell rs r c.
Proof.
  intros Hok Hc. pose proof (transposed_find m rs c r Hok) as Hf. rewrite decide_True in Hf by done. unfold colG in Hf. unfold cell.
  destruct (lookup_lt_is_Some_2 (transposed m rs) c) as [l Hl]; [by rewrite transposed_length|]. rewrite Hl in *.
  rewrite cell_in_find, Hf. destruct (rs !! r); [by rewrite cell_in_find|done].
Qed.
Lemma transposed_elem m rs r c v l lt : Forall (row_ok m) rs -> rs !! r = Some l -> transposed m rs !! c = Some lt -> (r, v) ∈ lt <-> (c, v) ∈ l.
Proof.
  intros Hok Hl Hlt. pose proof (transposed_rows_ok m rs Hok) as Hok'. assert (Hc : c < m) by (apply lookup_lt_Some in Hlt; by rewrite transposed_length in Hlt).
  pose proof (transposed_find m rs c r Hok) as Hf. rewrite decide_True in Hf by done. unfold colG in Hf. rewrite Hl, Hlt in Hf.
  rewrite Forall_lookup in Hok, Hok'. destruct (Hok _ _ Hl) as [Hs _]. destruct (Hok' _ _ Hlt) as [Hs' _].
  split; intros Hin.
  - apply find_col_elem in Hin; [|done]. rewrite Hf in Hin. by apply find_col_Some.
  - apply find_col_elem in Hin; [|done]. rewrite Hin in Hf. by apply find_col_Some.
Qed.

Lemma triples_cols m rs k : Forall (row_ok m) rs -> Forall (fun t : nat * nat * V => t.1.2 < m) (triples_from k rs).
Proof.
  intros Hok. revert k. induction Hok as [|l rs [_ Hl] Hok IH]; intros k; [constructor|]. rewrite triples_cons. apply Forall_app. split; [|done].
  apply Forall_fmap. rewrite Forall_fmap in Hl. eapply Forall_impl; [exact Hl|]. done.
Qed.
Lemma stored_tcols m (T : list (nat * nat * V)) : Forall (fun t => t.1.2 < m) T -> stored (tcol T <$> seq 0 m) = length T.
Proof.
  intros Hf. rewrite stored_fseq. induction Hf as [|[[r c] v] T Hc Hf IH].
  - induction (seq 0 m) as [|? ? IH]; [done|]. cbn [sumw]. by rewrite IH.
  - cbn [length fst snd] in *. rewrite <- IH. clear IH. transitivity (sumw (fun x => (if decide (x = c) then 1 else 0) + length (tcol T x)) (seq 0 m)).
    { apply sumw_ext_in. intros x _. unfold tcol. cbn [omap list_omap fst snd]. destruct (decide (c = x)) as [->|Hn]; [by rewrite decide_True|by rewrite decide_False by congruence]. }
    assert (Hx : forall q, NoDup q -> c ∈ q -> sumw (fun x => (if decide (x = c) then 1 else 0) + length (tcol T x)) q = S (sumw (fun x => length (tcol T x)) q)).
    { induction q as [|x q IH]; [by intros _ ?%elem_of_nil|]. intros [Hx Hq]%NoDup_cons Hin. cbn [sumw]. apply elem_of_cons in Hin as [->|Hin].
      - rewrite decide_True by done. cbn [plus]. do 2 f_equal. apply sumw_ext_in. intros y Hy. rewrite decide_False; [done|]. intros ->. done.
      - rewrite IH by done. destruct (decide (x = c)) as [->|]; [done|]. lia. }
    apply Hx; [apply NoDup_seq|]. apply elem_of_seq. lia.
Qed.

Lemma zero_fill (ro : list nat) m : length ro = m + 1 -> exists z, for_up 0 m (fun i ro => wr ro i 0) ro = Ok (replicate m 0 ++ [z]).
Proof.
  intros Hl. destruct (lookup_lt_is_Some_2 ro m) as [z Hz]; [lia|].
  destruct (for_up_inv (fun i b => length b = m + 1 /\ (forall j, j < i -> b !! j = Some 0) /\ b !! m = Some z) 0 m (fun i ro => wr ro i 0) ro) as (b & E & Hb & H1 & H2).
  - lia.
  - split; [done|]. split; [lia|done].
  - intros i b Hi (Hb & H1 & H2). rewrite wr_Ok by lia. eexists. split; [done|]. rewrite insert_length. split; [done|]. split.
    + intros j Hj. destruct (decide (j = i)) as [->|]; [apply list_lookup_insert; lia|]. rewrite list_lookup_insert_ne by done. apply H1. lia.
    + rewrite list_lookup_insert_ne by lia. done.
  - exists z. rewrite E. f_equal. apply list_eq. intros j. destruct (decide (j < m)) as [Hj|Hj].
    + rewrite lookup_app_l by (by rewrite replicate_length). rewrite lookup_replicate_2 by done. by apply H1.
    + rewrite lookup_app_r by (rewrite replicate_length; lia). rewrite replicate_length. destruct (decide (j = m)) as [->|]; [by rewrite Nat.sub_diag|].
      rewrite !lookup_ge_None_2; [done|simpl; lia|lia].
Qed.
Lemma tr_count_spec b h base rs z : csr_reads b h base rs ->
  tr_count b h (replicate (h_cols h) 0 ++ [z]) = Ok (((fun c => length (tcol (triples rs) c)) <$> seq 0 (h_cols h)) ++ [z]).
Proof.
  intros HR. unfold tr_count. set (m := h_cols h).
  rewrite (entries_loop b h base rs _ (fun t ro => let* x := rd ro t.1.2 in wr ro t.1.2 (x + 1))) by (done || (intros r j c v t _ Hc _ _; by rewrite (rd_Ok _ _ _ Hc))).
  destruct (ofold_inv (fun pre ro => ro = ((fun c => length (tcol pre c)) <$> seq 0 m) ++ [z]) (fun t ro => let* x := rd ro t.1.2 in wr ro t.1.2 (x + 1)) (triples rs) (replicate m 0 ++ [z])) as (ro & -> & ->); [| |done].
  - f_equal. apply list_eq. intros j. destruct (decide (j < m)) as [Hj|Hj]; [by rewrite lookup_fseq, lookup_replicate_2|].
    rewrite !lookup_ge_None_2; [done|rewrite fmap_length, seq_length; lia|rewrite replicate_length; lia].
  - intros pre [[r c] v] post ro E ->. cbn [fst snd]. assert (Hc : c < m).
    { pose proof (triples_cols m rs 0 (rd_ok _ _ _ _ HR)) as Hf. fold (triples rs) in Hf. rewrite E in Hf. apply Forall_app in Hf as [_ [Hf _]%Forall_cons]. done. }
    rewrite (rd_Ok _ c (length (tcol pre c))) by (rewrite lookup_app_l by (by rewrite fmap_length, seq_length); by apply (lookup_fseq (fun c => length (tcol pre c)))). cbn [obind].
    rewrite wr_Ok by (rewrite app_length, fmap_length, seq_length; simpl; lia). eexists. split; [reflexivity|].
    rewrite insert_app_l by (by rewrite fmap_length, seq_length). rewrite insert_fseq. f_equal. apply fseq_ext. intros c' _. rewrite tcol_snoc.
    destruct (decide (c' = c)) as [->|]; [|done]. by rewrite app_length.
Qed.
Lemma tr_cumsum_spec (F : nat -> row V) m z :
  tr_cumsum m (((fun c => length (F c)) <$> seq 0 m) ++ [z]) = Ok (((fun c => stored (take c (F <$> seq 0 m))) <$> seq 0 m) ++ [z], stored (F <$> seq 0 m)).
Proof.
  unfold tr_cumsum. set (rows := F <$> seq 0 m).
  destruct (for_up_inv (fun i st => st = (((fun c => if decide (c < i) then stored (take c rows) else length (F c)) <$> seq 0 m) ++ [z], stored (take i rows))) 0 m
    (fun col st => let '(ro, cumsum) := st in let* tmp := rd ro col in let* ro := wr ro col cumsum in Ok (ro, cumsum + tmp)) (((fun c => length (F c)) <$> seq 0 m) ++ [z], 0)) as (st & -> & ->).
  - lia.
  - f_equal.
  - intros i st Hi ->. rewrite (rd_Ok _ i (length (F i))). 2:{ rewrite lookup_app_l by (rewrite fmap_length, seq_length; lia). rewrite lookup_fseq by lia. by rewrite decide_False by lia. }
    cbn [obind]. rewrite wr_Ok by (rewrite app_length, fmap_length, seq_length; lia). cbn [obind]. eexists. split; [reflexivity|]. f_equal.
    + rewrite insert_app_l by (rewrite fmap_length, seq_length; lia). rewrite insert_fseq. f_equal. apply fseq_ext. intros c Hc.
      destruct (decide (c = i)) as [->|]; [by rewrite decide_True by lia|]. destruct (decide (c < i)); [by rewrite decide_True by lia|by rewrite decide_False by lia].
    + change (1 + i) with (S i). rewrite (stored_take_S _ _ (F i)); [done|]. apply lookup_fseq. lia.
  - f_equal. f_equal; [|by rewrite take_ge by (unfold rows; rewrite fmap_length, seq_length; lia)]. f_equal. apply fseq_ext. intros c Hc. by rewrite decide_True.
Qed.
Lemma tr_scatter_spec b h base rs z cs vs : csr_reads b h base rs -> let F := tcol (triples rs) in let m := h_cols h in
  length cs = stored (F <$> seq 0 m) -> length vs = stored (F <$> seq 0 m) ->
  tr_scatter b h (cs, vs, ((fun c => stored (take c (F <$> seq 0 m))) <$> seq 0 m) ++ [z]) =
  Ok ((concat (F <$> seq 0 m)).*1, (concat (F <$> seq 0 m)).*2, ((fun c => stored (take (S c) (F <$> seq 0 m))) <$> seq 0 m) ++ [z]).
Proof.
  intros HR F m Hcs Hvs. set (rows := F <$> seq 0 m) in *. unfold tr_scatter.
  set (step := fun (t : nat * nat * V) (st : list nat * list V * list nat) => let '(cs, vs, ro) := st in
      let* dest := rd ro t.1.2 in let* cs := wr cs dest t.1.1 in let* vs := wr vs dest t.2 in let* x := rd ro t.1.2 in let* ro := wr ro t.1.2 (x + 1) in Ok (cs, vs, ro)).
  rewrite (entries_loop b h base rs _ step).
  2: done.
  2:{ intros r j c v [[cs' vs'] ro'] _ Hc Hv _. rewrite (rd_Ok _ _ _ Hc). cbn [obind]. unfold step. cbn [fst snd]. destruct (rd ro' c) as [dest| |]; cbn [obind]; [|done|done].
      destruct (wr cs' dest r); cbn [obind]; [|done|done]. by rewrite (rd_Ok _ _ _ Hv). }
  destruct (ofold_inv (fun pre st => exists rn, filled F m (tcol pre) (st.1.1, st.1.2, rn) /\ st.2 = rn ++ [z]) step (triples rs) (cs, vs, ((fun c => stored (take c rows)) <$> seq 0 m) ++ [z])) as ([[cs' vs'] ro'] & -> & rn & Hf & Hro).
  - eexists. split; [|reflexivity]. cbn [fst snd]. unfold filled. fold rows. split; [done|]. split; [done|]. split; [|by intros r i e _ He].
    apply fseq_ext. intros c Hc. cbn. lia.
  - intros pre [[r c] v] post [[cs' vs'] ro'] E (rn & Hf & Hro). cbn [fst snd] in *. unfold filled in Hf. fold rows in Hf. destruct Hf as (Hlc & Hlv & Hrn & Hf).
    assert (Hc : c < m).
    { pose proof (triples_cols m rs 0 (rd_ok _ _ _ _ HR)) as Hx. fold (triples rs) in Hx. rewrite E in Hx. apply Forall_app in Hx as [_ [Hx _]%Forall_cons]. done. }
    assert (Hrow : forall c', c' < m -> rows !! c' = Some (F c')) by (intros; by apply lookup_fseq).
    assert (Hpre : forall c', length (tcol (pre ++ [(r, c, v)]) c') <= length (F c')) by (intros c'; apply prefix_length; by eapply tcol_prefix).
    assert (Hd : stored (take c rows) + length (tcol pre c) < stored rows).
    { pose proof (Hpre c) as Hp. rewrite tcol_snoc, decide_True, app_length in Hp by done. simpl in Hp.
      pose proof (stored_take_lt rows c (S c) _ (Hrow c Hc)) as Hx. pose proof (stored_take_le rows (S c)). lia. }
    unfold step. cbn [fst snd]. subst ro' rn.
    rewrite (rd_Ok _ c (stored (take c rows) + length (tcol pre c))) by (rewrite lookup_app_l by (by rewrite fmap_length, seq_length); by apply (lookup_fseq (fun c => stored (take c rows) + length (tcol pre c)))). cbn [obind].
    rewrite !wr_Ok by lia. cbn [obind]. rewrite wr_Ok by (rewrite app_length, fmap_length, seq_length; lia). cbn [obind]. eexists. split; [reflexivity|]. cbn [fst snd].
    eexists. split; [|rewrite insert_app_l by (by rewrite fmap_length, seq_length); reflexivity].
    unfold filled. fold rows. rewrite !insert_length. split; [done|]. split; [done|]. split.
    { rewrite insert_fseq. apply fseq_ext. intros c' _. rewrite tcol_snoc. destruct (decide (c' = c)) as [->|]; [|done]. rewrite app_length. simpl. lia. }
    intros c' i e Hc' He. rewrite tcol_snoc in He.
    assert (Hdisj : (c' <> c \/ i < length (tcol pre c)) -> tcol pre c' !! i = Some e -> stored (take c' rows) + i <> stored (take c rows) + length (tcol pre c)).
    { intros Hor Hi. assert (Hil : i < length (F c')). { apply lookup_lt_Some in Hi. pose proof (Hpre c') as Hp. rewrite tcol_app, app_length in Hp. lia. }
      pose proof (Hpre c) as Hp. rewrite tcol_snoc, decide_True, app_length in Hp by done. simpl in Hp.
      destruct (decide (c' < c)) as [Hlt|Hlt]; [pose proof (stored_take_lt rows c' c _ (Hrow c' Hc') Hlt); lia|].
      destruct (decide (c < c')) as [Hlt'|Hlt']; [pose proof (stored_take_lt rows c c' _ (Hrow c Hc) Hlt'); lia|]. assert (c' = c) by lia. subst. lia. }
    destruct (decide (c' = c)) as [->|Hne].
    + apply lookup_app_Some in He as [He|[Hle He]].
      * assert (Hil : i < length (tcol pre c)) by (by eapply lookup_lt_Some). rewrite !list_lookup_insert_ne by (apply not_eq_sym, Hdisj; auto). by apply Hf.
      * assert (i = length (tcol pre c)) as ->. { apply lookup_lt_Some in He. simpl in He. lia. } rewrite Nat.sub_diag in He. injection He as <-. cbn [fst snd].
        rewrite !list_lookup_insert by lia. done.
    + rewrite !list_lookup_insert_ne by (apply not_eq_sym, Hdisj; auto). by apply Hf.
  - cbn [fst snd] in *. subst ro'. pose proof (filled_done _ _ _ _ _ Hf) as [-> ->]. destruct Hf as (_ & _ & -> & _). do 2 f_equal. f_equal.
    apply fseq_ext. intros c Hc. symmetry. apply (stored_take_S rows c (F c)). by apply lookup_fseq.
Qed.
Lemma tr_shift_spec (rows : list (row V)) z m : length rows = m ->
  exists x, tr_shift m (((fun c => stored (take (S c) rows)) <$> seq 0 m) ++ [z]) = Ok (offsets 0 rows, x).
Proof.
  intros Hm. unfold tr_shift. set (ro := ((fun c => stored (take (S c) rows)) <$> seq 0 m) ++ [z]).
  assert (Hl : length ro = m + 1) by (unfold ro; by rewrite app_length, fmap_length, seq_length).
  destruct (for_up_inv (fun i st => length st.1 = m + 1 /\ (forall j, j < i -> st.1 !! j = Some (stored (take j rows))) /\ (forall j, i <= j -> st.1 !! j = ro !! j) /\ (i <= m -> st.2 = stored (take i rows))) 0 (m + 1)
    (fun col st => let '(ro, last) := st in let* tmp := rd ro col in let* ro := wr ro col last in Ok (ro, tmp)) (ro, 0)) as ([ro' x] & -> & H1 & H2 & _).
  - lia.
  - split; [done|]. split; [lia|]. split; [done|]. done.
  - intros i [ro' last] Hi (H1 & H2 & H3 & H4). cbn [fst snd] in *. destruct (rd_lt ro' i) as (v & Hv & ->); [lia|]. cbn [obind]. rewrite wr_Ok by lia. cbn [obind]. eexists. split; [reflexivity|]. cbn [fst snd].
    rewrite insert_length. split; [done|]. split; [|split].
    + intros j Hj. destruct (decide (j = i)) as [->|]; [rewrite list_lookup_insert by lia; by rewrite H4 by lia|]. rewrite list_lookup_insert_ne by done. apply H2. lia.
    + intros j Hj. rewrite list_lookup_insert_ne by lia. apply H3. lia.
    + intros Him. change (1 + i) with (S i). rewrite H3 in Hv by lia. unfold ro in Hv. rewrite lookup_app_l in Hv by (rewrite fmap_length, seq_length; lia). rewrite lookup_fseq in Hv by lia. congruence.
  - exists x. do 2 f_equal. cbn [fst] in *. apply list_eq. intros j. destruct (decide (j < m + 1)) as [Hj|Hj].
    + rewrite H2 by done. symmetry. rewrite offsets_lookup by lia. done.
    + rewrite !lookup_ge_None_2; [done|rewrite offsets_length; lia|lia].
Qed.

Theorem tr_csr_spec alloc b h rs : alloc_ok alloc -> shows b h rs ->
  exists res, tr_csr alloc b h = Ok res /\ is_matrix (h_cols h) (h_rows h) (transposed (h_cols h) rs) res.
Proof.
  intros Hal Hs. destruct (shows_reads _ _ _ Hs) as (base & HR & _). unfold tr_csr. rewrite (reads_nnz _ _ _ _ HR). cbn [obind]. set (m := h_cols h).
  destruct (Hal m (stored rs)) as (Hv & Hc & Hr). destruct (zero_fill _ m Hr) as (z & ->). cbn [obind].
  unfold m at 1. rewrite (tr_count_spec _ _ _ _ _ HR). cbn [obind]. fold m. rewrite (tr_cumsum_spec (tcol (triples rs)) m z). cbn [obind].
  assert (Hst : stored (tcol (triples rs) <$> seq 0 m) = stored rs).
  { rewrite stored_tcols; [apply triples_length|]. apply triples_cols. apply (rd_ok _ _ _ _ HR). }
  rewrite wr_Ok by (rewrite app_length, fmap_length, seq_length; simpl; lia). cbn [obind].
  rewrite insert_app_r_alt by (by rewrite fmap_length, seq_length). rewrite fmap_length, seq_length, Nat.sub_diag. cbn [insert list_insert].
  pose proof (tr_scatter_spec b h base rs (stored rs) (bcols (alloc m (stored rs))) (bvals (alloc m (stored rs))) HR) as Hsc. cbn zeta in Hsc. fold m in Hsc.
  rewrite Hsc by lia. cbn [obind]. destruct (tr_shift_spec (tcol (triples rs) <$> seq 0 m) (stored rs) m) as (x & ->); [by rewrite fmap_length, seq_length|]. cbn [obind].
  eexists. split; [reflexivity|]. rewrite <- (rd_rows _ _ _ _ HR). apply is_matrix_intro; [by rewrite Hst|apply transposed_length|]. apply transposed_rows_ok, (rd_ok _ _ _ _ HR).
Qed.
End csr.
