(** The sparse data sink assembles its parts, in whatever order they arrive. *)
From stdpp Require Import base numbers sorting list list_numbers.
From Coq Require Import Lia.
From Verif Require Import CppBase Mem ListUtil CSRModel CSRSpec CSRProofs CSRView PipelineModel PipelineSpec PipelineProofs PipelineAgg SinkModel SinkSpec.

(** ** Ranges *)
Fixpoint consec (a b : nat) (ts : list (nat * nat)) : Prop :=
  match ts with [] => a = b | t :: ts' => fst t = a /\ fst t < snd t /\ consec (snd t) b ts' end.
Lemma consec_le a b ts : consec a b ts -> a <= b.
Proof. revert a. induction ts as [|t ts IH]; intros a Hc; simpl in Hc; [lia|]. destruct Hc as (<- & H1 & H2). apply IH in H2. lia. Qed.
Lemma rows_of_cons t ts : rows_of (t :: ts) = seq (fst t) (snd t - fst t) ++ rows_of ts.
Proof. done. Qed.
Lemma elem_of_rows_of r ts : r ∈ rows_of ts <-> exists t, t ∈ ts /\ fst t <= r < snd t.
Proof.
  induction ts as [|t ts IH].
  - split; [by intros ?%elem_of_nil|]. by intros (t & ?%elem_of_nil & _).
  - rewrite rows_of_cons, elem_of_app, elem_of_seq, IH. split.
    + intros [Hr|(t' & ? & ?)]; [exists t; split; [left|lia]|exists t'; split; [by right|done]].
    + intros (t' & [->|Hin]%elem_of_cons & Hr); [left; lia|right; eauto].
Qed.
Lemma sorted_consec n ts : forall a, a <= n -> StronglySorted (fun t u => fst t <= fst u) ts -> (forall t, t ∈ ts -> fst t < snd t <= n) ->
  rows_of ts ≡ₚ seq a (n - a) -> consec a n ts.
Proof.
  induction ts as [|t ts IH]; intros a Ha Hs Hb Hp.
  - apply Permutation_length in Hp. rewrite seq_length in Hp. simpl in *. lia.
  - inversion Hs as [|? ? Hs' Hf]; subst. destruct (Hb t) as [Ht1 Ht2]; [left|]. rewrite rows_of_cons in Hp.
    assert (Hin : fst t ∈ seq a (n - a)). { rewrite <- Hp. apply elem_of_app. left. apply elem_of_seq. lia. } apply elem_of_seq in Hin.
    assert (Hta : fst t = a).
    { assert (H0 : a ∈ seq (fst t) (snd t - fst t) ++ rows_of ts) by (rewrite Hp; apply elem_of_seq; lia). apply elem_of_app in H0 as [H0%elem_of_seq|H0]; [lia|].
      apply elem_of_rows_of in H0 as (u & Hu & Hru). rewrite Forall_forall in Hf. specialize (Hf u Hu). simpl in Hf. lia. }
    split; [done|]. split; [done|]. apply IH; [lia|done|intros u Hu; apply Hb; by right|].
    replace (n - a) with ((snd t - fst t) + (n - snd t)) in Hp by lia. rewrite seq_app, Hta in Hp. apply Permutation_app_inv_l in Hp.
    by replace (a + (snd t - a)) with (snd t) in Hp by lia.
Qed.

(** ** The priority queue *)
Fixpoint ofold {A St} (f : A -> St -> outcome St) (l : list A) (st : St) : outcome St :=
  match l with [] => Ok st | x :: l' => let* st' := f x st in ofold f l' st' end.
Lemma pq_pop_spec {A} (l : list (nat * A)) : match pq_pop l with
  | None => l = [] | Some (x, l') => x :: l' ≡ₚ l /\ Forall (fun y => fst x <= fst y) l' end.
Proof.
  induction l as [|x l IH]; simpl; [done|]. destruct (pq_pop l) as [[y r]|].
  - destruct IH as [Hp Hf]. destruct (decide (fst x <= fst y)) as [H|H].
    + split; [done|]. rewrite <- Hp. constructor; [done|]. eapply Forall_impl; [exact Hf|]. simpl. intros. lia.
    + split; [rewrite <- Hp; by constructor|]. constructor; [lia|done].
  - subst. split; [done|constructor].
Qed.
Lemma pq_loop_sorted {A St} (l : list (nat * A)) : exists l', l' ≡ₚ l /\ StronglySorted (fun x y => fst x <= fst y) l' /\
  forall (f : nat * A -> St -> outcome St) st, pq_loop (length l) l f st = ofold f l' st.
Proof.
  remember (length l) as n eqn:Hn. revert l Hn. induction n as [|n IH]; intros l Hn.
  - destruct l; [|done]. exists []. split; [done|]. split; [constructor|done].
  - cbn [pq_loop]. pose proof (pq_pop_spec l) as Hpop. destruct (pq_pop l) as [[x r]|]; [|by subst l]. destruct Hpop as [Hp Hf].
    pose proof (Permutation_length Hp) as Hl. cbn [length] in Hl. destruct (IH r) as (l' & Hp' & Hs & He); [lia|].
    exists (x :: l'). split; [by rewrite Hp'|]. split; [constructor; [done|by rewrite Hp']|]. intros f st. cbn [ofold]. destruct (f x st); cbn [obind]; auto.
Qed.

Lemma sumw_perm {A} (f : A -> nat) l l' : l ≡ₚ l' -> sumw f l = sumw f l'.
Proof. induction 1; simpl; lia. Qed.

Section proofs.
Context {V : Type} `{Val V}.
Notation csr := (csrbuf V * csrh)%type.
Notation item := ((nat * nat) * csr)%type.
Definition as_part (q : item) : nat * csr := (fst (fst q), snd q).

Lemma some_rows_app (R : nat -> row V) a b c : a <= b <= c -> some_rows R a c = some_rows R a b ++ some_rows R b c.
Proof.
  intros Hb. unfold some_rows. replace (c - a) with ((b - a) + (c - b)) by lia. rewrite seq_app, fmap_app. by replace (a + (b - a)) with b by lia.
Qed.
Lemma some_rows_length (R : nat -> row V) a b : length (some_rows R a b) = b - a.
Proof. unfold some_rows. by rewrite fmap_length, seq_length. Qed.

(** ** Row-wise *)
Lemma sum_rows (R : nat -> row V) n (qs : list item) : forall a, consec a n (qs.*1) ->
  sumw (fun q : item => stored (some_rows R (fst (fst q)) (snd (fst q)))) qs = stored (some_rows R a n).
Proof.
  induction qs as [|q qs IH]; intros a Hc; simpl in *.
  - subst. unfold some_rows. by rewrite Nat.sub_diag.
  - destruct Hc as (<- & H1 & H2). rewrite (IH _ H2). rewrite <- stored_app, <- some_rows_app; [done|]. apply consec_le in H2. lia.
Qed.

Lemma row_part_step (R : nat -> row V) m t b h jr jc jv a :
  row_part R m t (b, h) -> fst t = a -> fst t < snd t -> snd t - a <= length jr ->
  stored (some_rows R a (snd t)) <= length jc -> stored (some_rows R a (snd t)) <= length jv ->
  consume_row_part (a, (b, h)) (mkBuf ((concat (some_rows R 0 a)).*2 ++ jv) ((concat (some_rows R 0 a)).*1 ++ jc) (offsets 0 (some_rows R 0 a) ++ jr)) =
  Ok (mkBuf ((concat (some_rows R 0 (snd t))).*2 ++ drop (stored (some_rows R a (snd t))) jv)
            ((concat (some_rows R 0 (snd t))).*1 ++ drop (stored (some_rows R a (snd t))) jc)
            (offsets 0 (some_rows R 0 (snd t)) ++ drop (snd t - a) jr)).
Proof.
  intros (H0 & Hm & Hs) Hta Hlt Hjr Hjc Hjv. simpl in H0, Hm, Hs. destruct (shows_reads _ _ _ Hs) as (base & HR & Hb0). specialize (Hb0 H0). subst base.
  rewrite Hta in *. set (rs := some_rows R a (snd t)) in *. set (pre := some_rows R 0 a) in *.
  assert (Hall : some_rows R 0 (snd t) = pre ++ rs) by (apply some_rows_app; lia). rewrite Hall.
  assert (Hlp : length pre = a) by (unfold pre; rewrite some_rows_length; lia).
  assert (Hlr : length rs = snd t - a) by apply some_rows_length.
  unfold consume_row_part. cbn [broff bcols bvals]. rewrite <- (rd_rows _ _ _ _ HR).
  destruct (for_up_inv (fun i ro => ro = offsets 0 (pre ++ take i rs) ++ drop i jr) 0 (length rs)
    (fun row ro => let* o := rd ro a in let* x := roff b h (row + 1) in wr ro (a + row + 1) (o + x)) (offsets 0 pre ++ jr)) as (ro & -> & ->).
  - lia.
  - by rewrite take_0, app_nil_r, drop_0.
  - intros i ro Hi ->. rewrite (rd_Ok _ a (stored pre)).
    2:{ rewrite lookup_app_l by (rewrite offsets_length, app_length; lia). rewrite offsets_lookup by (rewrite app_length; lia). rewrite take_app_le by lia. rewrite take_ge by lia. done. }
    cbn [obind]. rewrite (rd_off _ _ _ _ HR) by lia. cbn [obind]. destruct (lookup_lt_is_Some_2 rs i) as [l Hl]; [lia|].
    assert (Hli : length (offsets 0 (pre ++ take i rs)) = a + i + 1) by (rewrite offsets_length, app_length, take_length; lia).
    rewrite wr_Ok by (rewrite app_length, drop_length; lia). eexists. split; [reflexivity|].
    rewrite insert_app_r_alt by lia. replace (a + i + 1 - length (offsets 0 (pre ++ take i rs))) with 0 by lia.
    destruct (lookup_lt_is_Some_2 jr i) as [x Hx]; [lia|]. rewrite (drop_S _ x i Hx). cbn [insert list_insert].
    replace (i + 1) with (S i) by lia. change (1 + i) with (S i). rewrite (take_S_r _ _ l Hl). rewrite app_assoc, offsets_snoc. rewrite <- app_assoc. cbn [app].
    replace (stored pre + (0 + stored (take i rs ++ [l]))) with (0 + stored ((pre ++ take i rs) ++ [l])) by (rewrite !stored_app; lia). done.
  - cbn [obind]. rewrite (reads_nnz _ _ _ _ HR). cbn [obind]. rewrite firstn_all.
    rewrite (rd_Ok _ a (stored pre)).
    2:{ rewrite lookup_app_l by (rewrite offsets_length, app_length; lia). rewrite offsets_lookup by (rewrite app_length; lia). rewrite take_app_le by lia. rewrite take_ge by lia. done. }
    cbn [obind]. pose proof (rd_len_c _ _ _ _ HR). pose proof (rd_len_v _ _ _ _ HR).
    replace (stored pre) with (length (concat pre).*1) at 1 by (by rewrite fmap_length). rewrite copy_range_app by lia. cbn [obind].
    replace (stored pre) with (length (concat pre).*2) at 1 by (by rewrite fmap_length). rewrite copy_range_app by lia. cbn [obind].
    rewrite (reads_slice_cols _ _ _ _ HR), (reads_slice_vals _ _ _ _ HR), concat_app, !fmap_app, Hlr. by rewrite <- !app_assoc.
Qed.
Lemma row_parts_fold (R : nat -> row V) m n (qs : list item) : forall a jr jc jv, consec a n (qs.*1) -> Forall (fun q => row_part R m (fst q) (snd q)) qs ->
  length jr = n - a -> length jc = stored (some_rows R a n) -> length jv = stored (some_rows R a n) ->
  ofold consume_row_part (as_part <$> qs) (mkBuf ((concat (some_rows R 0 a)).*2 ++ jv) ((concat (some_rows R 0 a)).*1 ++ jc) (offsets 0 (some_rows R 0 a) ++ jr)) =
  Ok (mkBuf (concat (some_rows R 0 n)).*2 (concat (some_rows R 0 n)).*1 (offsets 0 (some_rows R 0 n))).
Proof.
  induction qs as [|[t [b h]] qs IH]; intros a jr jc jv Hc Hq Hjr Hjc Hjv.
  - simpl in Hc. subst a. cbn [fmap list_fmap ofold]. unfold some_rows in Hjc, Hjv. rewrite Nat.sub_diag in Hjc, Hjv, Hjr. destruct jr, jc, jv; try done. by rewrite !app_nil_r.
  - cbn [fmap list_fmap consec] in Hc. destruct Hc as (Ha & Hlt & Hc). cbn [fst] in Ha, Hlt, Hc. inversion Hq as [|? ? Hq1 Hq2]; subst. cbn [fst snd] in Hq1.
    pose proof (consec_le _ _ _ Hc) as Hle. assert (Hst : stored (some_rows R (fst t) n) = stored (some_rows R (fst t) (snd t)) + stored (some_rows R (snd t) n)).
    { rewrite (some_rows_app R (fst t) (snd t) n) by lia. apply stored_app. }
    rewrite fmap_cons. cbn [ofold as_part fst snd]. unfold as_part at 1. cbn [fst snd].
    rewrite (row_part_step R m t b h jr jc jv (fst t)) by (done || lia). cbn [obind]. apply IH; [done|done|rewrite drop_length; lia..].
Qed.

Lemma row_adds (R : nat -> row V) m (qs : list item) : Forall (fun q => row_part R m (fst q) (snd q)) qs -> forall s, sk_combine s = CRows ->
  sink_adds s (as_part <$> qs) =
  Ok (mkSink CRows (sk_rows s) (sk_cols s) (sk_nnz s + sumw (fun q : item => stored (some_rows R (fst (fst q)) (snd (fst q)))) qs) (sk_rownnz s) (sk_results s ++ (as_part <$> qs))).
Proof.
  induction 1 as [|[t [b h]] qs Hq Hqs IH]; intros s Hs.
  - cbn [fmap list_fmap sink_adds sumw]. destruct s; simpl in *. subst. by rewrite Nat.add_0_r, app_nil_r.
  - rewrite fmap_cons. unfold as_part at 1. cbn [fst snd sink_adds]. unfold sink_add. rewrite Hs. cbn [obind].
    destruct Hq as (_ & _ & Hsh). simpl in Hsh. destruct (shows_reads _ _ _ Hsh) as (base & HR & _). rewrite (reads_nnz _ _ _ _ HR). cbn [obind].
    rewrite IH by done. cbn [sk_rows sk_cols sk_nnz sk_rownnz sk_results sumw fst snd]. f_equal. f_equal; [lia|]. by rewrite <- app_assoc.
Qed.

Lemma rows_ok_all (R : nat -> row V) m n (qs : list item) : forall a, consec a n (qs.*1) -> Forall (fun q => row_part R m (fst q) (snd q)) qs ->
  Forall (row_ok m) (some_rows R a n).
Proof.
  induction qs as [|q qs IH]; intros a Hc Hq; simpl in Hc.
  - subst. unfold some_rows. rewrite Nat.sub_diag. constructor.
  - destruct Hc as (<- & Hlt & Hc). inversion Hq as [|? ? Hq1 Hq2]; subst. rewrite (some_rows_app R _ (snd (fst q)) n) by (apply consec_le in Hc; lia).
    apply Forall_app. split; [|by apply IH]. destruct Hq1 as (_ & Hm & Hs). destruct (shows_reads _ _ _ Hs) as (base & HR & _). pose proof (rd_ok _ _ _ _ HR) as Hok. by rewrite Hm in Hok.
Qed.

Lemma is_matrix_intro n m (rows : list (row V)) (h : csrh) : h = mkH 0 n m n false (stored rows) 0 -> length rows = n -> Forall (row_ok m) rows ->
  is_matrix n m rows (mkBuf (concat rows).*2 (concat rows).*1 (offsets 0 rows), h).
Proof.
  intros -> Hl Hok. split; [|done]. split; simpl; [|done|lia|lia|by rewrite fmap_length].
  split; [done|]. exists [], []. by rewrite !app_nil_r.
Qed.

Theorem sink_rows alloc (R : nat -> row V) m n (qs : list item) : alloc_ok alloc -> 0 < n ->
  (forall t, t ∈ qs.*1 -> fst t < snd t <= n) -> rows_of (qs.*1) ≡ₚ seq 0 n -> Forall (fun q => row_part R m (fst q) (snd q)) qs ->
  exists s, sink_adds (sink_new CRows n m) (as_part <$> qs) = Ok s /\ exists p, sink_consume alloc s = Ok p /\ is_matrix n m (some_rows R 0 n) p.
Proof.
  intros Hal Hn Hb Hp Hq. rewrite (row_adds R m) by done. eexists. split; [reflexivity|].
  destruct (pq_loop_sorted (St := csrbuf V) (as_part <$> qs)) as (l' & Hpl & Hsl & Hloop). apply Permutation_map_inv in Hpl as (qs' & -> & Hperm).
  assert (Hs' : StronglySorted (fun t u => fst t <= fst u) (qs'.*1)).
  { clear -Hsl. induction qs' as [|q qs' IH]; [constructor|]. change (map as_part (q :: qs')) with (as_part q :: map as_part qs') in Hsl. inversion Hsl as [|? ? H1 H2]; subst.
    rewrite fmap_cons. constructor; [by apply IH|]. clear -H2. induction qs' as [|q' qs' IH]; [constructor|]. inversion H2; subst. constructor; [done|by apply IH]. }
  assert (Hc : consec 0 n (qs'.*1)).
  { apply sorted_consec; [lia|done| |].
    - intros t Ht. apply Hb. by rewrite Hperm.
    - rewrite Nat.sub_0_r, <- Hp. unfold rows_of. by rewrite Hperm. }
  assert (Hq' : Forall (fun q => row_part R m (fst q) (snd q)) qs') by (by rewrite <- Hperm).
  unfold sink_new, sink_consume. cbn [sk_results sk_combine sk_rows sk_cols sk_nnz app plus]. rewrite (decide_False (P := as_part <$> qs = [])).
  2:{ intros E. apply fmap_nil_inv in E. subst. apply Permutation_length in Hp. rewrite seq_length in Hp. simpl in Hp. lia. }
  rewrite (sumw_perm _ _ _ Hperm), (sum_rows R n qs' 0) by done. destruct (Hal n (stored (some_rows R 0 n))) as (Hv & Hcc & Hr).
  rewrite wr_Ok by lia. cbn [obind]. rewrite Hloop.
  change (map as_part qs') with (as_part <$> qs'). destruct (alloc n (stored (some_rows R 0 n))) as [vs cs ro]. simpl in Hv, Hcc, Hr.
  destruct ro as [|r0 ro]; [simpl in Hr; lia|]. cbn [broff bcols bvals insert list_insert].
  pose proof (row_parts_fold R m n qs' 0 ro cs vs) as Hf. change (some_rows R 0 0) with (@nil (row V)) in Hf. cbn [concat fmap list_fmap app offsets] in Hf. simpl in Hr.
  rewrite Hf by (done || lia). cbn [obind]. eexists. split; [reflexivity|]. apply is_matrix_intro; [done|by rewrite some_rows_length, Nat.sub_0_r|]. by eapply rows_ok_all.
Qed.

(** ** Column-wise *)
Definition ents (G : nat -> nat -> option V) (a b r : nat) : row V := omap (fun c => (fun v => (c, v)) <$> G r c) (seq a (b - a)).
Definition cut (G : nat -> nat -> option V) (a b r : nat) : row V := omap (fun i => (fun v => (i, v)) <$> G r (a + i)) (seq 0 (b - a)).
Lemma some_cols_cut (G : nat -> nat -> option V) n a b : some_cols G n a b = cut G a b <$> seq 0 n.
Proof. done. Qed.
Lemma ents_shift G a b r : ents G a b r = (fun e => (a + fst e, snd e)) <$> cut G a b r.
Proof.
  unfold ents, cut. rewrite <- (Nat.add_0_r a) at 1. rewrite <- fmap_add_seq. generalize (seq 0 (b - a)). intros l. induction l as [|i l IH]; [done|].
  rewrite fmap_cons. cbn [omap list_omap]. destruct (G r (a + i)) as [v|]; cbn [fmap option_fmap option_map]; [|apply IH]. rewrite fmap_cons. f_equal. apply IH.
Qed.
Lemma ents_app G a b c r : a <= b <= c -> ents G a c r = ents G a b r ++ ents G b c r.
Proof. intros Hb. unfold ents. replace (c - a) with ((b - a) + (c - b)) by lia. rewrite seq_app, omap_app. by replace (a + (b - a)) with b by lia. Qed.
Lemma ents_nil G a r : ents G a a r = [].
Proof. unfold ents. by rewrite Nat.sub_diag. Qed.
Lemma ents_length G a b r : length (ents G a b r) = length (cut G a b r).
Proof. by rewrite ents_shift, fmap_length. Qed.
Lemma ents_cut0 G m r : ents G 0 m r = cut G 0 m r.
Proof. done. Qed.
Lemma lookup_fseq {A} (f : nat -> A) n i : i < n -> (f <$> seq 0 n) !! i = Some (f i).
Proof. intros Hi. by rewrite list_lookup_fmap, lookup_seq_lt. Qed.
Lemma fseq_ext {A} (f g : nat -> A) n : (forall i, i < n -> f i = g i) -> f <$> seq 0 n = g <$> seq 0 n.
Proof. intros He. apply list_fmap_ext. intros i x Hx%lookup_seq. simpl in Hx. apply He. lia. Qed.
Lemma insert_fseq {A} (f : nat -> A) n i x : <[i := x]> (f <$> seq 0 n) = (fun r => if decide (r = i) then x else f r) <$> seq 0 n.
Proof.
  apply list_eq. intros j. destruct (decide (j < n)) as [Hj|Hj].
  - rewrite lookup_fseq by done. destruct (decide (j = i)) as [->|Hne].
    + by rewrite list_lookup_insert by (by rewrite fmap_length, seq_length).
    + rewrite list_lookup_insert_ne by done. by apply lookup_fseq.
  - rewrite !lookup_ge_None_2; [done|rewrite fmap_length, seq_length; lia|rewrite insert_length, fmap_length, seq_length; lia].
Qed.

Lemma col_add_loop b h base n (F : nat -> row V) (f : nat -> nat) : csr_reads b h base (F <$> seq 0 n) ->
  for_up 0 (h_rows h) (fun row rn => let* e := roff b h (row + 1) in let* o := roff b h row in let* x := rd rn row in wr rn row (x + (e - o))) (f <$> seq 0 n) =
  Ok ((fun r => f r + length (F r)) <$> seq 0 n).
Proof.
  intros HR. pose proof (rd_rows _ _ _ _ HR) as Hrows. rewrite fmap_length, seq_length in Hrows. rewrite <- Hrows.
  destruct (for_up_inv (fun i rn => rn = (fun r => if decide (r < i) then f r + length (F r) else f r) <$> seq 0 n) 0 n
    (fun row rn => let* e := roff b h (row + 1) in let* o := roff b h row in let* x := rd rn row in wr rn row (x + (e - o))) (f <$> seq 0 n)) as (rn & -> & ->).
  - lia.
  - by apply fseq_ext.
  - intros i rn Hi ->. rewrite !(rd_off _ _ _ _ HR) by (rewrite fmap_length, seq_length; lia). cbn [obind].
    rewrite (rd_Ok _ i (f i)) by (rewrite lookup_fseq by lia; by rewrite decide_False by lia). cbn [obind].
    rewrite wr_Ok by (rewrite fmap_length, seq_length; lia). eexists. split; [reflexivity|]. rewrite insert_fseq. apply fseq_ext. intros r Hr.
    replace (i + 1) with (S i) by lia. rewrite (stored_take_S _ _ (F i)) by (apply lookup_fseq; lia).
    destruct (decide (r = i)) as [->|Hne]; [rewrite decide_True by lia; lia|]. destruct (decide (r < i)) as [H1|H1]; [by rewrite decide_True by lia|by rewrite decide_False by lia].
  - f_equal. apply fseq_ext. intros r Hr. by rewrite decide_True.
Qed.
Lemma col_adds (G : nat -> nat -> option V) n (qs : list item) : Forall (fun q => col_part G n (fst q) (snd q)) qs -> forall s f, sk_combine s = CCols ->
  sk_rownnz s = f <$> seq 0 n ->
  sink_adds s (as_part <$> qs) =
  Ok (mkSink CCols (sk_rows s) (sk_cols s) (sk_nnz s + sumw (fun q : item => stored (some_cols G n (fst (fst q)) (snd (fst q)))) qs)
       ((fun r => f r + sumw (fun q : item => length (cut G (fst (fst q)) (snd (fst q)) r)) qs) <$> seq 0 n) (sk_results s ++ (as_part <$> qs))).
Proof.
  induction 1 as [|[t [b h]] qs Hq Hqs IH]; intros s f Hs Hf.
  - cbn [fmap list_fmap sink_adds sumw]. destruct s; simpl in *. subst. rewrite Nat.add_0_r, app_nil_r. do 2 f_equal. apply fseq_ext. intros. lia.
  - rewrite fmap_cons. unfold as_part at 1. cbn [fst snd sink_adds]. unfold sink_add. rewrite Hs.
    destruct Hq as (_ & Hsh). simpl in Hsh. destruct (shows_reads _ _ _ Hsh) as (base & HR & _).
    rewrite Hf, (col_add_loop b h base n (cut G (fst t) (snd t))) by done. cbn [obind]. rewrite (reads_nnz _ _ _ _ HR). cbn [obind].
    rewrite (IH _ (fun r => f r + length (cut G (fst t) (snd t) r))) by done. cbn [sk_rows sk_cols sk_nnz sk_rownnz sk_results sumw fst snd].
    rewrite <- app_assoc. f_equal. f_equal; [lia|]. apply fseq_ext. intros. lia.
Qed.
Lemma sum_cut (G : nat -> nat -> option V) m r (qs : list item) : forall a, consec a m (qs.*1) ->
  sumw (fun q : item => length (cut G (fst (fst q)) (snd (fst q)) r)) qs = length (ents G a m r).
Proof.
  induction qs as [|q qs IH]; intros a Hc; simpl in *.
  - subst. by rewrite ents_nil.
  - destruct Hc as (<- & H1 & H2). rewrite (IH _ H2). rewrite (ents_app G (fst (fst q)) (snd (fst q)) m r) by (apply consec_le in H2; lia). rewrite app_length, (ents_length G (fst (fst q))). done.
Qed.
Lemma stored_fseq (F : nat -> row V) n : stored (F <$> seq 0 n) = sumw (fun r => length (F r)) (seq 0 n).
Proof. generalize (seq 0 n). intros l. unfold stored. induction l as [|r l IH]; [done|]. rewrite fmap_cons. cbn [concat sumw]. rewrite app_length. unfold stored in IH. by rewrite IH. Qed.
Lemma sumw_swap {A B} (f : A -> B -> nat) (la : list A) (lb : list B) : sumw (fun a => sumw (f a) lb) la = sumw (fun b => sumw (fun a => f a b) la) lb.
Proof.
  induction la as [|a la IH]; simpl; [by induction lb|]. rewrite IH. clear IH. induction lb as [|b lb IH]; simpl; [done|]. lia.
Qed.
Lemma sumw_ext_in {A} (f g : A -> nat) l : (forall x, x ∈ l -> f x = g x) -> sumw f l = sumw g l.
Proof. induction l as [|x l IH]; intros He; simpl; [done|]. rewrite (He x) by left. rewrite IH; [done|]. intros y Hy. apply He. by right. Qed.
Lemma sum_cols (G : nat -> nat -> option V) n m (qs : list item) : consec 0 m (qs.*1) ->
  sumw (fun q : item => stored (some_cols G n (fst (fst q)) (snd (fst q)))) qs = stored (some_cols G n 0 m).
Proof.
  intros Hc. transitivity (sumw (fun q : item => sumw (fun r => length (cut G (fst (fst q)) (snd (fst q)) r)) (seq 0 n)) qs).
  { apply sumw_ext_in. intros q _. rewrite some_cols_cut. apply stored_fseq. }
  rewrite sumw_swap, some_cols_cut, stored_fseq. apply sumw_ext_in. intros r _. rewrite (sum_cut G m r qs 0) by done. by rewrite ents_cut0.
Qed.

Lemma col_offsets_spec (rows : list (row V)) n jr r0 : length rows = n -> length jr = n -> r0 = 0 ->
  consume_col_offsets n (r0 :: jr, (fun r => length (default [] (rows !! r))) <$> seq 0 n) = Ok (offsets 0 rows, (fun r => stored (take r rows)) <$> seq 0 n).
Proof.
  intros Hn Hj ->. unfold consume_col_offsets.
  destruct (for_up_inv (fun i st => st = (offsets 0 (take i rows) ++ drop i jr, (fun r => if decide (r < i) then stored (take r rows) else length (default [] (rows !! r))) <$> seq 0 n)) 0 n
    (fun row st => let '(ro, rn) := st in let* o := rd ro row in let* x := rd rn row in let* ro := wr ro (row + 1) (o + x) in
      let* o := rd ro row in let* rn := wr rn row o in Ok (ro, rn)) (0 :: jr, (fun r => length (default [] (rows !! r))) <$> seq 0 n)) as (st & -> & ->).
  - lia.
  - rewrite drop_0. cbn [take offsets app]. done.
  - intros i st Hi ->. assert (Ho : offsets 0 (take i rows) !! i = Some (stored (take i rows))).
    { rewrite offsets_lookup by (rewrite take_length; lia). by rewrite take_take, Nat.min_id. }
    assert (Hol : length (offsets 0 (take i rows)) = i + 1) by (rewrite offsets_length, take_length; lia).
    destruct (lookup_lt_is_Some_2 rows i) as [l Hl]; [lia|]. destruct (lookup_lt_is_Some_2 jr i) as [x Hx]; [lia|].
    rewrite (rd_Ok _ i (stored (take i rows))) by (by rewrite lookup_app_l by lia). cbn [obind].
    rewrite (rd_Ok _ i (length l)). 2:{ rewrite lookup_fseq by lia. rewrite decide_False by lia. by rewrite Hl. } cbn [obind].
    rewrite wr_Ok by (rewrite app_length, drop_length; lia). cbn [obind].
    rewrite insert_app_r_alt by lia. replace (i + 1 - length (offsets 0 (take i rows))) with 0 by lia. rewrite (drop_S _ x i Hx). cbn [insert list_insert].
    rewrite (rd_Ok _ i (stored (take i rows))) by (by rewrite lookup_app_l by lia). cbn [obind]. rewrite wr_Ok by (rewrite fmap_length, seq_length; lia). cbn [obind].
    eexists. split; [reflexivity|]. change (1 + i) with (S i). rewrite (take_S_r _ _ l Hl), offsets_snoc, <- app_assoc. cbn [app]. f_equal.
    + do 2 f_equal. rewrite stored_app. unfold stored. simpl. rewrite app_nil_r. lia.
    + rewrite insert_fseq. apply fseq_ext. intros r Hr. destruct (decide (r = i)) as [->|Hne]; [by rewrite decide_True by lia|].
      destruct (decide (r < i)) as [H1|H1]; [by rewrite decide_True by lia|by rewrite decide_False by lia].
  - rewrite take_ge by lia. rewrite drop_ge by lia. rewrite app_nil_r. do 2 f_equal. apply fseq_ext. intros r Hr. by rewrite decide_True.
Qed.

(** Filled so far: the prefix [P r] of each row [F r]. *)
Definition filled (F : nat -> row V) (n : nat) (P : nat -> row V) (st : list nat * list V * list nat) : Prop :=
  let rows := F <$> seq 0 n in let '(cs, vs, rn) := st in
  length cs = stored rows /\ length vs = stored rows /\ rn = (fun r => stored (take r rows) + length (P r)) <$> seq 0 n /\
  forall r i e, r < n -> P r !! i = Some e -> cs !! (stored (take r rows) + i) = Some (fst e) /\ vs !! (stored (take r rows) + i) = Some (snd e).

Lemma col_row_step (F P : nat -> row V) n b h base (cur : nat -> row V) colStart st r seg :
  filled F n P st -> (forall r', r' < n -> P r' `prefix_of` F r') -> csr_reads b h base (cur <$> seq 0 n) -> r < n ->
  seg = (fun e => (colStart + fst e, snd e)) <$> cur r -> P r ++ seg `prefix_of` F r ->
  exists st', consume_col_row colStart b h r st = Ok st' /\ filled F n (fun r' => if decide (r' = r) then P r ++ seg else P r') st'.
Proof.
  destruct st as [[cs vs] rn]. intros (Hlc & Hlv & Hrn & Hf) Hpre HR Hr Hseg Hpr. set (rows := F <$> seq 0 n) in *.
  assert (Hrow : forall r', r' < n -> rows !! r' = Some (F r')) by (intros; by apply lookup_fseq).
  assert (Hcur : (cur <$> seq 0 n) !! r = Some (cur r)) by (by apply lookup_fseq).
  assert (Hlen : length (cur <$> seq 0 n) = n) by (by rewrite fmap_length, seq_length). assert (Hlrows : length rows = n) by (unfold rows; by rewrite fmap_length, seq_length).
  set (o := base + stored (take r (cur <$> seq 0 n))). set (p := stored (take r rows) + length (P r)). set (len := length (cur r)).
  assert (Hls : length seg = len) by (subst seg; by rewrite fmap_length).
  assert (Hfit : length (P r) + len <= length (F r)) by (apply prefix_length in Hpr; rewrite app_length in Hpr; lia).
  assert (Hend : stored (take r rows) + length (F r) <= stored rows).
  { pose proof (stored_take_lt rows r n (F r) (Hrow r Hr) Hr) as H1. by rewrite (take_ge rows n) in H1 by lia. }
  assert (Hcl : o + len <= base + stored (cur <$> seq 0 n)).
  { pose proof (stored_take_lt _ r n (cur r) Hcur Hr) as H1. rewrite (take_ge _ n) in H1 by lia. unfold o, len. lia. }
  pose proof (rd_len_c _ _ _ _ HR) as HLc. pose proof (rd_len_v _ _ _ _ HR) as HLv.
  (* positions of other rows are not touched *)
  assert (Hdis : forall r' i, r' < n -> r' <> r -> i < length (F r') -> ~ (p <= stored (take r' rows) + i < p + len)).
  { intros r' i Hr' Hne Hi. destruct (decide (r' < r)) as [Hlt|Hlt].
    - pose proof (stored_take_lt rows r' r (F r') (Hrow r' Hr') Hlt). unfold p. lia.
    - pose proof (stored_take_lt rows r r' (F r) (Hrow r Hr) ltac:(lia)). unfold p. lia. }
  assert (HPi : forall r' i e, r' < n -> P r' !! i = Some e -> i < length (F r')).
  { intros r' i e Hr' Hi. apply lookup_lt_Some in Hi. pose proof (prefix_length _ _ (Hpre r' Hr')). lia. }
  unfold consume_col_row. rewrite !(rd_off _ _ _ _ HR) by lia. cbn [obind]. fold o. replace (base + stored (take (r + 1) (cur <$> seq 0 n)) - o) with len.
  2:{ replace (r + 1) with (S r) by lia. rewrite (stored_take_S _ _ _ Hcur). unfold o, len. lia. }
  rewrite (rd_Ok rn r p). 2:{ rewrite Hrn. by apply lookup_fseq. } cbn [obind].
  destruct (copy_range_spec vs p (bvals b) o len) as (vs' & -> & Hlv' & Hv1 & Hv2); [unfold p; lia|lia|]. cbn [obind].
  destruct (for_up_inv (fun k cs' => length cs' = length cs /\ (forall j, j < k -> cs' !! (p + j) = (fun c => colStart + c) <$> (bcols b !! (o + j))) /\
      (forall j, ~ (p <= j < p + k) -> cs' !! j = cs !! j)) 0 len
    (fun i cs => let* c := rd (bcols b) (o + i) in wr cs (p + i) (colStart + c)) cs) as (cs' & -> & Hlc' & Hc1 & Hc2).
  { lia. } { split; [done|]. split; [lia|done]. }
  { intros k cs' Hk (H1 & H2 & H3). destruct (lookup_lt_is_Some_2 (bcols b) (o + k)) as [c Hc]; [lia|]. rewrite (rd_Ok _ _ c) by done. cbn [obind].
    rewrite wr_Ok by (unfold p in *; lia). eexists. split; [reflexivity|]. split; [by rewrite insert_length|]. split.
    - intros j Hj. destruct (decide (j = k)) as [->|Hne].
      + rewrite list_lookup_insert by (unfold p in *; lia). by rewrite Hc.
      + rewrite list_lookup_insert_ne by lia. apply H2. lia.
    - intros j Hj. rewrite list_lookup_insert_ne by lia. apply H3. lia. }
  cbn [obind]. rewrite wr_Ok by (rewrite Hrn, fmap_length, seq_length; lia). cbn [obind]. eexists. split; [reflexivity|]. unfold filled. fold rows.
  split; [lia|]. split; [lia|]. split.
  { rewrite Hrn, insert_fseq. apply fseq_ext. intros r' Hr'. destruct (decide (r' = r)) as [->|Hne]; [|done]. rewrite app_length. unfold p. lia. }
  intros r' i e Hr' Hi. destruct (decide (r' = r)) as [->|Hne].
  - apply lookup_app_Some in Hi as [Hi|[Hge Hi]].
    + assert (i < length (P r)) by (by eapply lookup_lt_Some). rewrite Hc2, Hv2 by (unfold p; lia). by apply Hf.
    + subst seg. rewrite list_lookup_fmap in Hi. destruct (cur r !! (i - length (P r))) as [e0|] eqn:E0; [|done]. injection Hi as <-.
      assert (i - length (P r) < len) by (by eapply lookup_lt_Some). destruct (reads_entry _ _ _ _ _ _ _ _ HR Hcur E0) as [Ec Ev].
      replace (stored (take r rows) + i) with (p + (i - length (P r))) by (unfold p; lia). rewrite Hc1, Hv1 by done. unfold o. rewrite Ec, Ev. done.
  - rewrite Hc2, Hv2; [by apply Hf|apply Hdis; eauto|apply Hdis; eauto].
Qed.
Lemma filled_ext (F P P' : nat -> row V) n st : (forall r, r < n -> P r = P' r) -> filled F n P st -> filled F n P' st.
Proof.
  intros He. destruct st as [[cs vs] rn]. intros (H1 & H2 & H3 & H4). split; [done|]. split; [done|]. split; [rewrite H3; apply fseq_ext; intros r Hr; by rewrite He|].
  intros r i e Hr Hi. apply H4; [done|]. by rewrite He.
Qed.
Lemma col_part_step (G : nat -> nat -> option V) n m t b h st :
  filled (ents G 0 m) n (ents G 0 (fst t)) st -> col_part G n t (b, h) -> fst t < snd t <= m ->
  exists st', consume_col_part (fst t, (b, h)) st = Ok st' /\ filled (ents G 0 m) n (ents G 0 (snd t)) st'.
Proof.
  intros Hf (_ & Hs) Ht. simpl in Hs. rewrite some_cols_cut in Hs. destruct (shows_reads _ _ _ Hs) as (base & HR & _).
  pose proof (rd_rows _ _ _ _ HR) as Hrows. rewrite fmap_length, seq_length in Hrows. unfold consume_col_part. rewrite <- Hrows.
  destruct (for_up_inv (fun i st => filled (ents G 0 m) n (fun r => if decide (r < i) then ents G 0 (snd t) r else ents G 0 (fst t) r) st) 0 n (consume_col_row (fst t) b h) st) as (st' & E & H1).
  - lia.
  - eapply filled_ext; [|exact Hf]. done.
  - intros i s Hi Hfi. destruct (col_row_step (ents G 0 m) (fun r => if decide (r < i) then ents G 0 (snd t) r else ents G 0 (fst t) r) n b h base (cut G (fst t) (snd t)) (fst t) s i (ents G (fst t) (snd t) i)) as (s' & Es & Hs');
      [done| |done|lia|apply ents_shift| |].
    + intros r Hr. destruct (decide (r < i)); [exists (ents G (snd t) m r)|exists (ents G (fst t) m r)]; apply ents_app; lia.
    + rewrite decide_False by lia. rewrite <- ents_app by lia. exists (ents G (snd t) m i). apply ents_app; lia.
    + exists s'. split; [done|]. eapply filled_ext; [|exact Hs']. intros r Hr. cbn beta. destruct (decide (r = i)) as [->|Hne].
      * rewrite (decide_True (P := i < 1 + i)) by lia. rewrite decide_False by lia. rewrite <- ents_app; [done|lia].
      * destruct (decide (r < i)) as [Hl|Hl]; [by rewrite decide_True by lia|by rewrite decide_False by lia].
  - exists st'. split; [done|]. eapply filled_ext; [|exact H1]. intros r Hr. cbn beta. by rewrite decide_True.
Qed.
Lemma col_parts_fold (G : nat -> nat -> option V) n m (qs : list item) : forall a st, consec a m (qs.*1) -> Forall (fun q => col_part G n (fst q) (snd q)) qs ->
  filled (ents G 0 m) n (ents G 0 a) st -> exists st', ofold consume_col_part (as_part <$> qs) st = Ok st' /\ filled (ents G 0 m) n (ents G 0 m) st'.
Proof.
  induction qs as [|[t [b h]] qs IH]; intros a st Hc Hq Hf.
  - simpl in Hc. subst a. by exists st.
  - cbn [fmap list_fmap consec] in Hc. destruct Hc as (Ha & Hlt & Hc). cbn [fst] in Ha, Hlt, Hc. subst a. inversion Hq as [|? ? Hq1 Hq2]; subst. cbn [fst snd] in Hq1.
    pose proof (consec_le _ _ _ Hc) as Hle. rewrite fmap_cons. cbn [ofold]. unfold as_part at 1. cbn [fst snd].
    destruct (col_part_step G n m t b h st Hf Hq1) as (st1 & -> & Hf1); [lia|]. cbn [obind]. by apply (IH (snd t)).
Qed.
Lemma filled_done (F : nat -> row V) n cs vs rn : filled F n F (cs, vs, rn) -> cs = (concat (F <$> seq 0 n)).*1 /\ vs = (concat (F <$> seq 0 n)).*2.
Proof.
  intros (Hlc & Hlv & _ & Hf).
  assert (Hx : forall j, j < stored (F <$> seq 0 n) -> exists e, concat (F <$> seq 0 n) !! j = Some e /\ cs !! j = Some (fst e) /\ vs !! j = Some (snd e)).
  { intros j Hj. destruct (lookup_lt_is_Some_2 (concat (F <$> seq 0 n)) j) as [e He]; [done|]. exists e. split; [done|].
    apply lookup_concat in He as (q & l & i & Hq & Hi & ->). assert (Hqn : q < n) by (apply lookup_lt_Some in Hq; by rewrite fmap_length, seq_length in Hq).
    rewrite lookup_fseq in Hq by done. injection Hq as <-. by apply Hf. }
  split; apply list_eq; intros j; rewrite list_lookup_fmap; (destruct (decide (j < stored (F <$> seq 0 n))) as [Hj|Hj];
    [destruct (Hx j Hj) as (e & E1 & E2 & E3); rewrite E1; done|rewrite !lookup_ge_None_2; [done|unfold stored in *; lia..]]).
Qed.
Lemma ents_ok G m r : row_ok m (ents G 0 m r).
Proof.
  unfold row_ok, ents. rewrite Nat.sub_0_r.
  assert (Hx : forall a k, StronglySorted lt (omap (fun c => (fun v => (c, v)) <$> G r c) (seq a k)).*1 /\ Forall (fun c => a <= c < a + k) (omap (fun c => (fun v => (c, v)) <$> G r c) (seq a k)).*1).
  { intros a k. revert a. induction k as [|k IH]; intros a; [split; constructor|]. destruct (IH (S a)) as [H1 H2]. cbn [seq omap list_omap].
    assert (H2' : Forall (fun c => a <= c < a + S k) (omap (fun c => (fun v => (c, v)) <$> G r c) (seq (S a) k)).*1) by (eapply Forall_impl; [exact H2|]; simpl; lia).
    destruct (G r a) as [v|]; cbn [fmap option_fmap option_map]; [|by split]. rewrite fmap_cons. cbn [fst]. split.
    - constructor; [done|]. eapply Forall_impl; [exact H2|]. simpl. lia.
    - constructor; [lia|done]. }
  destruct (Hx 0 m) as [H1 H2]. split; [done|]. eapply Forall_impl; [exact H2|]. simpl. lia.
Qed.

Theorem sink_cols alloc (G : nat -> nat -> option V) n m (qs : list item) : alloc_ok alloc -> 0 < m ->
  (forall t, t ∈ qs.*1 -> fst t < snd t <= m) -> rows_of (qs.*1) ≡ₚ seq 0 m -> Forall (fun q => col_part G n (fst q) (snd q)) qs ->
  exists s, sink_adds (sink_new CCols n m) (as_part <$> qs) = Ok s /\ exists p, sink_consume alloc s = Ok p /\ is_matrix n m (some_cols G n 0 m) p.
Proof.
  intros Hal Hn Hb Hp Hq. rewrite (col_adds G n qs Hq _ (fun _ => 0)); [|done|].
  2:{ unfold sink_new. cbn [sk_rownnz]. apply list_eq. intros j. destruct (decide (j < n)) as [Hj|Hj]; [by rewrite lookup_fseq, lookup_replicate_2|].
      rewrite !lookup_ge_None_2; [done|rewrite fmap_length, seq_length; lia|rewrite replicate_length; lia]. }
  eexists. split; [reflexivity|].
  destruct (pq_loop_sorted (St := list nat * list V * list nat) (as_part <$> qs)) as (l' & Hpl & Hsl & Hloop). apply Permutation_map_inv in Hpl as (qs' & -> & Hperm).
  assert (Hs' : StronglySorted (fun t u => fst t <= fst u) (qs'.*1)).
  { clear -Hsl. induction qs' as [|q qs' IH]; [constructor|]. change (map as_part (q :: qs')) with (as_part q :: map as_part qs') in Hsl. inversion Hsl as [|? ? H1 H2]; subst.
    rewrite fmap_cons. constructor; [by apply IH|]. clear -H2. induction qs' as [|q' qs' IH]; [constructor|]. inversion H2; subst. constructor; [done|by apply IH]. }
  assert (Hc : consec 0 m (qs'.*1)).
  { apply sorted_consec; [lia|done| |].
    - intros t Ht. apply Hb. by rewrite Hperm.
    - rewrite Nat.sub_0_r, <- Hp. unfold rows_of. by rewrite Hperm. }
  assert (Hq' : Forall (fun q => col_part G n (fst q) (snd q)) qs') by (by rewrite <- Hperm).
  unfold sink_new, sink_consume. cbn [sk_results sk_combine sk_rows sk_cols sk_nnz sk_rownnz app plus]. rewrite (decide_False (P := as_part <$> qs = [])).
  2:{ intros E. apply fmap_nil_inv in E. subst. apply Permutation_length in Hp. rewrite seq_length in Hp. simpl in Hp. lia. }
  rewrite (sumw_perm _ _ _ Hperm), (sum_cols G n m qs') by done.
  assert (Hrows : some_cols G n 0 m = ents G 0 m <$> seq 0 n) by done.
  set (rows := some_cols G n 0 m) in *. assert (Hlr : length rows = n) by (rewrite Hrows, fmap_length, seq_length; done).
  destruct (Hal n (stored rows)) as (Hv & Hcc & Hr).
  rewrite wr_Ok by lia. cbn [obind]. destruct (alloc n (stored rows)) as [vs cs ro]. cbn [broff bcols bvals] in *.
  destruct ro as [|r0 ro]; [simpl in Hr; lia|]. cbn [insert list_insert].
  rewrite (fseq_ext _ (fun r => length (default [] (rows !! r)))).
  2:{ intros r Hrn. rewrite (sumw_perm _ _ _ Hperm), (sum_cut G m r qs' 0) by done. rewrite Hrows, lookup_fseq by done. done. }
  simpl in Hr. rewrite (col_offsets_spec rows n ro 0) by (done || lia). cbn [obind]. rewrite Hloop. change (map as_part qs') with (as_part <$> qs').
  destruct (col_parts_fold G n m qs' 0 (cs, vs, (fun r => stored (take r rows)) <$> seq 0 n) Hc Hq') as ([[cs' vs'] rn'] & -> & Hf').
  { unfold filled. rewrite <- Hrows. split; [done|]. split; [done|]. split; [apply fseq_ext; intros r _; rewrite ents_nil; simpl; lia|].
    intros r i e _ Hi. by rewrite ents_nil in Hi. }
  cbn [obind]. eexists. split; [reflexivity|]. apply filled_done in Hf' as [-> ->]. rewrite <- Hrows. apply is_matrix_intro; [done|done|].
  rewrite Hrows. apply Forall_fmap, Forall_true. intros r. apply ents_ok.
Qed.
End proofs.
