(** The casts keep the cells. *)
From stdpp Require Import base numbers sorting list list_numbers.
From Coq Require Import Lia.
From Verif Require Import CppBase Mem ListUtil CSRModel CSRSpec CSRProofs CSRView PipelineModel PipelineSpec PipelineProofs PipelineAgg SinkModel SinkSpec SinkProofs SparseLoops CastModel.

Lemma fill_range_spec {V} lo hi (v : V) b : lo <= hi <= length b ->
  exists b', fill_range lo hi v b = Ok b' /\ length b' = length b /\ (forall j, lo <= j < hi -> b' !! j = Some v) /\ (forall j, ~ (lo <= j < hi) -> b' !! j = b !! j).
Proof.
  intros Hl. unfold fill_range.
  destruct (for_up_inv (fun i b' => length b' = length b /\ (forall j, lo <= j < i -> b' !! j = Some v) /\ (forall j, ~ (lo <= j < i) -> b' !! j = b !! j)) lo hi (fun i b => wr b i v) b) as (b' & E & H).
  - lia.
  - split; [done|]. split; [lia|done].
  - intros i s Hi (H1 & H2 & H3). rewrite wr_Ok by lia. eexists. split; [done|]. rewrite insert_length. split; [done|]. split.
    + intros j Hj. destruct (decide (j = i)) as [->|]; [apply list_lookup_insert; lia|]. rewrite list_lookup_insert_ne by done. apply H2. lia.
    + intros j Hj. rewrite list_lookup_insert_ne by lia. apply H3. lia.
  - exists b'. tauto.
Qed.
Lemma snoc_write {A} (p : list A) b0 x : length p < length b0 -> wr (p ++ drop (length p) b0) (length p) x = Ok ((p ++ [x]) ++ drop (length (p ++ [x])) b0).
Proof.
  intros Hl. rewrite wr_Ok by (rewrite app_length, drop_length; lia). f_equal. rewrite insert_app_r_alt by lia. rewrite Nat.sub_diag.
  destruct (lookup_lt_is_Some_2 b0 (length p) Hl) as [y Hy]. rewrite (drop_S _ _ _ Hy). cbn [insert list_insert]. rewrite app_length. simpl. rewrite Nat.add_1_r, <- app_assoc. done.
Qed.
Lemma for2_tabulate_T {V} n m (f : nat -> nat -> list V -> outcome (list V)) (g : nat -> nat -> V) b :
  length b = n * m -> (forall r c b, r < n -> c < m -> length b = n * m -> f c r b = wr b (r * m + c) (g r c)) ->
  exists b', for2 m n f b = Ok b' /\ tabulated n m g b'.
Proof.
  intros Hl Hf.
  destruct (for2_inv (fun c r b' => length b' = n * m /\ forall r' c', r' < n -> c' < m -> c' < c \/ (c' = c /\ r' < r) -> b' !! (r' * m + c') = Some (g r' c')) m n f b) as (b' & E & Hl' & H).
  - split; [done|]. lia.
  - intros c r s Hc Hr [Hs H]. rewrite Hf by done. rewrite wr_Ok by (rewrite Hs; by apply pos_lt). eexists. split; [done|].
    rewrite insert_length. split; [done|]. intros r' c' Hr' Hc' Hlt. destruct (decide (r' = r /\ c' = c)) as [[-> ->]|Hne].
    + apply list_lookup_insert. rewrite Hs. by apply pos_lt.
    + rewrite list_lookup_insert_ne; [apply H; [done|done|lia]|]. intros E. apply pos_inj in E; [|done|done]. lia.
  - intros c s Hc [Hs H]. split; [done|]. intros r' c' Hr' Hc' Hlt. apply H; lia.
  - exists b'. split; [done|]. split; [done|]. intros r c Hr Hc. apply H; [done|done|]. left. done.
Qed.

Lemma cast_dd_spec {W V} (f : W -> V) junk (a : dmat W) n m x : is_dense a n m x -> length junk = n * m ->
  exists a', cast_dd f junk a = Ok a' /\ is_dense a' n m (fun r c => f (x r c)).
Proof.
  intros Hd Hj. pose proof Hd as (Hn & Hm & Hs & Hb & Hx). unfold cast_dd. rewrite Hn, Hm. destruct (decide (m_skip a = m)) as [E|E].
  - destruct (for_up_write (m * n) (fun i b => let* v := rd (m_buf a) (m_off a + i) in wr b i (f v)) (fun i => f (x (i / m) (i mod m))) junk) as (b' & -> & Hl & Hb').
    + lia.
    + intros i b Hi _. destruct (pos_split n m i) as (r & c & Hr & Hc & ->); [lia|]. rewrite Nat.div_add_l, Nat.div_small by lia. rewrite Nat.add_0_r.
      replace ((r * m + c) mod m) with c by (rewrite Nat.add_comm, Nat.mod_add, Nat.mod_small by lia; done).
      rewrite (rd_Ok _ _ (x r c)); [done|]. rewrite <- (Hx r c) by done. f_equal. rewrite E. lia.
    + cbn [obind]. eexists. split; [done|]. apply tabulated_is_dense. split; [lia|]. intros r c Hr Hc. rewrite Hb' by (pose proof (pos_lt n m r c Hr Hc); lia).
      rewrite Nat.div_add_l, Nat.div_small by lia. rewrite Nat.add_0_r. replace ((r * m + c) mod m) with c by (rewrite Nat.add_comm, Nat.mod_add, Nat.mod_small by lia; done). done.
  - destruct (for2_tabulate n m (fun r c b => let* v := dm_at a r c in wr b (r * m + c) (f v)) (fun r c => f (x r c)) junk) as (b' & -> & Ht); [done| |].
    + intros r c b Hr Hc _. by rewrite (dm_at_Ok a n m x).
    + cbn [obind]. eexists. split; [done|]. by apply tabulated_is_dense.
Qed.

(** The columns of a frame: column c has the cells [x r c]. *)
Definition is_columns {V} (n m : nat) (x : nat -> nat -> V) (cols : list (dmat V)) : Prop :=
  length cols = m /\ forall c a, cols !! c = Some a -> is_dense a n 1 (fun r _ => x r c).
Lemma cast_df_spec {W V} (f : nat -> W -> V) same junk n m (cols : list (dmat W)) x : is_columns n m x cols ->
  (forall g, same = Some g -> forall w, g w = f 0 w) -> length junk = n * m ->
  exists a', cast_df f same junk n cols = Ok a' /\ is_dense a' n m (fun r c => f c (x r c)).
Proof.
  intros [Hm Hc] Hg Hj.
  assert (Hgen : exists a', (let* b := for_up 0 (length cols) (fun c b => let* a := rd cols c in for_up 0 n (fun r b => let* v := dm_at a r 0 in wr b (r * length cols + c) (f c v)) b) junk in
    Ok (mkDM b 0 n (length cols) (length cols))) = Ok a' /\ is_dense a' n m (fun r c => f c (x r c))).
  { rewrite Hm. rewrite (for_up_ext 0 m _ (fun c b => for_up 0 n (fun r b => let* a := rd cols c in let* v := dm_at a r 0 in wr b (r * m + c) (f c v)) b)).
    - change (for_up 0 m _ junk) with (for2 m n (fun c r b => let* a := rd cols c in let* v := dm_at a r 0 in wr b (r * m + c) (f c v)) junk).
      destruct (for2_tabulate_T n m (fun c r b => let* a := rd cols c in let* v := dm_at a r 0 in wr b (r * m + c) (f c v)) (fun r c => f c (x r c)) junk) as (b' & -> & Ht); [done| |].
      + intros r c b Hr Hcc _. destruct (rd_lt cols c) as (a & Ha & ->); [lia|]. cbn [obind]. rewrite (dm_at_Ok a n 1 (fun r _ => x r c)) by (lia || by apply Hc). done.
      + cbn [obind]. eexists. split; [done|]. by apply tabulated_is_dense.
    - intros c b Hcc. destruct (rd_lt cols c) as (a & Ha & ->); [lia|]. done. }
  unfold cast_df. destruct same as [g|]; [|done]. destruct cols as [|a [|a2 cols]]; [done| |done].
  eexists. split; [done|]. specialize (Hg g eq_refl). simpl in Hm. subst m. destruct (Hc 0 a eq_refl) as (H1 & H2 & H3 & H4 & H5).
  unfold is_dense. cbn [m_rows m_cols m_skip m_off m_buf]. rewrite fmap_length. split; [done|]. split; [done|]. split; [done|]. split; [done|].
  intros r c Hr Hcc. rewrite list_lookup_fmap, H5 by done. assert (c = 0) by lia. subst. simpl. by rewrite Hg.
Qed.
Lemma cast_fd_spec {V} junk (a : dmat V) n m x : is_dense a n m x -> (forall c, length (junk c) = n) ->
  exists cols, cast_fd junk a = Ok (n, cols) /\ is_columns n m x cols.
Proof.
  intros Hd Hj. pose proof Hd as (Hn & Hm & Hs & Hb & Hx). unfold cast_fd. rewrite Hn, Hm.
  destruct (decide (m = 1 /\ m_skip a = 1)) as [[-> Hsk]|_].
  - eexists. split; [done|]. split; [done|]. intros [|c] a' Ha; [|done]. injection Ha as <-. unfold is_dense. split; [done|]. split; [done|]. split; [lia|]. split; [done|].
    intros r c Hr Hc. assert (c = 0) by lia. subst. by apply Hx.
  - destruct (for_up_inv (fun i cols => is_columns n i x cols) 0 m (fun c cols =>
       let* b := for_up 0 n (fun r b => let* v := dm_at a r c in wr b (r * 1 + 0) v) (junk c) in Ok (cols ++ [mkDM b 0 n 1 1])) []) as (cols & -> & Hc).
    + lia.
    + split; [done|]. by intros.
    + intros c cols Hc [Hl Hcols].
      destruct (for_up_write n (fun r b => let* v := dm_at a r c in wr b (r * 1 + 0) v) (fun r => x r c) (junk c)) as (b' & -> & Hbl & Hb'); [done| |].
      * intros r b Hr _. rewrite (dm_at_Ok a n m x) by (done || lia). cbn [obind]. by rewrite Nat.mul_1_r, Nat.add_0_r.
      * cbn [obind]. eexists. split; [done|]. split; [rewrite app_length; simpl; lia|]. intros c' a' Ha. apply lookup_app_Some in Ha as [Ha|[Hge Ha]]; [by apply Hcols|].
        destruct (c' - length cols) as [|k] eqn:Hk; [|done]. injection Ha as <-. assert (c' = c) as -> by lia. unfold is_dense. cbn [m_rows m_cols m_skip m_off m_buf].
        split; [done|]. split; [done|]. split; [done|]. split; [lia|]. intros r c0 Hr Hc0. rewrite <- (Hb' r Hr). f_equal. lia.
    + cbn [obind]. eauto.
Qed.
Lemma cast_cd_spec {V} junk (a : dmat V) n x : is_dense a n 1 x -> length junk = n ->
  exists b, cast_cd junk a = Ok (n, b) /\ (forall r, r < n -> b !! r = Some (x r 0)) /\ (n = 0 \/ n <= length b).
Proof.
  intros (Hn & Hm & Hs & Hb & Hx) Hj. unfold cast_cd. rewrite Hn, Hm. rewrite decide_True by done. destruct (decide (m_skip a = 1)) as [E|E].
  - eexists. split; [done|]. split.
    + intros r Hr. rewrite lookup_drop, <- (Hx r 0) by lia. f_equal. rewrite E. lia.
    + rewrite drop_length. rewrite E in Hb. destruct Hb; [by left|right; lia].
  - destruct (for_up_write n (fun r b => let* v := rd (m_buf a) (m_off a + r * m_skip a) in wr b r v) (fun r => x r 0) junk) as (b' & -> & Hl & Hb'); [done| |].
    + intros r b Hr _. rewrite (rd_Ok _ _ (x r 0)); [done|]. rewrite <- (Hx r 0) by lia. f_equal. lia.
    + cbn [obind]. eexists. split; [done|]. split; [done|]. right. lia.
Qed.

Section csr.
Context {V : Type} `{Val V}.

Lemma cast_sd_spec junk b h rs : shows b h rs -> length junk = h_rows h * h_cols h ->
  exists vs, cast_sd junk b h = Ok (mkDM vs 0 (h_rows h) (h_cols h) (h_cols h)) /\ tabulated (h_rows h) (h_cols h) (cell rs) vs.
Proof.
  intros Hs Hj. destruct (shows_reads _ _ _ Hs) as (base & HR & _). pose proof (rd_ok _ _ _ _ HR) as Hok. pose proof (rd_rows _ _ _ _ HR) as Hlen.
  unfold cast_sd. set (n := h_rows h) in *. set (m := h_cols h) in *. rewrite (reads_nnz _ _ _ _ HR). cbn [obind].
  destruct (decide (stored rs = 0)) as [E|E].
  - destruct (fill_range_spec 0 (n * m) vzero junk) as (vs & -> & Hl & H1 & _); [lia|]. cbn [obind]. eexists. split; [done|]. split; [lia|].
    intros r c Hr Hc. rewrite H1 by (split; [lia|by apply pos_lt]). f_equal. unfold cell. destruct (rs !! r) as [l|] eqn:Hr'; [|done].
    assert (l = []) as ->; [|done]. pose proof (stored_take_lt rs r (S r) l Hr') as Hx. pose proof (stored_take_le rs (S r)). destruct l; [done|]. simpl in Hx. lia.
  - destruct (decide (stored rs = n * m)) as [E2|E2].
    + change (roff b h 0) with (roff b h 0). rewrite (rd_off _ _ _ _ HR) by lia. cbn [obind]. change (stored (take 0 rs)) with 0. rewrite Nat.add_0_r.
      pose proof (rd_len_v _ _ _ _ HR) as Hlv. destruct (copy_range_spec junk 0 (bvals b) base (stored rs)) as (vs & -> & Hl & H1 & _); [lia|done|]. cbn [obind].
      eexists. split; [done|]. split; [lia|]. intros r c Hr Hc. pose proof (pos_lt n m r c Hr Hc) as Hp. specialize (H1 (r * m + c)). cbn [plus] in H1. rewrite H1 by lia.
      rewrite (rd_vals _ _ _ _ HR) by lia. destruct (stored_uniform m rs Hok) as [_ Hu]. specialize (Hu ltac:(lia)). destruct (lookup_lt_is_Some_2 rs r) as [l Hl']; [lia|].
      rewrite list_lookup_fmap, (concat_uniform _ m r c l) by done. rewrite Forall_lookup in Hok, Hu. specialize (Hok _ _ Hl'). specialize (Hu _ _ Hl'). cbn in Hu.
      destruct (row_ok_length m l Hok) as [_ Hseq]. specialize (Hseq Hu). destruct (lookup_lt_is_Some_2 l c) as [[c' v] He]; [lia|]. rewrite He. cbn [fmap option_fmap option_map snd].
      assert (Hc' : l.*1 !! c = Some c') by (by rewrite list_lookup_fmap, He). rewrite Hseq, lookup_seq_lt in Hc' by done. injection Hc' as <-. cbn [plus] in *.
      f_equal. unfold cell. rewrite Hl', cell_in_find. rewrite (find_col_elem c v l); [done|apply Hok|]. by eapply elem_of_list_lookup_2.
    + set (step := fun (t : nat * nat * V) (st : list V * nat) => let '(vs, prev) := st in
           let* vs := fill_range prev (t.1.1 * m + t.1.2) vzero vs in let* vs := wr vs (t.1.1 * m + t.1.2) t.2 in Ok (vs, t.1.1 * m + t.1.2 + 1)).
      unfold n at 1. rewrite (entries_loop2 b h base rs _ step).
      2: done.
      2:{ intros r s i c v [vs prev] _ Hc Hv _. rewrite (rd_Ok _ _ _ Hc). cbn [obind]. unfold step. cbn [fst snd]. destruct (fill_range prev _ _ vs); cbn [obind]; [|done|done]. by rewrite (rd_Ok _ _ _ Hv). }
      set (pos := fun t : nat * nat * V => t.1.1 * m + t.1.2).
      pose proof (triples_sorted m rs 0 Hok) as Hso. fold (triples rs) in Hso. pose proof (triples_pos m rs 0 Hok) as Hpo. fold (triples rs) in Hpo.
      assert (Hgap : forall r c, r < n -> c < m -> (forall t, t ∈ triples rs -> pos t <> r * m + c) -> cell rs r c = vzero).
      { intros r c Hr Hc Hno. rewrite cell_colG. destruct (colG rs c r) as [v|] eqn:Hg; [|done]. apply (elem_of_triples m) in Hg; [|done]. by destruct (Hno _ Hg). }
      destruct (ofold_inv (fun pre st => length st.1 = n * m /\ st.2 <= n * m /\ (forall t, t ∈ pre -> pos t < st.2) /\ (forall x post, triples rs = pre ++ x :: post -> st.2 <= pos x) /\
          (forall r c, r < n -> c < m -> r * m + c < st.2 -> st.1 !! (r * m + c) = Some (cell rs r c))) step (triples rs) (junk, 0)) as ([vs prev] & -> & Hl & Hpr & Hlast & _ & Hcell).
      * cbn [fst snd]. split; [done|]. split; [lia|]. split; [by intros t ?%elem_of_nil|]. split; [lia|lia].
      * intros pre [[r c] v] post [vs prev] ET (Hl & Hpr & Hpre & Hnext & Hcell). cbn [fst snd] in *. specialize (Hnext _ _ ET). unfold pos in Hnext. cbn [fst snd] in Hnext.
        assert (Hrc : r < n /\ c < m). { rewrite ET in Hpo. apply Forall_app in Hpo as [_ [Hx _]%Forall_cons]. cbn [fst snd] in Hx. lia. } destruct Hrc as [Hr Hc].
        pose proof (pos_lt n m r c Hr Hc) as Hp. unfold step. cbn [fst snd].
        destruct (fill_range_spec prev (r * m + c) vzero vs) as (vs1 & -> & Hl1 & F1 & F2); [lia|]. cbn [obind]. rewrite wr_Ok by lia. cbn [obind]. eexists. split; [reflexivity|]. cbn [fst snd].
        rewrite ET in Hso. rewrite insert_length. split; [lia|]. split; [lia|]. split; [|split].
        -- intros t [Ht|Ht]%elem_of_app; [specialize (Hpre t Ht); lia|]. apply elem_of_list_singleton in Ht. subst. unfold pos. cbn [fst snd]. lia.
        -- intros x post' E'. rewrite ET in E'. rewrite <- app_assoc in E'. cbn [app] in E'. apply app_inv_head in E'. injection E' as ->. rewrite <- (app_nil_r pre) in Hso.
           assert (Hx : r * m + c < pos x); [|lia]. apply (elem_of_StronglySorted_app (fun t u : nat * nat * V => t.1.1 * m + t.1.2 < u.1.1 * m + u.1.2) (pre ++ [(r, c, v)]) (x :: post') (r, c, v) x).
           ++ rewrite app_nil_r, <- app_assoc in *. done.
           ++ apply elem_of_app. right. by apply elem_of_list_singleton.
           ++ left.
        -- intros r' c' Hr' Hc' Hlt. destruct (decide (r' = r /\ c' = c)) as [[-> ->]|Hne].
           ++ rewrite list_lookup_insert by lia. f_equal. rewrite cell_colG. rewrite (proj1 (elem_of_triples m rs r c v Hok)); [done|]. rewrite ET. apply elem_of_app. right. left.
           ++ assert (Hne' : r' * m + c' <> r * m + c) by (intros Eq; apply pos_inj in Eq; [|done|done]; lia).
              rewrite list_lookup_insert_ne by done. destruct (decide (r' * m + c' < prev)) as [Hlt'|Hge]; [rewrite F2 by lia; by apply Hcell|].
              rewrite F1 by lia. f_equal. symmetry. apply Hgap; [done|done|]. intros t Ht Eq. rewrite ET in Ht. apply elem_of_app in Ht as [Ht|Ht]; [specialize (Hpre t Ht); lia|].
              apply elem_of_cons in Ht as [->|Ht]; [unfold pos in Eq; cbn [fst snd] in Eq; lia|].
              assert (Hx : r * m + c < pos t); [|lia]. apply (elem_of_StronglySorted_app (fun t u : nat * nat * V => t.1.1 * m + t.1.2 < u.1.1 * m + u.1.2) (pre ++ [(r, c, v)]) post (r, c, v) t).
              ** rewrite <- app_assoc. done.
              ** apply elem_of_app. right. by apply elem_of_list_singleton.
              ** done.
      * cbn [obind fst snd] in *. destruct (fill_range_spec prev (n * m) vzero vs) as (vs1 & -> & Hl1 & F1 & F2); [lia|]. cbn [obind]. eexists. split; [done|]. split; [lia|].
        intros r c Hr Hc. pose proof (pos_lt n m r c Hr Hc) as Hp. destruct (decide (r * m + c < prev)) as [Hlt|Hge]; [rewrite F2 by lia; by apply Hcell|].
        rewrite F1 by lia. f_equal. symmetry. apply Hgap; [done|done|]. intros t Ht Eq. specialize (Hlast t Ht). lia.
Qed.

(** The rows of a dense matrix without its zeros. *)
Definition nzG (x : nat -> nat -> V) (r c : nat) : option V := if viszero (x r c) then None else Some (x r c).
Definition nz_rows (n m : nat) (x : nat -> nat -> V) : list (row V) := ents (nzG x) 0 m <$> seq 0 n.
Lemma ents_S (G : nat -> nat -> option V) c r : ents G 0 (S c) r = ents G 0 c r ++ match G r c with Some v => [(c, v)] | None => [] end.
Proof. rewrite (ents_app G 0 c (S c)) by lia. f_equal. unfold ents. replace (S c - c) with 1 by lia. cbn [seq omap list_omap]. by destruct (G r c). Qed.
Lemma fseq_S {A} (f : nat -> A) n : f <$> seq 0 (S n) = (f <$> seq 0 n) ++ [f n].
Proof. rewrite seq_S, fmap_app. done. Qed.
Lemma nz_rows_S n m x : nz_rows (S n) m x = nz_rows n m x ++ [ents (nzG x) 0 m n].
Proof. apply fseq_S. Qed.
Lemma nz_rows_ok n m x : Forall (row_ok m) (nz_rows n m x).
Proof. apply Forall_fmap, Forall_forall. intros r _. apply ents_ok. Qed.
Lemma nz_rows_length n m x : length (nz_rows n m x) = n.
Proof. unfold nz_rows. by rewrite fmap_length, seq_length. Qed.
Lemma nz_rows_cell n m x r c : r < n -> c < m -> cell (nz_rows n m x) r c = norm (x r c).
Proof.
  intros Hr Hc. unfold cell, nz_rows. rewrite lookup_fseq by done. rewrite cell_in_find, find_col_ents. rewrite decide_True by lia. unfold nzG, norm. by destruct (viszero (x r c)).
Qed.
Lemma nz_rows_no_zeros n m x : no_zeros (nz_rows n m x).
Proof.
  apply Forall_fmap, Forall_forall. intros r _. apply Forall_forall. intros [c v] Hin. cbn [snd].
  apply find_col_elem in Hin; [|apply (ents_ok (nzG x) m r)]. rewrite find_col_ents in Hin. unfold nzG in Hin. destruct (decide _); [|done]. destruct (viszero (x r c)) eqn:E; [done|]. by injection Hin as <-.
Qed.
Lemma nz_rows_take n m x r : r <= n -> take r (nz_rows n m x) = nz_rows r m x.
Proof. intros Hr. unfold nz_rows. replace n with (r + (n - r)) by lia. rewrite seq_app, fmap_app. apply take_app_alt. by rewrite fmap_length, seq_length. Qed.

Lemma count_nz_spec (a : dmat V) n m x : is_dense a n m x -> count_nz a = Ok (stored (nz_rows n m x)).
Proof.
  intros Hd. pose proof Hd as (Hn & Hm & _). unfold count_nz. rewrite Hn, Hm.
  destruct (for2_inv (fun r c k => k = stored (nz_rows r m x) + length (ents (nzG x) 0 c r)) n m (fun r c k => let* v := dm_at a r c in Ok (if viszero v then k else k + 1)) 0) as (k & -> & ->).
  - done.
  - intros r c k Hr Hc ->. rewrite (dm_at_Ok a n m x) by done. cbn [obind]. eexists. split; [reflexivity|]. change (1 + c) with (S c). rewrite ents_S, app_length. change (nzG x r c) with (if viszero (x r c) then None else Some (x r c)). destruct (viszero (x r c)); simpl; lia.
  - intros r k Hr ->. change (1 + r) with (S r). rewrite nz_rows_S, stored_app, ents_nil. unfold stored. cbn [concat length]. rewrite app_nil_r. lia.
  - f_equal. rewrite ents_nil. cbn [length]. lia.
Qed.

Lemma offsets_uniform (rows : list (row V)) m (ro : list nat) : Forall (fun l => length l = m) rows -> length ro = length rows + 1 ->
  (forall r, r <= length rows -> ro !! r = Some (r * m)) -> ro = offsets 0 rows.
Proof.
  intros Hu Hl Hr. apply list_eq. intros j. destruct (decide (j <= length rows)) as [Hj|Hj].
  - rewrite Hr by done. rewrite offsets_lookup by done. f_equal. cbn [plus]. unfold stored. rewrite (concat_uniform_length _ m) by (by apply Forall_take). rewrite take_length. by replace (j `min` length rows) with j by lia.
  - rewrite !lookup_ge_None_2; [done|rewrite offsets_length; lia|lia].
Qed.

Lemma cast_ds_spec alloc (a : dmat V) n m x : alloc_ok alloc -> is_dense a n m x -> exists res, cast_ds alloc a = Ok res /\ is_matrix n m (nz_rows n m x) res.
Proof.
  intros Hal Hd. pose proof Hd as (Hn & Hm & Hsk & Hb & Hx). unfold cast_ds. rewrite (count_nz_spec a n m x Hd). cbn [obind]. rewrite Hn, Hm. set (rows := nz_rows n m x).
  assert (Hok : Forall (row_ok m) rows) by apply nz_rows_ok. assert (Hrl : length rows = n) by apply nz_rows_length.
  destruct (Hal n (stored rows)) as (Hv & Hc & Hr). destruct (alloc n (stored rows)) as [vs0 cs0 ro0]. cbn [bvals bcols broff] in *.
  destruct (decide (stored rows = 0)) as [E|E].
  - rewrite E in *. destruct (fill_range_spec 0 (n + 1) 0 ro0) as (ro & -> & Hl & H1 & _); [lia|]. cbn [obind]. eexists. split; [reflexivity|].
    assert (Hnil : concat rows = []) by (unfold stored in E; by apply nil_length_inv).
    assert (Hro : ro = offsets 0 rows).
    { apply list_eq. intros j. destruct (decide (j <= n)) as [Hj|Hj].
      - rewrite H1 by lia. rewrite offsets_lookup by lia. f_equal. pose proof (stored_take_le rows j). cbn [plus]. unfold stored in *. lia.
      - rewrite !lookup_ge_None_2; [done|rewrite offsets_length; lia|lia]. }
    rewrite Hro. destruct vs0; [|done]. destruct cs0; [|done].
    replace (mkBuf [] [] (offsets 0 rows)) with (mkBuf (concat rows).*2 (concat rows).*1 (offsets 0 rows)) by (by rewrite Hnil).
    apply is_matrix_intro; [by rewrite E|done|done].
  - destruct (decide (stored rows = n * m)) as [E2|E2].
    + destruct (stored_uniform m rows Hok) as [_ Hu]. specialize (Hu ltac:(lia)).
      assert (Hent : forall r c, r < n -> c < m -> concat rows !! (r * m + c) = Some (c, x r c)).
      { intros r c Hr' Hc'. assert (Hrow : rows !! r = Some (ents (nzG x) 0 m r)) by (by apply lookup_fseq). rewrite (concat_uniform _ m r c _ Hu Hrow Hc').
        rewrite Forall_lookup in Hu, Hok. specialize (Hu _ _ Hrow). specialize (Hok _ _ Hrow). cbn in Hu. destruct (row_ok_length _ _ Hok) as [_ Hseq]. specialize (Hseq Hu).
        destruct (lookup_lt_is_Some_2 (ents (nzG x) 0 m r) c) as [[c' v] He]; [lia|]. rewrite He.
        assert (Hc2 : (ents (nzG x) 0 m r).*1 !! c = Some c') by (by rewrite list_lookup_fmap, He). rewrite Hseq, lookup_seq_lt in Hc2 by done. injection Hc2 as <-. cbn [plus] in *.
        pose proof (elem_of_list_lookup_2 _ _ _ He) as Hin. apply find_col_elem in Hin; [|apply Hok]. rewrite find_col_ents, decide_True in Hin by lia. unfold nzG in Hin.
        destruct (viszero (x r c)); [done|]. injection Hin as <-. done. }
      assert (Hcl : length (concat rows) = n * m) by done.
      assert (Hvals : exists vs, (if decide (m_skip a = m \/ n = 1) then Ok (take (stored rows) (drop (m_off a) (m_buf a))) else copy_block vs0 0 m (m_buf a) (m_off a) (m_skip a) n m) = Ok vs /\ vs = (concat rows).*2).
      { assert (Hnz : n <> 0 /\ m <> 0) by nia. destruct Hnz as [Hn0 Hm0]. destruct Hb as [Hb|Hb]; [lia|].
        assert (Heq : forall vs, length vs = n * m -> (forall r c, r < n -> c < m -> vs !! (r * m + c) = Some (x r c)) -> vs = (concat rows).*2).
        { intros vs Hl Hcells. apply list_eq. intros j. destruct (decide (j < n * m)) as [Hj|Hj].
          - destruct (pos_split n m j Hj) as (r & c & Hr' & Hc' & ->). rewrite Hcells, list_lookup_fmap, Hent by done. done.
          - rewrite !lookup_ge_None_2; [done|rewrite fmap_length; lia|lia]. }
        destruct (decide (m_skip a = m \/ n = 1)) as [Hcon|Hcon].
        - eexists. split; [reflexivity|]. assert (Hsz : m_off a + n * m <= length (m_buf a)) by (destruct Hcon as [Hcon|Hcon]; [rewrite Hcon in Hb; nia|subst n; lia]).
          apply Heq; [rewrite take_length, drop_length; lia|]. intros r c Hr' Hc'. pose proof (pos_lt n m r c Hr' Hc'). rewrite lookup_take, lookup_drop by lia. rewrite <- Hx by done. f_equal.
          destruct Hcon as [Hcon|Hcon]; [rewrite Hcon; lia|]. assert (r = 0) by lia. subst r. lia.
        - destruct (copy_block_spec vs0 0 m (m_buf a) (m_off a) (m_skip a) n m) as (vs & -> & Hl & H1 & _); [done|right; nia|by right|]. eexists. split; [reflexivity|].
          apply Heq; [lia|]. intros r c Hr' Hc'. specialize (H1 r c Hr' Hc'). cbn [plus] in H1. rewrite H1. by apply Hx. }
      destruct Hvals as (vs & -> & ->). cbn [obind].
      destruct (for_up_inv (fun r st => length st.1 = n * m /\ length st.2 = n + 1 /\ (forall r' c, r' < r -> c < m -> st.1 !! (r' * m + c) = Some c) /\ (forall r', r' < r -> st.2 !! r' = Some (r' * m))) 0 n
        (fun r st => let '(cs, ro) := st in let* cs := for_up 0 m (fun c cs => wr cs (r * m + c) c) cs in let* ro := wr ro r (r * m) in Ok (cs, ro)) (cs0, ro0)) as ([cs ro] & -> & Hlc & Hlr & Hcs & Hro).
      * lia.
      * cbn [fst snd]. split; [lia|]. split; [lia|]. split; lia.
      * intros r [cs ro] Hr' (H1 & H2 & H3 & H4). cbn [fst snd] in *.
        destruct (for_up_inv (fun c cs' => length cs' = n * m /\ (forall c', c' < c -> cs' !! (r * m + c') = Some c') /\ (forall j, j < r * m -> cs' !! j = cs !! j)) 0 m (fun c cs => wr cs (r * m + c) c) cs) as (cs1 & -> & G1 & G2 & G3).
        -- lia.
        -- split; [done|]. split; [lia|done].
        -- intros c cs' Hc' (G1 & G2 & G3). pose proof (pos_lt n m r c ltac:(lia) ltac:(lia)). rewrite wr_Ok by lia. eexists. split; [done|]. rewrite insert_length. split; [done|]. split.
           ++ intros c' Hc2. destruct (decide (c' = c)) as [->|]; [apply list_lookup_insert; lia|]. rewrite list_lookup_insert_ne by lia. apply G2. lia.
           ++ intros j Hj. rewrite list_lookup_insert_ne by lia. by apply G3.
        -- cbn [obind]. rewrite wr_Ok by lia. cbn [obind]. eexists. split; [reflexivity|]. cbn [fst snd]. rewrite insert_length. split; [done|]. split; [done|]. split.
           ++ intros r' c Hlt Hc'. destruct (decide (r' = r)) as [->|]; [by apply G2|]. rewrite G3 by nia. apply H3; lia.
           ++ intros r' Hlt. destruct (decide (r' = r)) as [->|]; [apply list_lookup_insert; lia|]. rewrite list_lookup_insert_ne by done. apply H4. lia.
      * cbn [obind fst snd] in *. rewrite wr_Ok by lia. cbn [obind]. eexists. split; [reflexivity|].
        assert (Hcs' : cs = (concat rows).*1).
        { apply list_eq. intros j. destruct (decide (j < n * m)) as [Hj|Hj].
          - destruct (pos_split n m j Hj) as (r & c & Hr' & Hc' & ->). rewrite Hcs, list_lookup_fmap, Hent by done. done.
          - rewrite !lookup_ge_None_2; [done|rewrite fmap_length; lia|lia]. }
        assert (Hro' : <[n := n * m]> ro = offsets 0 rows).
        { apply (offsets_uniform rows m); [done|rewrite insert_length; lia|]. intros r Hr'. destruct (decide (r = n)) as [->|]; [apply list_lookup_insert; lia|]. rewrite list_lookup_insert_ne by done. apply Hro. lia. }
        rewrite Hcs', Hro'. apply is_matrix_intro; done.
    + destruct ro0 as [|r0 ro0]; [simpl in Hr; lia|]. rewrite wr_Ok by (simpl; lia). cbn [obind insert list_insert]. simpl in Hr.
      set (St := fun (E : row V) (ro : list nat) => (E.*1 ++ drop (length E) cs0, E.*2 ++ drop (length E) vs0, ro, length E)).
      destruct (for_up_inv (fun r st => st = St (concat (nz_rows r m x)) (offsets 0 (nz_rows r m x) ++ drop r ro0)) 0 n (fun r st =>
        let* (cs, vs, ro, i) := for_up 0 m (fun c st => let '(cs, vs, ro, i) := st in
            let* v := dm_at a r c in
            if viszero v then Ok st
            else let* vs := wr vs i v in let* cs := wr cs i c in Ok (cs, vs, ro, i + 1)) st in
        let* ro := wr ro (r + 1) i in Ok (cs, vs, ro, i)) (cs0, vs0, 0 :: ro0, 0)) as (st & -> & ->).
      * lia.
      * unfold St. cbn. by rewrite !drop_0.
      * intros r st Hr' ->. set (E0 := concat (nz_rows r m x)). set (ro := offsets 0 (nz_rows r m x) ++ drop r ro0).
        assert (Hrow : rows !! r = Some (ents (nzG x) 0 m r)) by (apply lookup_fseq; lia).
        destruct (for_up_inv (fun c st => st = St (E0 ++ ents (nzG x) 0 c r) ro) 0 m (fun c st => let '(cs, vs, ro, i) := st in
            let* v := dm_at a r c in
            if viszero v then Ok st
            else let* vs := wr vs i v in let* cs := wr cs i c in Ok (cs, vs, ro, i + 1)) (St E0 ro)) as (st & -> & ->).
        -- lia.
        -- rewrite ents_nil, app_nil_r. done.
        -- intros c st Hc' ->. unfold St at 1. rewrite (dm_at_Ok a n m x) by (done || lia). cbn [obind]. change (1 + c) with (S c). rewrite ents_S. change (nzG x r c) with (if viszero (x r c) then None else Some (x r c)).
           destruct (viszero (x r c)) eqn:Hz; [eexists; split; [reflexivity|]; rewrite app_nil_r; done|].
           assert (Hlt : length (E0 ++ ents (nzG x) 0 c r) < stored rows).
           { rewrite app_length. pose proof (stored_take_lt rows r (S r) _ Hrow) as Hx1. pose proof (stored_take_le rows (S r)) as Hx2. unfold rows at 1 in Hx1. rewrite nz_rows_take in Hx1 by lia. fold E0 in Hx1.
             assert (Hp : length (ents (nzG x) 0 c r) < length (ents (nzG x) 0 m r)); [|unfold stored in *; fold E0 in Hx1; lia].
             rewrite (ents_app _ 0 (S c) m), ents_S, !app_length by lia. change (nzG x r c) with (if viszero (x r c) then None else Some (x r c)). rewrite Hz. simpl. lia. }
           set (P := E0 ++ ents (nzG x) 0 c r) in *.
           assert (W2 : wr (P.*2 ++ drop (length P) vs0) (length P) (x r c) = Ok ((P.*2 ++ [x r c]) ++ drop (length P + 1) vs0)).
           { pose proof (snoc_write P.*2 vs0 (x r c)) as Hw. rewrite app_length, fmap_length in Hw. apply Hw. lia. }
           assert (W1 : wr (P.*1 ++ drop (length P) cs0) (length P) c = Ok ((P.*1 ++ [c]) ++ drop (length P + 1) cs0)).
           { pose proof (snoc_write P.*1 cs0 c) as Hw. rewrite app_length, fmap_length in Hw. apply Hw. lia. }
           rewrite W2. cbn [obind]. rewrite W1. cbn [obind]. eexists. split; [reflexivity|].
           unfold St. rewrite (app_assoc E0). fold P. rewrite !fmap_app, !app_length. done.
        -- unfold St. cbn [obind]. assert (Hlo : length (offsets 0 (nz_rows r m x)) = r + 1) by (rewrite offsets_length, nz_rows_length; lia).
           destruct (lookup_lt_is_Some_2 ro0 r) as [y Hy]; [lia|].
           rewrite wr_Ok by (unfold ro; rewrite app_length, drop_length; lia). cbn [obind]. eexists. split; [reflexivity|]. unfold St. change (1 + r) with (S r). rewrite nz_rows_S, concat_app. cbn [concat]. rewrite app_nil_r. fold E0.
           do 2 f_equal. unfold ro. rewrite insert_app_r_alt by lia. rewrite Hlo, Nat.sub_diag, (drop_S _ _ _ Hy). cbn [insert list_insert]. rewrite offsets_snoc, <- app_assoc. cbn [app]. do 2 f_equal.
           rewrite stored_app. unfold stored. cbn [concat]. rewrite app_nil_r, app_length. done.
      * unfold St. cbn [obind]. eexists. split; [reflexivity|]. fold rows. change (length (concat rows)) with (stored rows). rewrite !drop_ge by lia. rewrite !app_nil_r. apply is_matrix_intro; done.
Qed.
End csr.

(** Sparse to sparse. *)
Section ss.
Context {W V : Type} `{HW : Val W} `{HV : Val V} (f : W -> V).
Definition map_rows (rs : list (row W)) : list (row V) := (fun l : row W => (fun e : nat * W => (fst e, f (snd e))) <$> l) <$> rs.
Lemma map_rows_fst rs : (concat (map_rows rs)).*1 = (concat rs).*1.
Proof. induction rs as [|l rs IH]; [done|]. unfold map_rows in *. rewrite fmap_cons. cbn [concat]. rewrite !fmap_app, IH, <- list_fmap_compose. done. Qed.
Lemma map_rows_snd rs : (concat (map_rows rs)).*2 = f <$> (concat rs).*2.
Proof. induction rs as [|l rs IH]; [done|]. unfold map_rows in *. rewrite fmap_cons. cbn [concat]. rewrite !fmap_app, IH, <- !list_fmap_compose. done. Qed.
Lemma map_rows_offsets rs k : offsets k (map_rows rs) = offsets k rs.
Proof. revert k. induction rs as [|l rs IH]; intros k; [done|]. unfold map_rows in *. rewrite fmap_cons. cbn [offsets]. by rewrite IH, fmap_length. Qed.
Lemma map_rows_stored rs : stored (map_rows rs) = stored rs.
Proof. unfold stored. rewrite <- (fmap_length fst), map_rows_fst, fmap_length. done. Qed.
Lemma map_rows_ok m rs : Forall (row_ok m) rs -> Forall (row_ok m) (map_rows rs).
Proof.
  intros Hok. apply Forall_fmap. eapply Forall_impl; [exact Hok|]. intros l [H1 H2]. cbn. unfold row_ok.
  assert (E : ((fun e : nat * W => (fst e, f (snd e))) <$> l).*1 = l.*1) by (rewrite <- list_fmap_compose; done). rewrite E. done.
Qed.

(** The copying of the entries, and what it needs: entries that start at the beginning of the arrays. *)
Lemma ss_entries b h rs : csr_reads b h 0 rs -> 
  for_up 0 (stored rs) (fun i st => let '(vs, cs) := st in
      let* v := rd (bvals b) i in let* vs := wr vs i (f v) in
      let* c := rd (bcols b) i in let* cs := wr cs i c in Ok (vs, cs)) (replicate (stored rs) vzero, replicate (stored rs) 0) = Ok (f <$> (concat rs).*2, (concat rs).*1).
Proof.
  intros HR. set (E := concat rs).
  destruct (for_up_inv (fun i st => st = (take i (f <$> E.*2) ++ drop i (replicate (stored rs) vzero), take i E.*1 ++ drop i (replicate (stored rs) 0))) 0 (stored rs) (fun i st => let '(vs, cs) := st in
      let* v := rd (bvals b) i in let* vs := wr vs i (f v) in
      let* c := rd (bcols b) i in let* cs := wr cs i c in Ok (vs, cs)) (replicate (stored rs) vzero, replicate (stored rs) 0)) as (st & -> & ->).
  - lia.
  - by rewrite !drop_0, !take_0.
  - intros i st Hi ->. assert (HE : i < length E) by apply Hi. destruct (lookup_lt_is_Some_2 E i HE) as [e He].
    assert (Hv : (f <$> E.*2) !! i = Some (f (snd e))) by (by rewrite !list_lookup_fmap, He). assert (Hc : E.*1 !! i = Some (fst e)) by (by rewrite list_lookup_fmap, He).
    pose proof (rd_vals _ _ _ _ HR i) as Rv. pose proof (rd_cols _ _ _ _ HR i) as Rc. cbn [plus] in Rv, Rc. fold E in Rv, Rc. rewrite list_lookup_fmap, He in Rv. rewrite Hc in Rc. cbn in Rv.
    rewrite (rd_Ok _ _ _ (Rv ltac:(lia))). cbn [obind]. rewrite (rd_Ok _ _ _ (Rc ltac:(lia))).
    assert (Hl1 : length (take i (f <$> E.*2)) = i) by (rewrite take_length, !fmap_length; lia).
    assert (Hl2 : length (take i E.*1) = i) by (rewrite take_length, !fmap_length; lia).
    pose proof (snoc_write (take i (f <$> E.*2)) (replicate (stored rs) vzero) (f (snd e))) as W1. rewrite app_length, Hl1, replicate_length in W1. rewrite W1 by lia. cbn [obind].
    pose proof (snoc_write (take i E.*1) (replicate (stored rs) 0) (fst e)) as W2. rewrite app_length, Hl2, replicate_length in W2. rewrite W2 by lia. cbn [obind].
    eexists. split; [reflexivity|]. change (1 + i) with (S i). rewrite (take_S_r _ _ _ Hv), (take_S_r _ _ _ Hc). cbn [length]. by rewrite Nat.add_1_r.
  - rewrite !drop_ge by (by rewrite replicate_length). rewrite !app_nil_r, !take_ge; [done|rewrite fmap_length; done|rewrite !fmap_length; done].
Qed.
Lemma cast_ss_square b h rs : shows b h rs -> h_off h = 0 -> h_rows h = h_cols h ->
  exists res, cast_ss f b h = Ok res /\ is_matrix (h_rows h) (h_cols h) (map_rows rs) res.
Proof.
  intros Hs H0 Hsq. destruct (shows_reads _ _ _ Hs) as (base & HR & Hbase). specialize (Hbase H0). subst base. pose proof (rd_rows _ _ _ _ HR) as Hlen.
  unfold cast_ss. rewrite (reads_nnz _ _ _ _ HR). unfold csr_new. cbn [obind bvals bcols broff]. rewrite (ss_entries _ _ _ HR). cbn [obind].
  destruct (for_up_write (h_rows h + 1) (fun r ro => let* x := roff b h r in wr ro r x) (fun r => stored (take r rs)) (replicate (h_cols h + 1) 0)) as (ro & -> & Hl & Hro).
  - rewrite replicate_length. lia.
  - intros r ro Hr _. by rewrite (rd_off _ _ _ _ HR) by lia.
  - cbn [obind]. eexists. split; [reflexivity|]. rewrite <- map_rows_fst, <- map_rows_snd.
    assert (Eo : ro = offsets 0 (map_rows rs)).
    { rewrite map_rows_offsets. apply list_eq. intros j. destruct (decide (j < h_rows h + 1)) as [Hj|Hj].
      - rewrite Hro by done. by rewrite offsets_lookup by lia.
      - rewrite !lookup_ge_None_2; [done|rewrite offsets_length; lia|lia]. }
    rewrite Eo. apply is_matrix_intro.
    + rewrite map_rows_stored. f_equal; done.
    + unfold map_rows. by rewrite fmap_length.
    + apply map_rows_ok. apply (rd_ok _ _ _ _ HR).
Qed.
(** More rows than columns: the row offsets are written past the end of the new array. *)
Lemma cast_ss_tall b h rs : shows b h rs -> h_cols h < h_rows h -> h_off h = 0 -> cast_ss f b h = UB.
Proof.
  intros Hs Ht H0. destruct (shows_reads _ _ _ Hs) as (base & HR & Hbase). specialize (Hbase H0). subst base. pose proof (rd_rows _ _ _ _ HR) as Hlen.
  unfold cast_ss. rewrite (reads_nnz _ _ _ _ HR). unfold csr_new. cbn [obind bvals bcols broff]. rewrite (ss_entries _ _ _ HR). cbn [obind].
  assert (Hub : for_up 0 (h_rows h + 1) (fun r ro => let* x := roff b h r in wr ro r x) (replicate (h_cols h + 1) 0) = UB); [|by rewrite Hub].
  set (g := fun r ro => let* x := roff b h r in wr ro r x).
  assert (Hx : for_up 0 (h_rows h + 1) g (replicate (h_cols h + 1) 0) = (let* ro := for_up 0 (h_cols h + 1) g (replicate (h_cols h + 1) 0) in for_up (h_cols h + 1) (h_rows h + 1) g ro)).
  { unfold for_up. replace (h_rows h + 1 - 0) with ((h_cols h + 1) + (h_rows h - h_cols h)) by lia. rewrite forn_app. rewrite Nat.sub_0_r. by replace (h_rows h + 1 - (h_cols h + 1)) with (h_rows h - h_cols h) by lia. }
  rewrite Hx. destruct (for_up_write (h_cols h + 1) g (fun r => stored (take r rs)) (replicate (h_cols h + 1) 0)) as (ro & -> & Hl & _).
  - by rewrite replicate_length.
  - intros r ro Hr _. unfold g. by rewrite (rd_off _ _ _ _ HR) by lia.
  - cbn [obind]. unfold for_up. replace (h_rows h + 1 - (h_cols h + 1)) with (S (h_rows h - h_cols h - 1)) by lia. cbn [forn]. unfold g at 1. rewrite (rd_off _ _ _ _ HR) by lia. cbn [obind].
    unfold wr. rewrite decide_False by lia. done.
Qed.
(** Otherwise, whatever the result is, it has the wrong shape unless the matrix is square. *)
Lemma cast_ss_shape (b : csrbuf W) h res : cast_ss f b h = Ok res -> h_rows (snd res) = h_cols h /\ h_cols (snd res) = h_rows h.
Proof.
  unfold cast_ss. intros E. apply obind_Ok in E as (nnz & _ & E). unfold csr_new in E. apply obind_Ok in E as ([vs cs] & _ & E). apply obind_Ok in E as (ro & _ & E). injection E as <-. done.
Qed.
End ss.
