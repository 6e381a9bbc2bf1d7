(** Building a sparse matrix row by row: the common pattern values[pos] = v; colIdxs[pos++] = c; ...; rowOffsets[r + 1] = pos. *)
From stdpp Require Import base numbers sorting list list_numbers.
From Coq Require Import Lia.
From Verif Require Import CppBase Mem CSRModel CSRSpec CSRProofs CSRView SparseLoops SparseSpec SinkProofs.

Section build.
Context {V : Type} `{Val V}.
Implicit Types (d rs : list (row V)) (cur l : row V).
(** The state: row offsets, columns, values, next position. *)
Definition bst : Type := list nat * list nat * list V * nat.
(** The complete rows [d] and the entries [cur] of the current row have been written. *)
Definition built (cap n : nat) d cur (s : bst) : Prop :=
  let '(ro, cs, vs, pos) := s in
  pos = stored d + length cur /\ length cs = cap /\ length vs = cap /\ length ro = n + 1 /\
  (forall i e, (concat d ++ cur) !! i = Some e -> cs !! i = Some (fst e) /\ vs !! i = Some (snd e)) /\
  (forall j, j <= length d -> ro !! j = Some (stored (take j d))).
Lemma built_init cap n ro cs vs : length cs = cap -> length vs = cap -> length ro = n + 1 -> ro !! 0 = Some 0 -> built cap n [] [] (ro, cs, vs, 0).
Proof. intros H1 H2 H3 H4. split; [done|]. split; [done|]. split; [done|]. split; [done|]. split; [intros i e He; done|]. intros j Hj. cbn in Hj. by replace j with 0 by lia. Qed.
Lemma built_push cap n d cur ro cs vs pos c v : built cap n d cur (ro, cs, vs, pos) -> stored d + length cur < cap ->
  exists vs' cs', wr vs pos v = Ok vs' /\ wr cs pos c = Ok cs' /\ built cap n d (cur ++ [(c, v)]) (ro, cs', vs', pos + 1).
Proof.
  intros (-> & Hc & Hv & Hr & He & Ho) Hlt. rewrite !wr_Ok by lia. eexists _, _. split; [done|]. split; [done|]. split; [rewrite app_length; cbn; lia|]. split; [by rewrite insert_length|]. split; [by rewrite insert_length|]. split; [done|]. split; [|done].
  intros i e Hi. rewrite app_assoc in Hi. destruct (decide (i = stored d + length cur)) as [->|Hne].
  - rewrite !list_lookup_insert by lia. rewrite lookup_app_r in Hi by (rewrite app_length; unfold stored; lia). replace (_ - _) with 0 in Hi by (rewrite app_length; unfold stored; lia). cbn in Hi. by injection Hi as <-.
  - rewrite !list_lookup_insert_ne by done. apply He. apply lookup_lt_Some in Hi as Hil. rewrite !app_length in Hil. cbn in Hil. rewrite lookup_app_l in Hi; [done|]. rewrite app_length. unfold stored in *. lia.
Qed.
Lemma built_close cap n d cur ro cs vs pos : built cap n d cur (ro, cs, vs, pos) -> length d < n ->
  exists ro', wr ro (length d + 1) pos = Ok ro' /\ built cap n (d ++ [cur]) [] (ro', cs, vs, pos).
Proof.
  intros (-> & Hc & Hv & Hr & He & Ho) Hlt. rewrite wr_Ok by lia. eexists. split; [done|]. split; [rewrite stored_app; unfold stored; cbn; rewrite app_nil_r; lia|]. split; [done|]. split; [done|]. split; [by rewrite insert_length|]. split.
  - rewrite app_nil_r, concat_app. cbn. rewrite app_nil_r. exact He.
  - intros j Hj. rewrite app_length in Hj. cbn in Hj. destruct (decide (j = length d + 1)) as [->|].
    + rewrite list_lookup_insert by lia. rewrite take_ge by (rewrite app_length; cbn; lia). rewrite stored_app. unfold stored. cbn. by rewrite app_nil_r.
    + rewrite list_lookup_insert_ne by done. rewrite Ho by lia. by rewrite take_app_le by lia.
Qed.
Lemma built_shows cap n m d ro cs vs pos : built cap n d [] (ro, cs, vs, pos) -> length d = n -> Forall (row_ok m) d -> shows (mkBuf vs cs ro) (mkH 0 n m n false cap 0) d.
Proof.
  intros (_ & Hc & Hv & Hr & He & Ho) Hd Hok. rewrite app_nil_r in He.
  assert (Hpre : forall (A : Type) (f : nat * V -> A) (l : list A), length l = cap -> (forall i e, concat d !! i = Some e -> l !! i = Some (f e)) -> exists rest, l = (f <$> concat d) ++ rest /\ length rest = cap - stored d).
  { intros A f l Hl Hf. exists (drop (stored d) l). assert (Hp : (f <$> concat d) = take (stored d) l).
    { apply list_eq. intros i. rewrite list_lookup_fmap. destruct (concat d !! i) as [e|] eqn:E.
      - rewrite lookup_take by (by eapply lookup_lt_Some). cbn. symmetry. by apply Hf.
      - rewrite lookup_take_ge; [done|]. by apply lookup_ge_None. }
    rewrite Hp, take_drop. split; [done|]. rewrite drop_length. lia. }
  destruct (Hpre _ fst cs Hc) as (rc & Ec & Lc); [intros i e Hi; by apply He|]. destruct (Hpre _ snd vs Hv) as (rv & Ev & Lv); [intros i e Hi; by apply He|].
  apply shows_all; [|done|done]. split; cbn.
  - split; [|exists rc, rv; split; [done|split; [done|lia]]]. apply list_eq. intros j. destruct (decide (j <= n)).
    + rewrite Ho by lia. rewrite offsets_lookup by lia. done.
    + rewrite (lookup_ge_None_2 ro) by lia. symmetry. apply lookup_ge_None_2. pose proof (offsets_length 0 d). lia.
  - done.
  - done.
  - done.
  - done.
Qed.
(** Writing a sequence of entries by a loop. *)
Lemma built_sparse cap n m d ro cs vs pos (x : nat -> nat -> V) : built cap n d [] (ro, cs, vs, pos) -> length d = n -> Forall (row_ok m) d -> (forall r c l, r < n -> c < m -> d !! r = Some l -> cell_in c l = x r c) ->
  sparse_cells (mkBuf vs cs ro) (mkH 0 n m n false cap 0) n m x.
Proof.
  intros Hb Hd Hok Hx. pose proof (built_shows _ _ _ _ _ _ _ _ Hb Hd Hok) as Hs. split; [by exists d|]. split; [done|]. split; [done|]. intros r c Hr Hc. rewrite (shows_cell _ _ d) by done. f_equal. unfold cell. destruct (lookup_lt_is_Some_2 d r ltac:(lia)) as [l Hl]. rewrite Hl. by apply Hx.
Qed.

(** A loop over the entries of row [r] of a sparse matrix. *)
Lemma row_loop {St} b h base rs r l (body : nat -> St -> outcome St) (step : nat * V -> St -> outcome St) s : csr_reads b h base rs -> rs !! r = Some l ->
  (forall i c v t, bcols b !! (base + stored (take r rs) + i) = Some c -> bvals b !! (base + stored (take r rs) + i) = Some v -> c < h_cols h -> body i t = step (c, v) t) ->
  for_up 0 (length l) body s = ofold step l s.
Proof.
  intros HR Hr Hb. apply for_up_ofold; [done|]. intros i [c v] t Hi. destruct (reads_entry _ _ _ _ _ _ _ _ HR Hr Hi) as [H1 H2]. cbn in *. apply Hb; [done|done|].
  pose proof (rd_ok _ _ _ _ HR) as Hok. rewrite Forall_lookup in Hok. destruct (Hok _ _ Hr) as [_ Hf]. rewrite Forall_lookup in Hf. apply (Hf i). by rewrite list_lookup_fmap, Hi.
Qed.
Lemma reads_row b h base rs r l : csr_reads b h base rs -> rs !! r = Some l -> r < h_rows h /\ row_ok (h_cols h) l /\ roff b h r = Ok (base + stored (take r rs)) /\ roff b h (r + 1) = Ok (base + stored (take r rs) + length l).
Proof.
  intros HR Hr. assert (Hlt : r < length rs) by (by eapply lookup_lt_Some). split; [by rewrite <- (rd_rows _ _ _ _ HR)|]. split; [pose proof (rd_ok _ _ _ _ HR) as Hok; rewrite Forall_lookup in Hok; by apply (Hok r)|]. rewrite !(rd_off _ _ _ _ HR) by lia. split; [done|]. f_equal. replace (r + 1) with (S r) by lia. rewrite (stored_take_S _ _ _ Hr). lia.
Qed.

(** The rows of a matrix given by a list of entries (row, column, value). *)
Implicit Types es : list (nat * nat * V).
Definition rows_of es (n : nat) : list (row V) := (fun r => (fun e => (e.1.2, e.2)) <$> filter (fun e => e.1.1 = r) es) <$> seq 0 n.
Definition by_row es : Prop := StronglySorted (fun e1 e2 => e1.1.1 <= e2.1.1) es.
Lemma filter_none {A} (P : A -> Prop) `{forall x, Decision (P x)} (k : list A) : Forall (fun x => ~ P x) k -> filter P k = [].
Proof. induction 1 as [|x k Hx Hl IH]; [done|]. rewrite filter_cons. by rewrite decide_False. Qed.
Lemma filter_rows es j : by_row es -> filter (fun e => e.1.1 < S j) es = filter (fun e => e.1.1 < j) es ++ filter (fun e => e.1.1 = j) es.
Proof.
  induction 1 as [|e es He IH Hf]; [done|]. rewrite !filter_cons. destruct (decide (e.1.1 < S j)) as [E|E].
  - destruct (decide (e.1.1 < j)) as [E1|E1].
    + rewrite (decide_False (P := e.1.1 = j)) by lia. by rewrite IH.
    + rewrite (decide_True (P := e.1.1 = j)) by lia. rewrite IH. rewrite (filter_none (fun e => e.1.1 < j) es); [done|]. eapply Forall_impl; [exact Hf|]. intros x Hx. cbn in Hx. lia.
  - rewrite !decide_False by lia. exact IH.
Qed.
Lemma rows_of_concat es j : by_row es -> concat (rows_of es j) = (fun e => (e.1.2, e.2)) <$> filter (fun e => e.1.1 < j) es.
Proof.
  intros Ho. unfold rows_of. induction j as [|j IH]; [cbn; symmetry; rewrite filter_none; [done|]; apply Forall_forall; intros x _; lia|]. rewrite seq_S, fmap_app, concat_app, IH. cbn [fmap list_fmap concat plus]. rewrite app_nil_r, filter_rows by done. by rewrite fmap_app.
Qed.
Lemma filter_all_rows es n : Forall (fun e => e.1.1 < n) es -> filter (fun e => e.1.1 < n) es = es.
Proof. induction 1 as [|e es He Hes IH]; [done|]. rewrite filter_cons, decide_True by done. by rewrite IH. Qed.
Lemma rows_of_take es j n : j <= n -> take j (rows_of es n) = rows_of es j.
Proof. intros Hj. unfold rows_of. rewrite <- fmap_take. f_equal. replace n with (j + (n - j)) by lia. rewrite seq_app. rewrite take_app_alt; [done|by rewrite seq_length]. Qed.
Lemma rows_of_lookup es n r : r < n -> rows_of es n !! r = Some ((fun e => (e.1.2, e.2)) <$> filter (fun e => e.1.1 = r) es).
Proof. intros Hr. unfold rows_of. rewrite list_lookup_fmap, lookup_seq_lt by done. done. Qed.
Definition cnt_below es (j : nat) : nat := length (filter (fun e => e.1.1 < j) es).
Lemma rows_of_stored es j : by_row es -> stored (rows_of es j) = cnt_below es j.
Proof. intros Ho. unfold stored. rewrite rows_of_concat by done. by rewrite fmap_length. Qed.
(** Entries in row-major order of an n x m matrix. *)
Definition row_major_in (n m : nat) es : Prop := StronglySorted (fun e1 e2 => e1.1.1 < e2.1.1 \/ e1.1.1 = e2.1.1 /\ e1.1.2 < e2.1.2) es /\ Forall (fun e => e.1.1 < n /\ e.1.2 < m) es.
Lemma rm_by_row n m es : row_major_in n m es -> by_row es.
Proof. intros [Hs _]. unfold by_row. induction Hs as [|e es He IH Hf]; [constructor|]. constructor; [done|]. eapply Forall_impl; [exact Hf|]. cbn. intros. lia. Qed.
Lemma rows_of_ok n m es : row_major_in n m es -> Forall (row_ok m) (rows_of es n).
Proof.
  intros [Hs Hf]. apply Forall_lookup_2. intros r l Hl. assert (Hr : r < n) by (apply lookup_lt_Some in Hl; unfold rows_of in Hl; by rewrite fmap_length, seq_length in Hl). rewrite rows_of_lookup in Hl by done. injection Hl as <-. clear Hr. split; rewrite <- list_fmap_compose.
  - induction Hs as [|e es He IH Hlt]; [constructor|]. apply Forall_cons in Hf as [_ Hf]. rewrite filter_cons. case_decide as Hd; [|by apply IH]. rewrite fmap_cons. constructor; [by apply IH|]. apply Forall_fmap. apply Forall_forall. intros e' He'. apply elem_of_list_filter in He' as [E' He']. rewrite Forall_forall in Hlt. specialize (Hlt e' He'). cbn in *. lia.
  - apply Forall_fmap. apply Forall_forall. intros e' He'. apply elem_of_list_filter in He' as [E' He']. rewrite Forall_forall in Hf. specialize (Hf e' He'). cbn in *. lia.
Qed.
Lemma cell_in_elem c v l : StronglySorted lt l.*1 -> (c, v) ∈ l -> cell_in c l = v.
Proof. intros Hs Hin. rewrite cell_in_find. by rewrite (find_col_elem c v) by done. Qed.
Lemma cell_in_not c l : (forall v, (c, v) ∉ l) -> cell_in c l = vzero.
Proof. intros Hn. rewrite cell_in_find. destruct (find_col c l) as [v|] eqn:E; [|done]. apply find_col_Some in E. by apply Hn in E. Qed.
(** If the arrays hold the entries in order and the row offsets count them, the matrix has these entries. *)
Lemma entries_sparse cap n m es ro cs vs (x : nat -> nat -> V) : row_major_in n m es -> length cs = cap -> length vs = cap -> length ro = n + 1 ->
  (forall i e, es !! i = Some e -> cs !! i = Some e.1.2 /\ vs !! i = Some e.2) -> (forall j, j <= n -> ro !! j = Some (cnt_below es j)) ->
  (forall r c v, (r, c, v) ∈ es -> x r c = v) -> (forall r c, r < n -> c < m -> (forall v, (r, c, v) ∉ es) -> x r c = vzero) ->
  sparse_cells (mkBuf vs cs ro) (mkH 0 n m n false cap 0) n m x.
Proof.
  intros Hrm Hc Hv Hr He Ho Hx1 Hx0. pose proof (rm_by_row _ _ _ Hrm) as Hby. pose proof (rows_of_ok _ _ _ Hrm) as Hok. assert (Hlen : length (rows_of es n) = n) by (unfold rows_of; by rewrite fmap_length, seq_length).
  assert (Hcat : concat (rows_of es n) = (fun e => (e.1.2, e.2)) <$> es) by (rewrite rows_of_concat by done; rewrite filter_all_rows; [done|]; destruct Hrm as [_ Hf]; eapply Forall_impl; [exact Hf|]; cbn; by intros e [? _]).
  apply (built_sparse cap n m (rows_of es n) ro cs vs (stored (rows_of es n))); [|done|done|].
  - split; [cbn; lia|]. split; [done|]. split; [done|]. split; [done|]. split.
    + intros i e Hi. rewrite app_nil_r, Hcat, list_lookup_fmap in Hi. destruct (es !! i) as [e0|] eqn:E; [|done]. cbn in Hi. injection Hi as <-. cbn. by apply He.
    + intros j Hj. rewrite Hlen in Hj. rewrite rows_of_take by done. rewrite rows_of_stored by done. by apply Ho.
  - intros r c l Hr' Hc' Hl. rewrite Forall_lookup in Hok. destruct (Hok _ _ Hl) as [Hs _]. rewrite rows_of_lookup in Hl by done. injection Hl as <-. set (l := _ <$> filter _ _) in *.
    assert (Hel : forall v, (c, v) ∈ l <-> (r, c, v) ∈ es). { intros v. unfold l. rewrite elem_of_list_fmap. split; [intros ([[r1 c1] v1] & [= -> ->] & Hf); apply elem_of_list_filter in Hf as [E Hf]; cbn in E; by subst|]. intros Hf. exists (r, c, v). split; [done|]. by apply elem_of_list_filter. }
    destruct (find_col c l) as [v|] eqn:E.
    + apply find_col_Some in E. rewrite (cell_in_elem c v) by done. symmetry. apply Hx1. by apply Hel.
    + rewrite cell_in_find, E. cbn. symmetry. apply Hx0; [done|done|]. intros v Hv'. apply Hel in Hv'. rewrite (find_col_elem c v) in E by done. done.
Qed.
End build.
