(** Reading a sparse matrix or a view of rows of one, and building the arrays of a new one. Used by the models of the kernels. *)
From stdpp Require Import base numbers sorting list list_numbers.
From Coq Require Import Lia.
From Verif Require Import CppBase Mem CSRModel CSRSpec CSRProofs.

Lemma lookup_concat {A} (ls : list (list A)) k x : concat ls !! k = Some x <->
  exists q l i, ls !! q = Some l /\ l !! i = Some x /\ k = length (concat (take q ls)) + i.
Proof.
  revert k. induction ls as [|l ls IH]; intros k; cbn [concat]; [split; [done|by intros (? & ? & ? & ? & _)]|]. split.
  - intros H. destruct (decide (k < length l)) as [Hk|Hk].
    + rewrite lookup_app_l in H by done. by exists 0, l, k.
    + rewrite lookup_app_r in H by lia. apply IH in H as (q & l' & i & Hq & Hi & Hk'). exists (S q), l', i. split; [done|]. split; [done|]. cbn [take concat]. rewrite app_length. lia.
  - intros (q & l' & i & Hq & Hi & ->). destruct q as [|q].
    + injection Hq as <-. cbn [take concat length plus]. rewrite lookup_app_l; [done|]. by eapply lookup_lt_Some.
    + cbn [take concat]. rewrite app_length, lookup_app_r by lia. apply IH. exists q, l', i. split; [done|]. split; [done|]. lia.
Qed.
Lemma lookup_concat_at {A} (ls : list (list A)) q l i : ls !! q = Some l -> i < length l -> concat ls !! (length (concat (take q ls)) + i) = l !! i.
Proof. intros Hq Hi. destruct (lookup_lt_is_Some_2 l i Hi) as [x Hx]. rewrite Hx. apply lookup_concat. by exists q, l, i. Qed.
Lemma concat_take_S {A} (ls : list (list A)) q l : ls !! q = Some l -> concat (take (S q) ls) = concat (take q ls) ++ l.
Proof. intros H. rewrite (take_S_r _ _ l H), concat_app. simpl. by rewrite app_nil_r. Qed.
Lemma concat_take_mono {A} (ls : list (list A)) p q : p <= q -> length (concat (take p ls)) <= length (concat (take q ls)).
Proof. intros H. replace q with (p + (q - p)) by lia. rewrite <- (take_take_drop ls p (q - p)), concat_app, app_length. lia. Qed.
Lemma concat_take_le {A} (ls : list (list A)) q : length (concat (take q ls)) <= length (concat ls).
Proof. rewrite <- (take_drop q ls) at 2. rewrite concat_app, app_length. lia. Qed.

(** memcpy to the end of a filled prefix *)
Lemma copy_range_app {V} (A B src : list V) s n : n <= length B -> s + n <= length src ->
  copy_range (A ++ B) (length A) src s n = Ok (A ++ take n (drop s src) ++ drop n B).
Proof.
  intros HB Hs. destruct (copy_range_spec (A ++ B) (length A) src s n) as (b' & -> & Hl & H1 & H2); [rewrite app_length; lia|done|]. f_equal.
  assert (Ht : length (take n (drop s src)) = n) by (rewrite take_length, drop_length; lia).
  apply list_eq. intros j. destruct (decide (j < length A)) as [Hj|Hj].
  - rewrite H2 by lia. by rewrite !lookup_app_l.
  - rewrite (lookup_app_r A) by lia. destruct (decide (j < length A + n)) as [Hj2|Hj2].
    + rewrite lookup_app_l by lia. replace j with (length A + (j - length A)) at 1 by lia. rewrite H1 by lia. by rewrite lookup_take, lookup_drop by lia.
    + rewrite H2 by lia. rewrite lookup_app_r by lia. rewrite (lookup_app_r (take _ _)) by lia. rewrite Ht, lookup_drop. f_equal. lia.
Qed.

Section view.
Context {V : Type} `{Val V}.
Implicit Types (b : csrbuf V) (rows rs : list (row V)).

(** The object [h] shows the rows [rs] (all of the matrix, or a view of it). *)
Definition shows (b : csrbuf V) (h : csrh) (rs : list (row V)) : Prop :=
  exists all, covers b h all /\ rs = take (h_rows h) (drop (h_off h) all).

(** What is read through the object: its entries start at position [base] of the arrays. *)
Record csr_reads b h (base : nat) rs : Prop := mkReads {
  rd_rows : length rs = h_rows h;
  rd_off : forall i, i <= length rs -> roff b h i = Ok (base + stored (take i rs));
  rd_cols : forall j, j < stored rs -> bcols b !! (base + j) = (concat rs).*1 !! j;
  rd_vals : forall j, j < stored rs -> bvals b !! (base + j) = (concat rs).*2 !! j;
  rd_ok : Forall (row_ok (h_cols h)) rs;
  rd_len_c : base + stored rs <= length (bcols b);
  rd_len_v : base + stored rs <= length (bvals b)
}.

Lemma stored_take_le rows i : stored (take i rows) <= stored rows.
Proof. apply concat_take_le. Qed.
Lemma stored_app rows rs : stored (rows ++ rs) = stored rows + stored rs.
Proof. unfold stored. by rewrite concat_app, app_length. Qed.
Lemma stored_take_S rows i l : rows !! i = Some l -> stored (take (S i) rows) = stored (take i rows) + length l.
Proof. intros H0. unfold stored. by rewrite (concat_take_S _ _ l), app_length. Qed.
Lemma stored_take_mono rows i j : i <= j -> stored (take i rows) <= stored (take j rows).
Proof. apply concat_take_mono. Qed.
Lemma stored_take_lt rows i j l : rows !! i = Some l -> i < j -> stored (take i rows) + length l <= stored (take j rows).
Proof. intros Hi Hj. rewrite <- (stored_take_S _ _ _ Hi). apply stored_take_mono. lia. Qed.

Lemma shows_reads b h rs : shows b h rs -> exists base, csr_reads b h base rs /\ (h_off h = 0 -> base = 0).
Proof.
  intros (all & [Hst Hok Hin Hal Hmax] & ->). set (off := h_off h) in *. set (n := h_rows h) in *.
  assert (Hn : off + n <= length all) by lia. destruct Hst as (Hro & rc & rv & Hc & Hv & Hcv).
  assert (Hlen : length (take n (drop off all)) = n) by (rewrite take_length, drop_length; lia).
  assert (Hall : all = take off all ++ take n (drop off all) ++ drop (off + n) all).
  { rewrite app_assoc, take_take_drop. by rewrite take_drop. }
  exists (stored (take off all)). split; [|intros E; subst off; rewrite E; done].
  assert (Hpos : forall i, i <= n -> length (concat (take (off + i) all)) = stored (take off all) + stored (take i (take n (drop off all)))).
  { intros i Hi. rewrite take_take. replace (i `min` n) with i by lia. rewrite <- (take_take_drop all off i), concat_app, app_length. done. }
  assert (Hcat : concat all = concat (take off all) ++ concat (take n (drop off all)) ++ concat (drop (off + n) all)).
  { rewrite Hall at 1. by rewrite !concat_app. }
  split; [done| | | | | |].
  - intros i Hi. rewrite Hlen in Hi. unfold roff. fold off. rewrite Hro. apply rd_Ok. rewrite offsets_lookup by lia. f_equal. rewrite Hpos by lia. lia.
  - intros j Hj. rewrite Hc, Hcat. rewrite !fmap_app. rewrite <- !app_assoc. rewrite lookup_app_r by (rewrite fmap_length; unfold stored; lia).
    rewrite fmap_length. unfold stored at 1. rewrite lookup_app_l by (rewrite fmap_length; unfold stored in *; lia). f_equal. unfold stored. lia.
  - intros j Hj. rewrite Hv, Hcat. rewrite !fmap_app. rewrite <- !app_assoc. rewrite lookup_app_r by (rewrite fmap_length; unfold stored; lia).
    rewrite fmap_length. unfold stored at 1. rewrite lookup_app_l by (rewrite fmap_length; unfold stored in *; lia). f_equal. unfold stored. lia.
  - apply Forall_take, Forall_drop. done.
  - rewrite Hc, app_length, fmap_length, Hcat, !app_length. unfold stored. lia.
  - rewrite Hv, app_length, fmap_length, Hcat, !app_length. unfold stored. lia.
Qed.

(** The entries of one row. *)
Lemma reads_entry b h base rs r l i e : csr_reads b h base rs -> rs !! r = Some l -> l !! i = Some e ->
  bcols b !! (base + stored (take r rs) + i) = Some (fst e) /\ bvals b !! (base + stored (take r rs) + i) = Some (snd e).
Proof.
  intros HR Hr Hi. assert (Hil : i < length l) by (by eapply lookup_lt_Some).
  assert (Hj : stored (take r rs) + i < stored rs). { assert (Hrl : r < length rs) by (by eapply lookup_lt_Some). pose proof (stored_take_lt rs r (length rs) l Hr Hrl) as Hlt. rewrite (take_ge rs (length rs)) in Hlt by lia. lia. }
  assert (Hx : concat rs !! (stored (take r rs) + i) = Some e) by (rewrite <- Hi; by apply lookup_concat_at).
  rewrite <- !Nat.add_assoc. rewrite (rd_cols _ _ _ _ HR _ Hj), (rd_vals _ _ _ _ HR _ Hj), !list_lookup_fmap, Hx. done.
Qed.
Lemma reads_slice_cols b h base rs : csr_reads b h base rs -> take (stored rs) (drop base (bcols b)) = (concat rs).*1.
Proof.
  intros HR. apply list_eq. intros j. destruct (decide (j < stored rs)) as [Hj|Hj].
  - rewrite lookup_take, lookup_drop by done. by apply (rd_cols _ _ _ _ HR).
  - rewrite lookup_take_ge by lia. symmetry. apply lookup_ge_None_2. rewrite fmap_length. unfold stored in Hj. lia.
Qed.
Lemma reads_slice_vals b h base rs : csr_reads b h base rs -> take (stored rs) (drop base (bvals b)) = (concat rs).*2.
Proof.
  intros HR. apply list_eq. intros j. destruct (decide (j < stored rs)) as [Hj|Hj].
  - rewrite lookup_take, lookup_drop by done. by apply (rd_vals _ _ _ _ HR).
  - rewrite lookup_take_ge by lia. symmetry. apply lookup_ge_None_2. rewrite fmap_length. unfold stored in Hj. lia.
Qed.
Lemma reads_nnz b h base rs : csr_reads b h base rs -> csr_nnz b h = Ok (stored rs).
Proof.
  intros HR. unfold csr_nnz. rewrite <- (rd_rows _ _ _ _ HR). rewrite !(rd_off _ _ _ _ HR) by lia. cbn [obind]. rewrite (take_ge rs (length rs)) by done. f_equal. change (stored (take 0 rs)) with 0. lia.
Qed.
Lemma reads_row_nnz b h base rs r l : csr_reads b h base rs -> rs !! r = Some l -> csr_row_nnz b h r = Ok (length l).
Proof.
  intros HR Hr. assert (Hrl : r < length rs) by (by eapply lookup_lt_Some). unfold csr_row_nnz. rewrite decide_False by (rewrite <- (rd_rows _ _ _ _ HR); lia).
  rewrite !(rd_off _ _ _ _ HR) by lia. cbn [obind]. f_equal. replace (r + 1) with (S r) by lia. rewrite (stored_take_S _ _ _ Hr). lia.
Qed.

Lemma offsets_snoc k rows l : offsets k (rows ++ [l]) = offsets k rows ++ [k + stored (rows ++ [l])].
Proof.
  unfold stored. revert k. induction rows as [|l0 rows IH]; intros k.
  - simpl. by rewrite app_nil_r.
  - change ((l0 :: rows) ++ [l]) with (l0 :: (rows ++ [l])). cbn [offsets concat]. rewrite IH, app_length. cbn [app]. by rewrite Nat.add_assoc.
Qed.
Lemma shows_all b h rows : covers b h rows -> h_off h = 0 -> h_rows h = length rows -> shows b h rows.
Proof. intros Hc H0 Hr. exists rows. split; [done|]. rewrite H0, Hr. by rewrite drop_0, firstn_all. Qed.
Lemma shows_cell b h rs r c : shows b h rs -> r < h_rows h -> c < h_cols h -> csr_get b h r c = Ok (cell rs r c).
Proof.
  intros (all & Hc & ->) Hr Hcc. rewrite (csr_get_spec _ _ all) by done. f_equal. unfold cell. rewrite lookup_take by done. by rewrite lookup_drop.
Qed.
End view.
