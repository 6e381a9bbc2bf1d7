(** Proofs about the operations of vectorized pipelines: each operation. *)
From stdpp Require Import base numbers list list_numbers.
From Coq Require Import Lia.
From Verif Require Import CppBase PipeSigModel PipeSigSpec VecOpModel VecOpSpec VecOpProofs.

Lemma zw_take {A B C} (f : A -> B -> C) n l k : take n (zip_with f l k) = zip_with f (take n l) (take n k).
Proof. revert l k. induction n as [|n IH]; intros [|a l] [|b k]; cbn; try done. by rewrite IH. Qed.
Lemma zw_drop {A B C} (f : A -> B -> C) n l k : drop n (zip_with f l k) = zip_with f (drop n l) (drop n k).
Proof.
  revert l k. induction n as [|n IH]; intros [|a l] [|b k]; cbn; try done. by destruct (drop n l).
Qed.
Lemma Forall_zw {A B C} (P : A -> Prop) (Q : B -> Prop) (R : C -> Prop) (f : A -> B -> C) l k : (forall a b, P a -> Q b -> R (f a b)) -> Forall P l -> Forall Q k -> Forall R (zip_with f l k).
Proof. intros H H1. revert k. induction H1 as [|a l Ha H1 IH]; intros k H2; [constructor|]. destruct H2 as [|b k Hb H2]; constructor; [by apply H|by apply IH]. Qed.

Section ops.
Context {T : Type} (E : elems T).
Implicit Types (m x y t : mat T) (v : val T) (k : agg) (cs : list (nat * nat)).

Definition chunk (o : vop T) (vs : list (val T)) (c : nat * nat) : val T := sem E o (zip_with (fun s v => part s v c) (splits o vs) vs).
Definition works cs (o : vop T) (vs : list (val T)) : Prop :=
  combine E cs (comb_of o) (out_size o vs) (chunk o vs <$> cs) = sem E o vs /\ (comb_of o = CRows -> forall c, c ∈ cs -> chunk o vs c = part Rows (sem E o vs) c) /\ shaped (sem E o vs).

Lemma rowwise n cs o vs t : covers n cs -> rect t -> nrow t = n -> comb_of o = CRows -> out_size o vs = (n, ncol t) -> sem E o vs = Mat t ->
  (forall c, c ∈ cs -> chunk o vs c = Mat (slice (fst c) (snd c) t)) -> works cs o vs.
Proof.
  intros H1 H2 H3 H4 H5 H6 H7. unfold works. rewrite H4, H5, H6. cbn [combine]. split; [|split; [|done]].
  - assert (chunk o vs <$> cs = (fun c => Mat (slice (fst c) (snd c) t)) <$> cs) as ->. { apply list_fmap_ext. intros i c Hc%elem_of_list_lookup_2. by apply H7. } by apply placed_rows.
  - intros _ c Hc. rewrite H7 by done. symmetry. by apply (part_slice n cs).
Qed.
Lemma aggwise {A} n cs o vs k r c (h : nat -> nat -> A -> T) (l : list A) : exact E -> covers n cs -> length l = n -> comb_of o = agg_comb k -> out_size o vs = (r, c) ->
  sem E o vs = Mat (mkM c (grid r c (fun i j => agg_list E k (h i j <$> l)))) ->
  (forall ch, ch ∈ cs -> chunk o vs ch = Mat (mkM c (grid r c (fun i j => agg_list E k (h i j <$> take (snd ch - fst ch) (drop (fst ch) l)))))) -> works cs o vs.
Proof.
  intros HE H1 H2 H3 H4 H5 H6. unfold works. rewrite H3, H4, H5. split; [|split; [by destruct k|]].
  - assert (chunk o vs <$> cs = (fun ch => Mat (mkM c (grid r c (fun i j => agg_list E k (h i j <$> take (snd ch - fst ch) (drop (fst ch) l)))))) <$> cs) as ->. { apply list_fmap_ext. intros i ch Hc%elem_of_list_lookup_2. by apply H6. }
    destruct k; cbn [agg_comb combine]; (apply accumulated_rows; [done|congruence]).
  - cbn. unfold rect. cbn [rows ncol]. apply Forall_fmap, Forall_true. intros i. cbn. by rewrite fmap_length, seq_length.
Qed.

Lemma slice_rows s e m : rows (slice s e m) = take (e - s) (drop s (rows m)). Proof. done. Qed.
Lemma slice_ncol s e m : ncol (slice s e m) = ncol m. Proof. done. Qed.
Lemma slice_map s e c (f : list T -> list T) m : mkM c (f <$> rows (slice s e m)) = slice s e (mkM c (f <$> rows m)).
Proof. unfold slice. cbn. by rewrite fmap_take, fmap_drop. Qed.
Lemma slice_zip s e c (f : list T -> list T -> list T) x y : mkM c (zip_with f (rows (slice s e x)) (rows (slice s e y))) = slice s e (mkM c (zip_with f (rows x) (rows y))).
Proof. unfold slice. cbn. by rewrite zw_drop, zw_take. Qed.

Context (HE : exact E) (n : nat) (cs : list (nat * nat)) (Hc : covers n cs).
Lemma in_pos c : c ∈ cs -> fst c < snd c <= n. Proof. by apply covers_in. Qed.
Ltac sl := rewrite (part_slice n cs) by done.

Lemma works_ew g x y : rect x -> rect y -> nrow x = n -> nrow y = n \/ nrow y = 1 -> sem E (EwBin g) [Mat x; Mat y] <> Err -> works cs (EwBin g) [Mat x; Mat y].
Proof.
  intros Rx Ry Hx Hy Hs. destruct (decide (nrow y = n)) as [Hy'|Hy'].
  - clear Hy. cbn [sem] in Hs. destruct (Nat.eqb_spec (ncol x) (ncol y)) as [He|He].
    + eapply (rowwise n cs _ _ (mkM (ncol x) (zip_with (zip_with g) (rows x) (rows y)))); try done.
      * unfold rect. cbn [rows ncol]. eapply Forall_zw; [|exact Rx|exact Ry]. cbn. intros a b Ha Hb. rewrite zip_with_length. lia.
      * unfold nrow in *. cbn. rewrite zip_with_length. lia.
      * cbn. by rewrite Hx.
      * cbn. unfold ew_bin. by rewrite Hx, Hy', He, !Nat.eqb_refl.
      * intros c Hin. unfold chunk. cbn [splits fmap list_fmap is_mat zip_with]. sl. sl. cbn [sem]. unfold ew_bin. rewrite !(slice_nrow n cs) by done. rewrite !slice_ncol, He, !Nat.eqb_refl. cbn [andb]. by rewrite slice_zip.
    + assert ((ncol y =? 1) || (ncol x =? 1) = true) as Hv. { unfold ew_bin in Hs. rewrite Hx, Hy', Nat.eqb_refl in Hs. rewrite (proj2 (Nat.eqb_neq _ _) He) in Hs. cbn in Hs. by destruct ((ncol y =? 1) || (ncol x =? 1)). }
      eapply (rowwise n cs _ _ (mkM (ncol x) (zip_with (fun r s => (fun a => g a (nth 0 s (e_zero E))) <$> r) (rows x) (rows y)))); try done.
      * unfold rect. cbn [rows ncol]. eapply Forall_zw; [|exact Rx|exact Ry]. cbn. intros a b Ha Hb. by rewrite fmap_length.
      * unfold nrow in *. cbn. rewrite zip_with_length. lia.
      * cbn. by rewrite Hx.
      * cbn. unfold ew_bin. by rewrite Hx, Hy', (proj2 (Nat.eqb_neq _ _) He), Nat.eqb_refl, Hv.
      * intros c Hin. unfold chunk. cbn [splits fmap list_fmap is_mat zip_with]. sl. sl. cbn [sem]. unfold ew_bin. rewrite !(slice_nrow n cs) by done. rewrite !slice_ncol, (proj2 (Nat.eqb_neq _ _) He), !Nat.eqb_refl, Hv. cbn [andb]. by rewrite slice_zip.
  - destruct Hy as [Hy|Hy]; [done|]. cbn [sem] in Hs. unfold ew_bin in Hs. rewrite Hx, Hy in Hs. rewrite (proj2 (Nat.eqb_neq n 1)) in Hs by congruence. cbn [andb] in Hs.
    destruct (Nat.eqb_spec (ncol x) (ncol y)) as [He|He]; [|done]. clear Hs.
    destruct (rows y) as [|ry [|]] eqn:Ery; [unfold nrow in Hy; rewrite Ery in Hy; done| |unfold nrow in Hy; rewrite Ery in Hy; done].
    eapply (rowwise n cs _ _ (mkM (ncol x) ((fun r => zip_with g r ry) <$> rows x))); try done.
    + unfold rect in *. cbn [rows ncol]. apply Forall_fmap. eapply Forall_impl; [exact Rx|]. cbn. intros r Hr. rewrite zip_with_length. rewrite Ery in Ry. apply Forall_cons in Ry as [Ry _]. cbn in Ry. lia.
    + unfold nrow in *. cbn. by rewrite fmap_length.
    + cbn. by rewrite Hx.
    + cbn [sem]. unfold ew_bin. rewrite Hx, Hy, (proj2 (Nat.eqb_neq n 1)) by congruence. cbn [andb]. rewrite He, Nat.eqb_refl, Ery. done.
    + intros c Hin. unfold chunk. cbn [splits fmap list_fmap is_mat zip_with]. sl. assert (part Rows (Mat y) c = Mat y) as -> by (unfold part; by rewrite Hy). cbn [sem]. unfold ew_bin. rewrite (slice_nrow n cs) by done. rewrite slice_ncol, Hy, He, Nat.eqb_refl, Ery. cbn [andb nth].
      rewrite <- slice_map. destruct (Nat.eqb_spec (snd c - fst c) 1) as [L|L]; [|done]. cbn [andb].
      assert (nrow (slice (fst c) (snd c) x) = 1) as L' by (by rewrite (slice_nrow n cs)). unfold nrow in L'. destruct (rows (slice (fst c) (snd c) x)) as [|rx [|]]; done.
Qed.

Lemma works_ok o vs : Forall shaped vs -> right_op o -> suits n o vs -> sem E o vs <> Err -> works cs o vs.
Proof.
  intros Hsh Hr Hsu Hs. destruct o as [g|g|g|k|k|k|ta tb| | | |tl|].
  - (* EwBin *) destruct vs as [|[a|x|] [|[b|y|] [|? ?]]]; try done.
    + destruct Hsu as [Hx _]. apply Forall_cons in Hsh as [Rx _]. cbn in Rx.
      eapply (rowwise n cs _ _ (mkM (ncol x) ((fun r => (fun a => g a b) <$> r) <$> rows x))); try done.
      * unfold rect. apply Forall_fmap. eapply Forall_impl; [exact Rx|]. intros r H. cbn. by rewrite fmap_length.
      * unfold nrow. cbn. by rewrite fmap_length.
      * cbn in *. by rewrite Hx.
      * intros c Hin. unfold chunk. cbn [splits fmap list_fmap is_mat zip_with]. rewrite (part_slice n cs) by done. cbn [part sem]. by rewrite slice_map, slice_ncol.
    + destruct Hsu as [Hx Hy]. apply Forall_cons in Hsh as [Rx Hsh]. apply Forall_cons in Hsh as [Ry _]. by apply works_ew; [..|apply Hy|].
  - (* Outer *) destruct vs as [|[a|x|] [|[b|y|] [|? ?]]]; try done. cbn in Hsu. apply Forall_cons in Hsh as [Rx Hsh]. apply Forall_cons in Hsh as [Ry _]. cbn in Rx, Ry, Hs. unfold outer_bin in Hs.
    destruct ((ncol x =? 1) && (nrow y =? 1)) eqn:Eq; [|done]. clear Hs. pose proof Eq as [E1%Nat.eqb_eq E2%Nat.eqb_eq]%andb_prop.
    eapply (rowwise n cs _ _ (mkM (ncol y) ((fun r => (fun b => g (nth 0 r (e_zero E)) b) <$> nth 0 (rows y) []) <$> rows x))); try done.
    + unfold rect. cbn [rows ncol]. apply Forall_fmap, Forall_true. intros r. cbn. rewrite fmap_length. unfold rect in Ry. unfold nrow in E2. destruct (rows y) as [|ry [|]]; try done. by apply Forall_cons in Ry as [Ry _].
    + unfold nrow. cbn. by rewrite fmap_length.
    + cbn. by rewrite Hsu.
    + cbn. unfold outer_bin. by rewrite Eq.
    + intros c Hin. unfold chunk. cbn [splits zip_with]. sl. cbn [part sem]. unfold outer_bin. rewrite slice_ncol, Eq. by rewrite slice_map.
  - (* EwUn *) destruct vs as [|[a|x|] [|? ?]]; try done. cbn in Hsu. apply Forall_cons in Hsh as [Rx _]. cbn in Rx.
    eapply (rowwise n cs _ _ (mkM (ncol x) ((fun r => g <$> r) <$> rows x))); try done.
    + unfold rect. apply Forall_fmap. eapply Forall_impl; [exact Rx|]. intros r H. cbn. by rewrite fmap_length.
    + unfold nrow. cbn. by rewrite fmap_length.
    + cbn. by rewrite Hsu.
    + intros c Hin. unfold chunk. cbn [splits zip_with]. sl. cbn [sem]. by rewrite slice_map, slice_ncol.
  - (* RowAgg *) destruct vs as [|[a|x|] [|? ?]]; try done. cbn in Hsu.
    eapply (rowwise n cs _ _ (mkM 1 ((fun r => [agg_list E k r]) <$> rows x))); try done.
    + unfold rect. by apply Forall_fmap, Forall_true.
    + unfold nrow. cbn. by rewrite fmap_length.
    + cbn. by rewrite Hsu.
    + intros c Hin. unfold chunk. cbn [splits zip_with]. sl. cbn [sem]. by rewrite slice_map.
  - (* ColAgg *) destruct vs as [|[a|x|] [|? ?]]; try done. cbn in Hsu.
    eapply (aggwise n cs _ _ k 1 (ncol x) (fun _ j r => nth j r (e_zero E)) (rows x)); try done.
    intros c Hin. unfold chunk. cbn [splits zip_with]. sl. cbn [sem]. rewrite slice_ncol. unfold grid. cbn. unfold column. done.
  - (* AllAgg *) destruct vs as [|[a|x|] [|? ?]]; try done. cbn in Hsu.
    eapply (aggwise n cs _ _ k 1 1 (fun _ _ r => agg_list E k r) (rows x)); try done.
    + cbn [sem]. do 2 f_equal. unfold grid. cbn. do 2 f_equal. unfold agg_list. apply (sum_concat _ _ (agg_monoid E k HE)).
    + intros c Hin. unfold chunk. cbn [splits zip_with]. sl. cbn [sem]. do 2 f_equal. unfold grid. cbn. do 2 f_equal. unfold agg_list. apply (sum_concat _ _ (agg_monoid E k HE)).
  - (* MatMul *) destruct ta; [done|]. destruct vs as [|[a|x|] [|[b|y|] [|? ?]]]; try done. cbn in Hsu. apply Forall_cons in Hsh as [Rx Hsh]. apply Forall_cons in Hsh as [Ry _]. cbn [sem] in Hs. unfold mat_mul in Hs.
    set (z := if tb then transpose E y else y) in *. destruct (ncol x =? nrow z) eqn:Eq; [|done]. clear Hs.
    eapply (rowwise n cs _ _ (mkM (ncol z) ((fun r => (fun j => dot E r (column E z j)) <$> seq 0 (ncol z)) <$> rows x))); try done.
    + unfold rect. apply Forall_fmap, Forall_true. intros r. cbn. by rewrite fmap_length, seq_length.
    + unfold nrow. cbn. by rewrite fmap_length.
    + cbn. rewrite Hsu. f_equal. unfold z. by destruct tb.
    + cbn [sem]. unfold mat_mul. fold z. by rewrite Eq.
    + intros c Hin. unfold chunk. cbn [splits zip_with]. sl. cbn [part sem]. unfold mat_mul. fold z. rewrite slice_ncol, Eq. by rewrite slice_map.
  - (* ExtractCol *) destruct vs as [|[a|x|] [|[b|y|] [|? ?]]]; try done. cbn in Hsu. cbn [sem] in Hs. unfold extract_col in Hs. destruct (ncol y =? 1) eqn:E1; [|done]. destruct (mapM _ (rows y)) as [ps|] eqn:E2; [|done]. clear Hs.
    eapply (rowwise n cs _ _ (mkM (nrow y) ((fun r => (fun p => nth p r (e_zero E)) <$> ps) <$> rows x))); try done.
    + unfold rect. apply Forall_fmap, Forall_true. intros r. cbn. rewrite fmap_length. apply mapM_length in E2. done.
    + unfold nrow. cbn. by rewrite fmap_length.
    + cbn. by rewrite Hsu.
    + cbn [sem]. unfold extract_col. by rewrite E1, E2.
    + intros c Hin. unfold chunk. cbn [splits zip_with]. sl. cbn [part sem]. unfold extract_col. rewrite slice_ncol, E1, E2. by rewrite slice_map.
  - (* Transpose *) destruct vs as [|[a|x|] [|? ?]]; try done. cbn in Hsu. split; [|split; [done|]].
    + cbn [comb_of combine out_size sem]. assert (chunk Transpose [Mat x] <$> cs = (fun c => Mat (transpose E (slice (fst c) (snd c) x))) <$> cs) as ->. { apply list_fmap_ext. intros i c Hin%elem_of_list_lookup_2. unfold chunk. cbn [splits zip_with]. sl. done. }
      rewrite Hsu. by apply placed_cols.
    + cbn. unfold rect. apply Forall_fmap, Forall_true. intros j. cbn. apply column_length.
  - (* ColBind *) destruct vs as [|[a|x|] [|[b|y|] [|? ?]]]; try (by destruct Hsu). destruct Hsu as [Hx Hy]. cbn in Hx, Hy. apply Forall_cons in Hsh as [Rx Hsh]. apply Forall_cons in Hsh as [Ry _]. cbn in Rx, Ry.
    eapply (rowwise n cs _ _ (mkM (ncol x + ncol y) (zip_with app (rows x) (rows y)))); try done.
    + unfold rect. cbn [rows ncol]. eapply Forall_zw; [|exact Rx|exact Ry]. cbn. intros a b Ha Hb. rewrite app_length. lia.
    + unfold nrow in *. cbn. rewrite zip_with_length. lia.
    + cbn. by rewrite Hx.
    + cbn. unfold col_bind. by rewrite Hx, Hy, Nat.eqb_refl.
    + intros c Hin. unfold chunk. cbn [splits zip_with]. sl. sl. cbn [sem]. unfold col_bind. rewrite !(slice_nrow n cs) by done. rewrite Nat.eqb_refl, !slice_ncol. by rewrite slice_zip.
  - (* Syrk *) destruct tl; [|done]. destruct vs as [|[a|x|] [|? ?]]; try done. cbn in Hsu.
    assert (forall m, sem E (Syrk true) [Mat m] = Mat (mkM (ncol m) (grid (ncol m) (ncol m) (fun i j => agg_list E Sum ((fun r => e_mul E (nth i r (e_zero E)) (nth j r (e_zero E))) <$> rows m))))) as Hm.
    { intros m. cbn [sem]. unfold syrk, mat_mul. unfold transpose at 1. cbn [ncol]. rewrite Nat.eqb_refl. do 2 f_equal. unfold grid, transpose. cbn [rows]. rewrite <- list_fmap_compose. apply list_fmap_ext. intros _ i _. cbn. apply list_fmap_ext. intros _ j _. unfold dot, column. by rewrite zip_with_fmap2. }
    eapply (aggwise n cs _ _ Sum (ncol x) (ncol x) (fun i j r => e_mul E (nth i r (e_zero E)) (nth j r (e_zero E))) (rows x)); try done.
    intros c Hin. unfold chunk. cbn [splits zip_with]. sl. by rewrite Hm.
  - (* Gemv *) destruct vs as [|[a|x|] [|[b|y|] [|? ?]]]; try (by destruct Hsu). destruct Hsu as [Hx Hy]. cbn in Hx, Hy. cbn [sem] in Hs. unfold gemv in Hs. destruct (ncol y =? 1) eqn:E1; [|by rewrite andb_false_r in Hs]. clear Hs.
    assert (forall m m', nrow m = nrow m' -> ncol m' = 1 -> sem E Gemv [Mat m; Mat m'] = Mat (mkM 1 (grid (ncol m) 1 (fun i _ => agg_list E Sum ((fun p => e_mul E (nth i (fst p) (e_zero E)) (nth 0 (snd p) (e_zero E))) <$> zip (rows m) (rows m')))))) as Hm.
    { intros m m' H1 H2. cbn [sem]. unfold gemv. rewrite H1, H2, Nat.leb_refl. cbn [Nat.eqb andb]. do 2 f_equal. unfold grid. apply list_fmap_ext. intros _ i _. cbn [seq fmap list_fmap]. f_equal. unfold dot, column, agg_list. cbn [agg_op agg_id]. f_equal.
      generalize (rows m) (rows m'). clear. induction l as [|r l IH]; intros [|r' l']; cbn; try done. by rewrite IH. }
    apply Nat.eqb_eq in E1.
    eapply (aggwise n cs _ _ Sum (ncol x) 1 (fun i _ p => e_mul E (nth i (fst p) (e_zero E)) (nth 0 (snd p) (e_zero E))) (zip (rows x) (rows y))); try done.
    + rewrite zip_with_length. unfold nrow in *. lia.
    + by rewrite Hm by congruence.
    + intros c Hin. unfold chunk. cbn [splits zip_with]. sl. sl. rewrite Hm; [|by rewrite !(slice_nrow n cs)|done]. by rewrite !slice_rows, zw_drop, zw_take, slice_ncol.
Qed.
End ops.
