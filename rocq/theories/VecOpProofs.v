(** Proofs about the operations of vectorized pipelines. *)
From stdpp Require Import base numbers list list_numbers.
From Coq Require Import Lia.
From Verif Require Import CppBase PipeSigModel PipeSigSpec VecOpModel VecOpSpec.

(** * Lists *)
Lemma seq_lookup_bind {A} (l : list A) k s : (seq s k ≫= fun i => option_list (l !! i)) = take k (drop s l).
Proof.
  revert s. induction k as [|k IH]; intros s; [done|]. cbn [seq mbind list_bind]. rewrite IH. destruct (l !! s) as [x|] eqn:E.
  - by rewrite (drop_S l x s E).
  - apply lookup_ge_None in E. rewrite !drop_ge by lia. by destruct k.
Qed.
Lemma bind_perm {A B} (f : A -> list B) l k : l ≡ₚ k -> l ≫= f ≡ₚ k ≫= f.
Proof.
  induction 1; cbn; [done|by apply Permutation_app_head| |by etrans]. rewrite !app_assoc. apply Permutation_app_tail. apply Permutation_app_comm.
Qed.
Lemma covers_perm {A} (l : list A) cs : covers (length l) cs -> (cs ≫= fun c => take (snd c - fst c) (drop (fst c) l)) ≡ₚ l.
Proof.
  intros [_ H]. apply (bind_perm (fun i => option_list (l !! i))) in H. rewrite seq_lookup_bind, drop_0, take_ge in H by done. rewrite <- H.
  assert (forall l', (l' ≫= fun c => take (snd c - fst c) (drop (fst c) l)) = ((l' ≫= fun c => seq (fst c) (snd c - fst c)) ≫= fun i => option_list (l !! i))) as ->; [|done].
  induction l' as [|c l' IH]; [done|]. cbn. rewrite bind_app, seq_lookup_bind. f_equal. exact IH.
Qed.
Lemma covers_in n cs c : covers n cs -> c ∈ cs -> fst c < snd c <= n.
Proof.
  intros [H1 H2] Hc. rewrite Forall_forall in H1. specialize (H1 c Hc). cbn in H1. split; [done|].
  assert (snd c - 1 ∈ seq 0 n) as Hin. { rewrite <- H2. apply elem_of_list_bind. exists c. split; [|done]. apply elem_of_seq. lia. }
  apply elem_of_seq in Hin. lia.
Qed.
Lemma covers_all n cs i : covers n cs -> i < n -> exists c, c ∈ cs /\ fst c <= i < snd c.
Proof.
  intros [H1 H2] Hi. assert (i ∈ seq 0 n) as Hin by (apply elem_of_seq; lia). rewrite <- H2 in Hin. apply elem_of_list_bind in Hin as (c & Hin & Hc). exists c. split; [done|]. apply elem_of_seq in Hin. lia.
Qed.

(** Pasting the right elements *)
Definition paste {A} (s e : nat) (x a : list A) : list A := take s a ++ x ++ drop e a.
Definition agree {A} (P : nat -> Prop) (a g : list A) : Prop := length a = length g /\ forall i, P i -> a !! i = g !! i.
Lemma paste_agree {A} (P : nat -> Prop) s e (a g : list A) : s <= e <= length g -> agree P a g -> agree (fun i => P i \/ s <= i < e) (paste s e (take (e - s) (drop s g)) a) g.
Proof.
  intros L [H1 H2]. unfold paste. split; [rewrite !app_length, !take_length, !drop_length; lia|]. intros i Hi. destruct (decide (i < s)) as [L1|L1].
  - rewrite lookup_app_l by (rewrite take_length; lia). rewrite lookup_take by done. apply H2. destruct Hi; [done|lia].
  - rewrite lookup_app_r by (rewrite take_length; lia). rewrite take_length, Nat.min_l by lia. destruct (decide (i < e)) as [L2|L2].
    + rewrite lookup_app_l by (rewrite take_length, drop_length; lia). rewrite lookup_take, lookup_drop by lia. f_equal. lia.
    + rewrite lookup_app_r by (rewrite take_length, drop_length; lia). rewrite take_length, drop_length, Nat.min_l by lia. rewrite lookup_drop. replace (e + (i - s - (e - s))) with i by lia. apply H2. destruct Hi; [done|lia].
Qed.
Lemma agree_weaken {A} (P Q : nat -> Prop) (a g : list A) : (forall i, Q i -> P i) -> agree P a g -> agree Q a g.
Proof. intros H [H1 H2]. split; [done|]. intros i Hi. apply H2, H, Hi. Qed.
Lemma agree_all {A} (P : nat -> Prop) (a g : list A) : (forall i, i < length g -> P i) -> agree P a g -> a = g.
Proof.
  intros H [H1 H2]. apply list_eq. intros i. destruct (decide (i < length g)) as [L|L]; [by apply H2, H|]. rewrite !lookup_ge_None_2 by lia. done.
Qed.

(** * Sums *)
Section monoid.
  Context {T : Type} (op : T -> T -> T) (e : T) (M : monoid op e).
  Lemma m_id_r a : op a e = a. Proof. destruct M as (_ & H1 & H2). by rewrite H1. Qed.
  Lemma sum_app l k : foldr op e (l ++ k) = op (foldr op e l) (foldr op e k).
  Proof. destruct M as (Ha & Hc & Hi). induction l as [|x l IH]; cbn; [by rewrite Hi|]. by rewrite IH, Ha. Qed.
  Lemma sum_perm l k : l ≡ₚ k -> foldr op e l = foldr op e k.
  Proof.
    destruct M as (Ha & Hc & Hi). induction 1 as [|x l k H IH|x y l|l k m H1 IH1 H2 IH2]; cbn; [done|by rewrite IH| |congruence]. by rewrite !Ha, (Hc y x).
  Qed.
  Lemma sum_foldl l a : foldl op a l = op a (foldr op e l).
  Proof. destruct M as (Ha & Hc & Hi). revert a. induction l as [|x l IH]; intros a; cbn; [by rewrite m_id_r|]. by rewrite IH, Ha. Qed.
  Lemma sum_bind {A} (f : A -> list T) l : foldr op e (l ≫= f) = foldr op e ((fun x => foldr op e (f x)) <$> l).
  Proof. induction l as [|x l IH]; [done|]. cbn. rewrite sum_app. f_equal. exact IH. Qed.
  Lemma sum_concat l : foldr op e (concat l) = foldr op e (foldr op e <$> l).
  Proof. induction l as [|x l IH]; [done|]. cbn. rewrite sum_app. f_equal. exact IH. Qed.
  (** the sums of the chunks, and the sum of everything *)
  Lemma sum_chunks {A} (h : A -> T) l cs : covers (length l) cs -> foldl op e ((fun c => foldr op e (h <$> take (snd c - fst c) (drop (fst c) l))) <$> cs) = foldr op e (h <$> l).
  Proof.
    intros H. rewrite sum_foldl. destruct M as (_ & _ & Hi). rewrite Hi.
    rewrite <- (sum_bind (fun c => h <$> take (snd c - fst c) (drop (fst c) l))). apply sum_perm.
    etrans; [|apply fmap_Permutation, covers_perm, H]. clear. induction cs as [|c cs IH]; [done|]. cbn. rewrite fmap_app. apply Permutation_app_head. exact IH.
  Qed.
End monoid.

(** * Grids *)
Section ops.
Context {T : Type} (E : elems T).
Implicit Types (m x y t : mat T) (v : val T) (k : agg) (cs : list (nat * nat)).

Definition grid (r c : nat) (f : nat -> nat -> T) : list (list T) := (fun i => (fun j => f i j) <$> seq 0 c) <$> seq 0 r.
Lemma grid_length r c f : length (grid r c f) = r.
Proof. unfold grid. by rewrite fmap_length, seq_length. Qed.
Lemma zip_with_fmap2 {A B C D} (g : B -> C -> D) (f1 : A -> B) (f2 : A -> C) (l : list A) : zip_with g (f1 <$> l) (f2 <$> l) = (fun a => g (f1 a) (f2 a)) <$> l.
Proof. induction l as [|a l IH]; [done|]. cbn. by rewrite IH. Qed.
Lemma grid_zip g r c f1 f2 : zip_with (zip_with g) (grid r c f1) (grid r c f2) = grid r c (fun i j => g (f1 i j) (f2 i j)).
Proof. unfold grid. rewrite zip_with_fmap2. apply list_fmap_ext. intros _ i _. by rewrite zip_with_fmap2. Qed.
Lemma grid_ext r c f1 f2 : (forall i j, i < r -> j < c -> f1 i j = f2 i j) -> grid r c f1 = grid r c f2.
Proof.
  intros H. unfold grid. apply list_fmap_ext. intros _ i Hi%elem_of_list_lookup_2%elem_of_seq. apply list_fmap_ext. intros _ j Hj%elem_of_list_lookup_2%elem_of_seq. apply H; lia.
Qed.
Lemma replicate_fmap_seq {A} (a : A) n s : replicate n a = (fun _ => a) <$> seq s n.
Proof. revert s. induction n as [|n IH]; intros s; [done|]. cbn. by rewrite <- (IH (S s)). Qed.
Lemma grid_const r c a : replicate r (replicate c a) = grid r c (fun _ _ => a).
Proof. unfold grid. rewrite <- (replicate_fmap_seq a c 0). by rewrite <- replicate_fmap_seq. Qed.

Lemma accumulated_from k r c (h : nat * nat -> nat -> nat -> T) cs f :
  foldl (fun acc v => match acc, v with Mat a, Mat b => ew_bin E (agg_op E k) a b | _, _ => Err end) (Mat (mkM c (grid r c f))) ((fun ch => Mat (mkM c (grid r c (h ch)))) <$> cs) =
  Mat (mkM c (grid r c (fun i j => foldl (agg_op E k) (f i j) ((fun ch => h ch i j) <$> cs)))).
Proof.
  revert f. induction cs as [|ch cs IH]; intros f; [done|]. cbn [fmap list_fmap foldl]. unfold ew_bin at 2. unfold nrow. cbn [rows ncol]. rewrite !grid_length, !Nat.eqb_refl. cbn [andb]. rewrite grid_zip. apply IH.
Qed.
Lemma accumulated_grid k r c (h : nat * nat -> nat -> nat -> T) cs :
  accumulated E k (r, c) ((fun ch => Mat (mkM c (grid r c (h ch)))) <$> cs) = Mat (mkM c (grid r c (fun i j => foldl (agg_op E k) (agg_id E k) ((fun ch => h ch i j) <$> cs)))).
Proof. unfold accumulated. cbn [fst snd]. rewrite grid_const. apply accumulated_from. Qed.

Lemma agg_monoid k : exact E -> monoid (agg_op E k) (agg_id E k).
Proof. intros (H1 & H2 & H3). by destruct k. Qed.
(** a result that is a sum over the rows in every element *)
Lemma accumulated_rows {A} k r c (h : nat -> nat -> A -> T) (l : list A) cs : exact E -> covers (length l) cs ->
  accumulated E k (r, c) ((fun ch => Mat (mkM c (grid r c (fun i j => agg_list E k (h i j <$> take (snd ch - fst ch) (drop (fst ch) l)))))) <$> cs) =
  Mat (mkM c (grid r c (fun i j => agg_list E k (h i j <$> l)))).
Proof.
  intros HE Hc. rewrite (accumulated_grid k r c (fun ch i j => agg_list E k (h i j <$> take (snd ch - fst ch) (drop (fst ch) l)))). do 2 f_equal. apply grid_ext. intros i j _ _. unfold agg_list. apply (sum_chunks _ _ (agg_monoid k HE)). done.
Qed.

(** * Slices *)
Lemma slice_ok_in n cs c : covers n cs -> c ∈ cs -> slice_ok n (fst c) (snd c) = true.
Proof.
  intros H1 H2. pose proof (covers_in n cs c H1 H2). unfold slice_ok. apply andb_true_intro. split; [apply andb_true_intro; split; apply Nat.leb_le; lia|]. apply orb_true_intro. left. apply Nat.ltb_lt. lia.
Qed.
Lemma slice_all m : slice 0 (nrow m) m = m.
Proof. unfold slice. rewrite Nat.sub_0_r, drop_0, take_ge by done. by destruct m. Qed.
Lemma part_slice n cs c m : covers n cs -> c ∈ cs -> nrow m = n -> part Rows (Mat m) c = Mat (slice (fst c) (snd c) m).
Proof.
  intros H1 H2 H3. unfold part. destruct (Nat.eqb_spec (nrow m) 1) as [L|L].
  - pose proof (covers_in n cs c H1 H2). replace (fst c) with 0 by lia. replace (snd c) with (nrow m) by lia. by rewrite slice_all.
  - rewrite H3, (slice_ok_in n cs c) by done. done.
Qed.
Lemma slice_nrow n cs c m : covers n cs -> c ∈ cs -> nrow m = n -> nrow (slice (fst c) (snd c) m) = snd c - fst c.
Proof. intros H1 H2 H3. pose proof (covers_in n cs c H1 H2). unfold nrow, slice in *. cbn. rewrite take_length, drop_length. lia. Qed.

(** * Copying *)
Lemma mapM_id_some {A} (l : list A) : mapM (M := option) id (Some <$> l) = Some l.
Proof. induction l as [|x l IH]; [done|]. cbn. cbn in IH. by rewrite IH. Qed.
Definition lift {A} (r : list A) : list (option A) := Some <$> r.
Lemma mapM_mapM_some {A} (l : list (list A)) : mapM (M := option) (mapM (M := option) id) (lift <$> l) = Some l.
Proof.
  induction l as [|x l IH]; [done|]. change (lift <$> x :: l) with (lift x :: (lift <$> l)). cbn [mapM]. rewrite (mapM_id_some x : mapM id (lift x) = Some x). cbn [mbind option_bind]. by rewrite IH.
Qed.
Lemma take_all_rows (n : nat) (l : list (list T)) : Forall (fun r => length r = n) l -> (fun r => take n r) <$> l = l.
Proof. induction 1 as [|r l H Hl IH]; [done|]. cbn. by rewrite IH, take_ge by lia. Qed.
Lemma take_rect m i j : rect m -> (fun r => take (ncol m) r) <$> take i (drop j (rows m)) = take i (drop j (rows m)).
Proof. intros H. apply take_all_rows. by apply Forall_take, Forall_drop. Qed.
Lemma placed_rows_from n cs t (P : nat -> Prop) acc : rect t -> nrow t = n -> (forall c, c ∈ cs -> fst c < snd c <= n) -> agree P acc (lift <$> rows t) ->
  exists acc', foldl (copy false (ncol t)) (Some acc) (zip cs ((fun c => Mat (slice (fst c) (snd c) t)) <$> cs)) = Some acc' /\ agree (fun i => P i \/ exists c, c ∈ cs /\ fst c <= i < snd c) acc' (lift <$> rows t).
Proof.
  intros Hr Hn. revert P acc. induction cs as [|c cs IH]; intros P acc Hc Ha.
  { exists acc. split; [done|]. eapply agree_weaken; [|exact Ha]. intros i [Hi|(? & []%elem_of_nil & _)]. done. }
  cbn [fmap list_fmap zip zip_with foldl]. unfold copy at 2. cbn [fst snd]. unfold copy_rows. destruct (Hc c) as [L1 L2]; [left|].
  destruct Ha as [Hl Ha]. rewrite fmap_length in Hl. fold (nrow t) in Hl.
  assert (slice_ok (length acc) (fst c) (snd c) && (snd c - fst c <=? nrow (slice (fst c) (snd c) t)) && (ncol t <=? ncol (slice (fst c) (snd c) t)) = true) as ->.
  { unfold slice_ok, slice, nrow. cbn [rows ncol]. rewrite take_length, drop_length. unfold nrow in *. rewrite !andb_true_iff, orb_true_iff, !Nat.leb_le, Nat.ltb_lt. lia. }
  assert (take (fst c) acc ++ ((fun r : list T => Some <$> take (ncol t) r) <$> take (snd c - fst c) (rows (slice (fst c) (snd c) t))) ++ drop (snd c) acc
    = paste (fst c) (snd c) (take (snd c - fst c) (drop (fst c) (lift <$> rows t))) acc) as ->.
  { unfold paste. do 2 f_equal. unfold slice. cbn [rows]. rewrite take_take, Nat.min_id. rewrite <- fmap_drop, <- fmap_take.
    rewrite <- (take_rect t (snd c - fst c) (fst c) Hr) at 2. by rewrite <- list_fmap_compose. }
  edestruct (IH (fun i => P i \/ fst c <= i < snd c) (paste (fst c) (snd c) (take (snd c - fst c) (drop (fst c) (lift <$> rows t))) acc)) as (acc' & H1 & H2).
  { intros c' Hc'. apply Hc. by right. }
  { apply paste_agree; [rewrite fmap_length; fold (nrow t); lia|]. split; [by rewrite fmap_length|]. exact Ha. }
  exists acc'. split; [exact H1|]. eapply agree_weaken; [|exact H2]. intros i [Hi|(c' & Hc' & Hi)]; [by left; left|]. apply elem_of_cons in Hc' as [->|Hc']; [by left; right|]. right. by exists c'.
Qed.
Lemma placed_rows n cs t : covers n cs -> rect t -> nrow t = n -> placed false cs (n, ncol t) ((fun c => Mat (slice (fst c) (snd c) t)) <$> cs) = Mat t.
Proof.
  intros Hc Hr Hn. unfold placed. cbn [fst snd]. destruct (placed_rows_from n cs t (fun _ => False) (replicate n (replicate (ncol t) None)) Hr Hn) as (acc & H1 & H2).
  { intros c. by apply covers_in. } { split; [by rewrite replicate_length, fmap_length|done]. }
  rewrite H1. apply agree_all in H2 as ->. 2: { intros i Hi. right. rewrite fmap_length in Hi. fold (nrow t) in Hi. apply (covers_all n); [done|lia]. }
  cbn [mbind option_bind]. rewrite mapM_mapM_some. by destruct t.
Qed.

Lemma column_slice m s e j : column E (slice s e m) j = take (e - s) (drop s (column E m j)).
Proof. unfold column, slice. cbn [rows]. by rewrite fmap_take, fmap_drop. Qed.
Lemma column_length m j : length (column E m j) = nrow m.
Proof. unfold column. by rewrite fmap_length. Qed.
Lemma placed_cols_from n cs m (P : nat -> Prop) acc : nrow m = n -> (forall c, c ∈ cs -> fst c < snd c <= n) -> Forall2 (agree P) acc (lift <$> rows (transpose E m)) ->
  exists acc', foldl (copy true n) (Some acc) (zip cs ((fun c => Mat (transpose E (slice (fst c) (snd c) m))) <$> cs)) = Some acc' /\ Forall2 (agree (fun i => P i \/ exists c, c ∈ cs /\ fst c <= i < snd c)) acc' (lift <$> rows (transpose E m)).
Proof.
  intros Hn. revert P acc. induction cs as [|c cs IH]; intros P acc Hc Ha.
  { exists acc. split; [done|]. eapply Forall2_impl; [exact Ha|]. intros a g. apply agree_weaken. intros i [Hi|(? & []%elem_of_nil & _)]. done. }
  cbn [fmap list_fmap zip zip_with foldl]. unfold copy at 2. cbn [fst snd]. unfold copy_cols. destruct (Hc c) as [L1 L2]; [left|].
  pose proof (Forall2_length _ _ _ Ha) as Hl. unfold transpose in Hl. cbn [rows] in Hl. rewrite !fmap_length, seq_length in Hl.
  assert (slice_ok n (fst c) (snd c) && (length acc <=? nrow (transpose E (slice (fst c) (snd c) m))) && (snd c - fst c <=? ncol (transpose E (slice (fst c) (snd c) m))) = true) as ->.
  { unfold slice_ok, transpose, slice, nrow. cbn [rows ncol]. rewrite fmap_length, seq_length, take_length, drop_length. unfold nrow in *. rewrite !andb_true_iff, orb_true_iff, !Nat.leb_le, Nat.ltb_lt. lia. }
  edestruct (IH (fun i => P i \/ fst c <= i < snd c) (zip_with (fun (a : list (option T)) (r : list T) => take (fst c) a ++ (Some <$> take (snd c - fst c) r) ++ drop (snd c) a) acc (rows (transpose E (slice (fst c) (snd c) m))))) as (acc' & H1 & H2).
  { intros c' Hc'. apply Hc. by right. }
  2: { exists acc'. split; [exact H1|]. eapply Forall2_impl; [exact H2|]. intros a g. apply agree_weaken. intros i [Hi|(c' & Hc' & Hi)]; [by left; left|]. apply elem_of_cons in Hc' as [->|Hc']; [by left; right|]. right. by exists c'. }
  unfold transpose in *. cbn [rows] in *. change (ncol (slice (fst c) (snd c) m)) with (ncol m). clear IH Hl. revert acc Ha. generalize (seq 0 (ncol m)) as js. induction js as [|j js IHj]; intros acc Ha; cbn [fmap list_fmap zip_with] in Ha |- *.
  { apply Forall2_nil_inv_r in Ha. subst acc. constructor. }
  apply Forall2_cons_inv_r in Ha as (a & acc' & Ha & Hs & ->). cbn [fmap list_fmap zip_with]. constructor; [|by apply IHj]. rewrite column_slice, take_take, Nat.min_id, fmap_take, fmap_drop. apply (paste_agree P); [unfold lift; rewrite fmap_length, column_length; lia|done].
Qed.
Lemma agree_all_rows {A} (P : nat -> Prop) n (acc gs : list (list A)) : Forall2 (agree P) acc gs -> (forall i, i < n -> P i) -> Forall (fun g => length g = n) gs -> acc = gs.
Proof. intros H HP. induction H as [|a g acc gs Ha H IH]; intros Hg; [done|]. apply Forall_cons in Hg as [H1 H2]. f_equal; [|by apply IH]. eapply agree_all; [|exact Ha]. rewrite H1. exact HP. Qed.
Lemma placed_cols n cs m : covers n cs -> nrow m = n -> placed true cs (ncol m, n) ((fun c => Mat (transpose E (slice (fst c) (snd c) m))) <$> cs) = Mat (transpose E m).
Proof.
  intros Hc Hn. unfold placed. cbn [fst snd]. destruct (placed_cols_from n cs m (fun _ => False) (replicate (ncol m) (replicate n None)) Hn) as (acc & H1 & H2).
  { intros c. by apply covers_in. }
  { unfold transpose. cbn [rows]. rewrite (replicate_fmap_seq _ (ncol m) 0), <- list_fmap_compose. apply Forall2_fmap. apply Forall_Forall2_diag. apply Forall_true. intros j. split; [|done]. cbn. unfold lift. by rewrite replicate_length, fmap_length, column_length. }
  rewrite H1. assert (acc = lift <$> rows (transpose E m)) as ->.
  { eapply agree_all_rows; [exact H2| |].
    - intros i Hi. right. apply (covers_all n); [done|exact Hi].
    - apply Forall_fmap, Forall_fmap, Forall_true. intros j. unfold lift. cbn. by rewrite fmap_length, column_length. }
  cbn [mbind option_bind]. rewrite mapM_mapM_some. unfold transpose at 2. cbn [rows]. unfold transpose. by rewrite Hn.
Qed.
End ops.
