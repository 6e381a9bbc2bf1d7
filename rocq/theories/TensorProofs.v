(** Proofs about tensors, first part: indices and positions. *)
From stdpp Require Import base numbers list list_numbers.
From Coq Require Import Lia.
From Verif Require Import CppBase TensorModel TensorSpec.

Lemma count_pos shape : Forall (fun d => 0 < d) shape -> 0 < count shape.
Proof. induction 1; cbn; [lia|]. change (foldr Nat.mul 1 l) with (count l). nia. Qed.
Lemma sum_prod_cons i is s ss : sum_prod (i :: is) (s :: ss) = i * s + sum_prod is ss.
Proof. done. Qed.
Lemma sum_prod_nil_r ids : sum_prod ids [] = 0.
Proof. by destruct ids. Qed.
Lemma strides_length a shape : length (strides_from a shape) = length shape.
Proof. revert a. induction shape as [|d ds IH]; intros a; cbn; [done|]. by rewrite IH. Qed.
Lemma ids_length ss n : length (ids_of ss n) = length ss.
Proof. unfold ids_of. induction ss as [|s ss IH]; [done|]. cbn. destruct (unlin ss n) as [ids t] eqn:E. cbn in *. by rewrite IH. Qed.
Lemma inside_length ids shape : inside ids shape -> length ids = length shape.
Proof. apply Forall2_length. Qed.

Lemma unlin_spec shape : forall a n, Forall (fun d => 0 < d) shape -> 0 < a -> n < a * count shape ->
  inside (fst (unlin (strides_from a shape) n)) shape /\ snd (unlin (strides_from a shape) n) < a /\
  n = snd (unlin (strides_from a shape) n) + sum_prod (fst (unlin (strides_from a shape) n)) (strides_from a shape).
Proof.
  induction shape as [|d ds IH]; intros a n Hs Ha Hn; cbn [strides_from unlin]. { cbn in *. split; [constructor|]. lia. }
  apply Forall_cons in Hs as [Hd Hs]. cbn [count foldr] in Hn. change (foldr Nat.mul 1 ds) with (count ds) in Hn.
  destruct (IH (a * d) n Hs ltac:(nia) ltac:(nia)) as (H1 & H2 & H3). destruct (unlin (strides_from (a * d) ds) n) as [ids t]. cbn [fst snd] in *.
  split; [constructor; [apply Nat.div_lt_upper_bound; lia|done]|]. split; [apply Nat.mod_upper_bound; lia|]. rewrite sum_prod_cons. pose proof (Nat.div_mod t a ltac:(lia)). lia.
Qed.
Lemma unlin_unique shape : forall a ids r, Forall (fun d => 0 < d) shape -> 0 < a -> inside ids shape -> r < a -> unlin (strides_from a shape) (r + sum_prod ids (strides_from a shape)) = (ids, r).
Proof.
  induction shape as [|d ds IH]; intros a ids r Hs Ha Hi Hr; inversion Hi; subst. { cbn. by rewrite Nat.add_0_r. }
  apply Forall_cons in Hs as [Hd Hs]. cbn [strides_from unlin]. rewrite sum_prod_cons. replace (r + (x * a + sum_prod l (strides_from (a * d) ds))) with ((r + x * a) + sum_prod l (strides_from (a * d) ds)) by lia.
  rewrite IH; [|done|nia|done|nia]. rewrite Nat.div_add, Nat.mod_add by lia. rewrite Nat.div_small, Nat.mod_small by lia. done.
Qed.
Lemma sum_prod_bound shape : forall a ids, Forall (fun d => 0 < d) shape -> inside ids shape -> sum_prod ids (strides_from a shape) + a <= a * count shape.
Proof.
  induction shape as [|d ds IH]; intros a ids Hs Hi; inversion Hi; subst. { cbn. lia. }
  apply Forall_cons in Hs as [Hd Hs]. cbn [strides_from count foldr]. change (foldr Nat.mul 1 ds) with (count ds). rewrite sum_prod_cons. specialize (IH (a * d) l Hs ltac:(done)). nia.
Qed.
Lemma sum_prod_number shape : forall a ids, inside ids shape -> sum_prod ids (strides_from a shape) = a * number shape ids.
Proof.
  induction shape as [|d ds IH]; intros a ids Hi; inversion Hi; subst. { cbn. lia. }
  cbn [strides_from number]. rewrite sum_prod_cons, IH by done. lia.
Qed.
Lemma ids_of_spec shape n : Forall (fun d => 0 < d) shape -> n < count shape -> inside (ids_of (strides shape) n) shape /\ n = number shape (ids_of (strides shape) n).
Proof.
  intros Hs Hn. destruct (unlin_spec shape 1 n Hs ltac:(lia) ltac:(lia)) as (H1 & H2 & H3). split; [done|]. unfold ids_of, strides. rewrite sum_prod_number in H3 by done. lia.
Qed.
Lemma ids_of_number shape ids : Forall (fun d => 0 < d) shape -> inside ids shape -> ids_of (strides shape) (number shape ids) = ids.
Proof. intros Hs Hi. unfold ids_of, strides. pose proof (unlin_unique shape 1 ids 0 Hs ltac:(lia) Hi ltac:(lia)) as H. rewrite sum_prod_number in H by done. replace (0 + 1 * number shape ids) with (number shape ids) in H by lia. by rewrite H. Qed.
Lemma number_lt shape ids : Forall (fun d => 0 < d) shape -> inside ids shape -> number shape ids < count shape.
Proof. intros Hs Hi. pose proof (sum_prod_bound shape 1 ids Hs Hi) as H. rewrite sum_prod_number in H by done. lia. Qed.
Lemma number_inj shape ids ids' : Forall (fun d => 0 < d) shape -> inside ids shape -> inside ids' shape -> number shape ids = number shape ids' -> ids = ids'.
Proof. intros Hs H1 H2 H. rewrite <- (ids_of_number shape ids), <- (ids_of_number shape ids') by done. by rewrite H. Qed.
Lemma sum_prod_scale ids a shape : sum_prod ids (strides_from a shape) = a * sum_prod ids (strides shape).
Proof.
  unfold strides. assert (forall b, sum_prod ids (strides_from (a * b) shape) = a * sum_prod ids (strides_from b shape)) as H. 2: { rewrite <- (H 1). f_equal. f_equal. lia. }
  revert ids. induction shape as [|d ds IH]; intros ids b; cbn. { rewrite !sum_prod_nil_r. lia. } destruct ids as [|i ids]; [cbn; lia|]. rewrite !sum_prod_cons. rewrite <- Nat.mul_assoc, IH. lia.
Qed.

Lemma all_below_iff ids shape : length ids = length shape -> all_below ids shape = true <-> inside ids shape.
Proof.
  unfold all_below, inside. revert shape. induction ids as [|i ids IH]; intros [|d ds] Hl; try done. cbn [zip_with forallb].
  rewrite andb_true_iff, IH by (cbn in Hl; lia). change (id (i <? d)) with (i <? d). rewrite Nat.ltb_lt. split; [intros [? ?]; by constructor|]. intros H. by inversion H.
Qed.
Lemma all_below_false ids shape : length ids = length shape -> all_below ids shape = false <-> ~ inside ids shape.
Proof. intros Hl. rewrite <- (all_below_iff ids shape Hl). destruct (all_below ids shape); intuition congruence. Qed.
Lemma has_zero_false shape : has_zero shape = false <-> Forall (fun d => 0 < d) shape.
Proof.
  unfold has_zero. induction shape as [|d ds IH]; cbn; [split; [intros; constructor|reflexivity]|]. rewrite orb_false_iff, IH, Nat.eqb_neq. split; [intros [? ?]; constructor; [lia|done]|]. intros H. apply Forall_cons in H as [? ?]. split; [lia|done].
Qed.
Lemma ceil_pos d c : 0 < d -> 0 < c -> 0 < ceil d c.
Proof. intros Hd Hc. unfold ceil. destruct (Nat.eqb_spec (d mod c) 0) as [H|H]; [|lia]. destruct (Nat.eq_dec (d / c) 0) as [E|E]; [|lia]. pose proof (Nat.div_mod d c ltac:(lia)). nia. Qed.
Lemma ceil_spec d c i : 0 < c -> i < d -> i / c < ceil d c.
Proof.
  intros Hc Hi. apply Nat.div_lt_upper_bound; [lia|]. unfold ceil. pose proof (Nat.div_mod d c ltac:(lia)). pose proof (Nat.mod_upper_bound d c ltac:(lia)).
  destruct (Nat.eqb_spec (d mod c) 0); nia.
Qed.
Lemma ceil_lt d c k : 0 < c -> k < ceil d c <-> k * c < d.
Proof.
  intros Hc. unfold ceil. pose proof (Nat.div_mod d c ltac:(lia)). pose proof (Nat.mod_upper_bound d c ltac:(lia)). destruct (Nat.eqb_spec (d mod c) 0); split; intros; nia.
Qed.

(** Chunks and places *)
Lemma chunk_inside shape chunk ids : length chunk = length shape -> Forall (fun d => 0 < d) chunk -> inside ids shape -> inside (chunk_index chunk ids) (zip_with ceil shape chunk).
Proof.
  intros Hl Hc Hi. revert chunk Hl Hc. induction Hi as [|i d ids ds Hid Hi IH]; intros [|c chunk] Hl Hc; try done; cbn; [constructor|]. apply Forall_cons in Hc as [Hc0 Hc]. constructor; [by apply ceil_spec|]. apply IH; [cbn in Hl; lia|done].
Qed.
Lemma place_inside shape chunk ids : length chunk = length shape -> Forall (fun d => 0 < d) chunk -> inside ids shape -> inside (place chunk ids) chunk.
Proof.
  intros Hl Hc Hi. revert chunk Hl Hc. induction Hi as [|i d ids ds Hid Hi IH]; intros [|c chunk] Hl Hc; try done; cbn; [constructor|]. apply Forall_cons in Hc as [Hc0 Hc]. constructor; [apply Nat.mod_upper_bound; lia|]. apply IH; [cbn in Hl; lia|done].
Qed.
Lemma global_split chunk ids : length chunk = length ids -> Forall (fun d => 0 < d) chunk -> global chunk (chunk_index chunk ids) (place chunk ids) = ids.
Proof.
  revert chunk. induction ids as [|i ids IH]; intros [|c chunk] Hl Hc; try done. apply Forall_cons in Hc as [Hc0 Hc]. unfold global, chunk_index, place in *. cbn. rewrite IH by (cbn in Hl; auto; lia). f_equal. pose proof (Nat.div_mod i c ltac:(lia)). lia.
Qed.
Lemma global_chunk chunk cids m : inside m chunk -> length cids = length chunk -> chunk_index chunk (global chunk cids m) = cids /\ place chunk (global chunk cids m) = m.
Proof.
  intros Hm. revert cids. induction Hm as [|x c m chunk Hx Hm IH]; intros [|k cids] Hl; try done. destruct (IH cids ltac:(cbn in Hl; lia)) as [H1 H2]. unfold global, chunk_index, place in *. cbn. rewrite H1, H2.
  rewrite Nat.div_add, Nat.mod_add by lia. by rewrite Nat.div_small, Nat.mod_small by lia.
Qed.
Lemma cpd_pos shape chunk : length chunk = length shape -> Forall (fun d => 0 < d) shape -> Forall (fun d => 0 < d) chunk -> Forall (fun d => 0 < d) (zip_with ceil shape chunk).
Proof. intros Hl Hs. revert chunk Hl. induction Hs as [|d ds Hd Hs IH]; intros [|c chunk] Hl Hc; try done; cbn [zip_with]. apply Forall_cons in Hc as [Hc0 Hc]. constructor; [by apply ceil_pos|]. apply IH; [cbn in Hl; lia|done]. Qed.
Lemma cpd_length shape chunk : length chunk = length shape -> length (zip_with ceil shape chunk) = length shape.
Proof. intros. rewrite zip_with_length. lia. Qed.

Section tensor.
Context {V : Type}.
Implicit Types t u : ct V.

(** The position of an element: the chunks one after the other, and in a chunk as in a small tensor. *)
Lemma lin_id_eq t ids : good t -> inside ids (t_shape t) -> lin_id t ids = number (t_chunk t) (place (t_chunk t) ids) + t_elems t * chunk_no t (chunk_of t ids).
Proof.
  intros Hg Hi. unfold lin_id, chunk_no, chunk_of. rewrite (g_istr _ Hg), (g_cstr _ Hg), (g_elems _ Hg). unfold strides at 1. rewrite sum_prod_number by (apply (place_inside (t_shape t)); [apply Hg|apply Hg|done]). rewrite sum_prod_scale. unfold place. lia.
Qed.
Lemma chunk_no_eq t cids : inside cids (t_cpd t) -> chunk_no t cids = number (t_cpd t) cids.
Proof. intros Hi. unfold chunk_no, strides. rewrite sum_prod_number by done. lia. Qed.
Lemma good_cpd t : good t -> Forall (fun d => 0 < d) (t_cpd t) /\ length (t_cpd t) = rank t.
Proof. intros Hg. rewrite (g_cpd _ Hg). destruct Hg as [G1 G2 G3 _ _ _ _ _ _]. split; [by apply cpd_pos|]. by apply cpd_length. Qed.
Lemma chunk_of_inside t ids : good t -> inside ids (t_shape t) -> inside (chunk_of t ids) (t_cpd t).
Proof. intros Hg Hi. rewrite (g_cpd _ Hg). destruct Hg as [G1 G2 G3 _ _ _ _ _ _]. by apply chunk_inside. Qed.
Lemma chunk_no_lt t cids : good t -> inside cids (t_cpd t) -> chunk_no t cids < t_ccount t.
Proof. intros Hg Hi. rewrite (g_ccount _ Hg). rewrite chunk_no_eq by done. apply number_lt; [by apply good_cpd|done]. Qed.
Lemma place_lt t ids : good t -> inside ids (t_shape t) -> number (t_chunk t) (place (t_chunk t) ids) < t_elems t.
Proof. intros Hg Hi. rewrite (g_elems _ Hg). destruct Hg as [G1 G2 G3 _ _ _ _ _ _]. apply number_lt; [done|]. by apply (place_inside (t_shape t)). Qed.
Lemma lin_id_lt t ids : good t -> inside ids (t_shape t) -> lin_id t ids < length (t_data t).
Proof.
  intros Hg Hi. rewrite lin_id_eq by done. rewrite (g_data _ Hg). pose proof (place_lt t ids Hg Hi). pose proof (chunk_no_lt t _ Hg (chunk_of_inside t ids Hg Hi)). nia.
Qed.
Lemma lin_id_inj t ids ids' : good t -> inside ids (t_shape t) -> inside ids' (t_shape t) -> lin_id t ids = lin_id t ids' -> ids = ids'.
Proof.
  intros Hg Hi Hi' He. rewrite !lin_id_eq in He by done. pose proof (place_lt t ids Hg Hi) as L1. pose proof (place_lt t ids' Hg Hi') as L2.
  pose proof (chunk_of_inside t ids Hg Hi) as C1. pose proof (chunk_of_inside t ids' Hg Hi') as C2. rewrite !chunk_no_eq in He by done.
  assert (number (t_cpd t) (chunk_of t ids) = number (t_cpd t) (chunk_of t ids')) as E1 by nia.
  assert (number (t_chunk t) (place (t_chunk t) ids) = number (t_chunk t) (place (t_chunk t) ids')) as E2 by nia.
  apply number_inj in E1; [|by apply good_cpd|done..]. destruct Hg as [G1 G2 G3 _ _ _ _ _ _].
  apply number_inj in E2; [|done|by apply (place_inside (t_shape t))|by apply (place_inside (t_shape t))].
  apply inside_length in Hi, Hi'. rewrite <- (global_split (t_chunk t) ids), <- (global_split (t_chunk t) ids') by (done || congruence).
  unfold chunk_of in E1. unfold chunk_index. by rewrite E1, E2.
Qed.
Lemma need_ok t ids : length ids = rank t -> need t ids = Ok ids.
Proof. intros H. unfold need. rewrite H, Nat.ltb_irrefl. by rewrite <- H, firstn_all. Qed.
Lemma rank0 t : rank t = 0 -> t_shape t = [].
Proof. unfold rank. by destruct (t_shape t). Qed.
End tensor.
