(** Proofs about tensors, third part: chunks, rechunking and slicing. *)
From stdpp Require Import base numbers list list_numbers.
From Coq Require Import Lia.
From Verif Require Import CppBase TensorModel TensorSpec TensorProofs TensorOps.

Lemma for_up_const {A} lo hi (f : nat -> A -> outcome A) (a : A) : lo <= hi -> (forall i, lo <= i < hi -> f i a = Ok a) -> for_up lo hi f a = Ok a.
Proof. intros Hle H. destruct (for_up_inv (fun _ s => s = a) lo hi f a Hle eq_refl) as (s & E & ->); [|done]. intros i s Hi ->. exists a. split; [by apply H|done]. Qed.

(** ** Ranges *)
Lemma range_ok_iff r d : range_ok r d = true <-> fst r < snd r <= d.
Proof. unfold range_ok. rewrite !andb_true_iff, !negb_true_iff. rewrite Nat.eqb_neq, !Nat.leb_gt, Nat.ltb_ge. lia. Qed.
Lemma ranges_ok_iff rs shape : length rs = length shape -> ranges_ok rs shape = true <-> proper_ranges rs shape.
Proof.
  revert shape. induction rs as [|r rs IH]; intros [|d ds] Hl; try done. { split; [constructor|done]. }
  unfold ranges_ok, proper_ranges in *. cbn. rewrite andb_true_iff, Forall2_cons. rewrite range_ok_iff. rewrite IH by (cbn in Hl; lia). done.
Qed.
Lemma extent_size r d : fst r < snd r <= d -> extent r = size_of r.
Proof. unfold extent, size_of. lia. Qed.
Lemma extents_size rs shape : proper_ranges rs shape -> extent <$> rs = size_of <$> rs.
Proof. induction 1 as [|r d rs ds H _ IH]; [done|]. cbn. by rewrite IH, (extent_size r d). Qed.
Lemma sizes_pos rs shape : proper_ranges rs shape -> Forall (fun d => 0 < d) (size_of <$> rs).
Proof. induction 1 as [|r d rs ds H _ IH]; [constructor|]. cbn. constructor; [unfold size_of; lia|done]. Qed.
Lemma shifted_zip ids rs : zip_with Nat.add ids (fst <$> rs) = shifted ids rs.
Proof. unfold shifted. revert rs. induction ids as [|i ids IH]; intros [|r rs]; try done. cbn. by rewrite IH. Qed.
Lemma shifted_inside ids rs shape : proper_ranges rs shape -> inside ids (size_of <$> rs) -> inside (shifted ids rs) shape.
Proof.
  intros Hp. revert ids. induction Hp as [|r d rs ds H _ IH]; intros [|i ids] Hi; try (by inversion Hi); try (by constructor). cbn in Hi. apply Forall2_cons in Hi as [Hi0 Hi]. unfold size_of in Hi0. constructor; [lia|]. by apply IH.
Qed.
Lemma in_ranges_inside ids rs shape : proper_ranges rs shape -> in_ranges ids rs -> inside ids shape.
Proof. intros Hp. revert ids. induction Hp as [|r d rs ds H _ IH]; intros [|i ids] Hi; try (by inversion Hi); try (by constructor). apply Forall2_cons in Hi as [Hi0 Hi]. constructor; [lia|]. by apply IH. Qed.
Lemma shifted_range ids rs : inside ids (size_of <$> rs) -> in_ranges (shifted ids rs) rs.
Proof. revert ids. induction rs as [|r rs IH]; intros [|i ids] Hi; try (by inversion Hi); try (by constructor). cbn in Hi. apply Forall2_cons in Hi as [Hi0 Hi]. unfold size_of in Hi0. constructor; [lia|]. by apply IH. Qed.

(** ** Lists of chunks *)
Lemma chunk_list_elem los cnts c : length los = length cnts -> Forall (fun d => 0 < d) cnts -> c ∈ chunk_list los cnts <-> exists m, inside m cnts /\ c = zip_with Nat.add los m.
Proof.
  intros Hl Hp. unfold chunk_list. rewrite elem_of_list_fmap. split.
  - intros (i & -> & Hi). apply elem_of_seq in Hi. destruct (ids_of_spec cnts i Hp ltac:(lia)) as [H1 _]. by eexists.
  - intros (m & Hm & ->). exists (number cnts m). rewrite ids_of_number by done. split; [done|]. apply elem_of_seq. pose proof (number_lt _ _ Hp Hm). lia.
Qed.
Lemma zip_add_inj los m m' : length m = length los -> length m' = length los -> zip_with Nat.add los m = zip_with Nat.add los m' -> m = m'.
Proof. revert m m'. induction los as [|l los IH]; intros [|x m] [|y m'] H1 H2; try done. cbn. intros [= E1 E2]. f_equal; [lia|]. apply IH; [cbn in *; lia..|done]. Qed.
Lemma chunk_list_nodup los cnts : length los = length cnts -> Forall (fun d => 0 < d) cnts -> NoDup (chunk_list los cnts).
Proof.
  intros Hl Hp. unfold chunk_list. apply NoDup_fmap_2_strong; [|apply NoDup_seq]. intros i j Hi Hj Hb. apply elem_of_seq in Hi. apply elem_of_seq in Hj.
  destruct (ids_of_spec cnts i Hp ltac:(lia)) as [I1 I2]. destruct (ids_of_spec cnts j Hp ltac:(lia)) as [J1 J2]. apply zip_add_inj in Hb; [|rewrite Hl; by apply inside_length..]. rewrite I2, J2. by rewrite Hb.
Qed.
Definition lows (rs : list (nat * nat)) (chunk : list nat) : list nat := zip_with (fun (r : nat * nat) c => fst r / c) rs chunk.
Definition cnts (rs : list (nat * nat)) (chunk : list nat) : list nat := zip_with (fun (r : nat * nat) c => (snd r - 1) / c - fst r / c + 1) rs chunk.
Lemma cnts_pos rs chunk : Forall (fun d => 0 < d) (cnts rs chunk).
Proof. unfold cnts. revert chunk. induction rs as [|r rs IH]; intros [|c cs]; cbn; try constructor; [lia|apply IH]. Qed.
Lemma range_chunks rs chunk shape c : length chunk = length shape -> Forall (fun d => 0 < d) chunk -> proper_ranges rs shape ->
  c ∈ chunk_list (lows rs chunk) (cnts rs chunk) <-> exists ids, in_ranges ids rs /\ chunk_index chunk ids = c.
Proof.
  intros Hl Hc Hp. rewrite chunk_list_elem; [|unfold lows, cnts; by rewrite !zip_with_length|apply cnts_pos]. revert chunk c Hl Hc. induction Hp as [|r d rs ds Hr Hp IH]; intros [|k chunk] c Hl Hc; try done.
  - split; [intros (m & Hm & ->); exists []; split; [constructor|done]|intros (ids & Hi & <-); exists []; split; [constructor|by inversion Hi]].
  - apply Forall_cons in Hc as [Hk Hc]. cbn in Hl. specialize (IH chunk). split.
    + intros (m & Hm & ->). cbn in Hm |- *. destruct m as [|x m]; [by inversion Hm|]. apply Forall2_cons in Hm as [Hx Hm]. destruct (proj1 (IH (zip_with Nat.add (lows rs chunk) m) ltac:(lia) Hc)) as (ids & I1 & I2); [by exists m|].
      exists (max (fst r) (k * (fst r / k + x)) :: ids). split.
      * constructor; [|done]. pose proof (Nat.mul_div_le (snd r - 1) k ltac:(lia)). assert (k * (fst r / k + x) <= k * ((snd r - 1) / k)); [|lia]. apply Nat.mul_le_mono_l. assert (fst r / k <= (snd r - 1) / k) by (apply Nat.div_le_mono; lia). lia.
      * change (max (fst r) (k * (fst r / k + x)) / k :: chunk_index chunk ids = fst r / k + x :: zip_with Nat.add (lows rs chunk) m). rewrite I2. f_equal. destruct (decide (x = 0)) as [->|Hx0].
        -- rewrite Nat.max_l; [lia|]. pose proof (Nat.mul_div_le (fst r) k ltac:(lia)). lia.
        -- rewrite Nat.max_r. ++ by rewrite (Nat.mul_comm k), Nat.div_mul by lia. ++ pose proof (Nat.mul_succ_div_gt (fst r) k ltac:(lia)). nia.
    + intros (ids & Hi & <-). destruct ids as [|i ids]; [by inversion Hi|]. apply Forall2_cons in Hi as [Hi0 Hi]. destruct (proj2 (IH (chunk_index chunk ids) ltac:(lia) Hc)) as (m & M1 & M2); [by exists ids|].
      exists (i / k - fst r / k :: m). assert (fst r / k <= i / k) by (apply Nat.div_le_mono; lia). assert (i / k <= (snd r - 1) / k) by (apply Nat.div_le_mono; lia). split; [constructor; [lia|done]|]. cbn. f_equal; [lia|done].
Qed.

Section tensor.
Context {V : Type}.
Implicit Types t u : ct V.

Lemma complete_flags t : good t -> tracked t -> complete t <-> t_flags t = replicate (t_ccount t) true.
Proof.
  intros Hg Ht. split.
  - intros Hc. apply list_eq. intros i. destruct (decide (i < t_ccount t)) as [Hi|Hi].
    + rewrite (proj2 (lookup_replicate _ _ _ _)) by done. destruct (good_cpd t Hg) as [C1 C2]. rewrite (g_ccount _ Hg) in Hi. destruct (ids_of_spec _ i C1 Hi) as [I1 I2]. specialize (Hc _ I1). unfold present in Hc. rewrite chunk_no_eq, <- I2 in Hc by done. done.
    + rewrite !lookup_ge_None_2; [done|rewrite replicate_length; lia|rewrite Ht; lia].
  - intros E c Hi. unfold present. rewrite E. apply lookup_replicate. split; [done|]. by apply chunk_no_lt.
Qed.
Lemma shows_cell t f : good t -> shows t f <-> forall ids, inside ids (t_shape t) -> cell t ids = Some (f ids).
Proof.
  intros Hg. unfold shows, cell. split; intros H ids Hi; specialize (H ids Hi); rewrite get_ok in * by done.
  - by apply rd_inv in H.
  - by apply rd_Ok.
Qed.
Lemma tryGetChunk_ok t cids : good t -> tracked t -> inside cids (t_cpd t) -> rank t <> 0 ->
  (present t cids -> exists vs, tryGetChunk t cids = Ok (Some vs) /\ length vs = t_elems t /\ forall ids, inside ids (t_shape t) -> chunk_index (t_chunk t) ids = cids -> vs !! number (t_chunk t) (place (t_chunk t) ids) = cell t ids) /\
  (~ present t cids -> tryGetChunk t cids = Ok None).
Proof.
  intros Hg Ht Hi Hr. destruct (good_cpd t Hg) as [C1 C2]. pose proof (inside_length _ _ Hi) as Hl. rewrite C2 in Hl. unfold tryGetChunk. rewrite Hl, Nat.eqb_refl. cbn [negb]. apply Nat.eqb_neq in Hr as ->. rewrite (proj2 (all_below_iff cids (t_cpd t) (inside_length _ _ Hi)) Hi).
  unfold chunk_there. rewrite need_ok by done. cbn [obind]. pose proof (chunk_no_lt t cids Hg Hi) as Hno. destruct (rd_lt (t_flags t) (chunk_no t cids)) as (b & Hb & ->); [by rewrite Ht|]. cbn [obind]. unfold present. rewrite Hb. split; [intros [= ->]|intros Hn; by destruct b].
  unfold grab. rewrite chunk_pos_eq by done. destruct (Nat.leb_spec (t_elems t * chunk_no t cids + t_elems t) (length (t_data t))) as [Hle|Hle]; [|rewrite (g_data _ Hg) in Hle; nia]. cbn [obind]. eexists. split; [reflexivity|]. split; [rewrite take_length, drop_length; lia|].
  intros ids Hi' <-. pose proof (place_lt t ids Hg Hi'). rewrite lookup_take by done. rewrite lookup_drop. unfold cell. rewrite lin_id_eq by done. f_equal. rewrite Nat.add_comm. done.
Qed.
Lemma all_there_ok t l : good t -> tracked t -> Forall (fun c => inside c (t_cpd t)) l -> exists b, all_there t l = Ok b /\ (b = true <-> Forall (present t) l).
Proof.
  intros Hg Ht. induction l as [|c l IH]; intros Hl; [exists true; split; [done|split; [constructor|done]]|]. apply Forall_cons in Hl as [Hc Hl]. destruct (IH Hl) as (b & Eb & Hb). cbn [all_there]. unfold chunk_there. rewrite need_ok by (rewrite (inside_length _ _ Hc); by apply good_cpd). cbn [obind].
  destruct (rd_lt (t_flags t) (chunk_no t c)) as (x & Hx & ->); [rewrite Ht; by apply chunk_no_lt|]. cbn [obind]. destruct x.
  - exists b. split; [done|]. rewrite Hb, Forall_cons. split; [by intros|by intros [_ ?]].
  - exists false. split; [done|]. rewrite Forall_cons. unfold present at 1. rewrite Hx. split; [done|]. intros [H _]. done.
Qed.
Lemma range_there t rs : good t -> tracked t -> proper_ranges rs (t_shape t) -> exists b, all_there t (dice_chunks t rs) = Ok b /\ (b = true <-> forall ids, in_ranges ids rs -> present t (chunk_of t ids)).
Proof.
  intros Hg Ht Hp. destruct (all_there_ok t (dice_chunks t rs) Hg Ht) as (b & Eb & Hb).
  { apply Forall_forall. intros c Hc. apply (range_chunks rs (t_chunk t) (t_shape t) c (g_len _ Hg) (g_chunk _ Hg) Hp) in Hc as (ids & Hi & <-). apply chunk_of_inside; [done|]. by apply (in_ranges_inside _ rs). }
  exists b. split; [done|]. rewrite Hb, Forall_forall. split.
  - intros H ids Hi. apply H. apply (range_chunks rs (t_chunk t) (t_shape t) _ (g_len _ Hg) (g_chunk _ Hg) Hp). by exists ids.
  - intros H c Hc. apply (range_chunks rs (t_chunk t) (t_shape t) c (g_len _ Hg) (g_chunk _ Hg) Hp) in Hc as (ids & Hi & <-). by apply H.
Qed.

(** ** Rechunking *)
Lemma rechunk_ok t chunk junk : good t -> tracked t -> complete t -> rank t <> 0 -> length chunk = rank t -> Forall (fun d => 0 < d) chunk -> length junk = chunked_size (t_shape t) chunk ->
  exists u, tryRechunk junk t chunk = Ok (true, u) /\ good u /\ t_shape u = t_shape t /\ t_chunk u = chunk /\ t_flags u = t_flags t /\ forall ids, inside ids (t_shape t) -> cell u ids = cell t ids.
Proof.
  intros Hg Ht Hc Hr Hl Hp Hj. unfold tryRechunk. rewrite Hl, Nat.eqb_refl. cbn [negb]. unfold tracked in Ht. rewrite Ht, Nat.leb_refl. cbn [negb]. rewrite (proj1 (complete_flags t Hg Ht) Hc). rewrite firstn_all2 by (rewrite replicate_length; lia).
  replace (forallb id (replicate (t_ccount t) true)) with true by (clear; induction (t_ccount t) as [|n IH]; [done|exact IH]). cbn [negb]. apply Nat.eqb_neq in Hr as ->. rewrite (proj2 (has_zero_false chunk)) by done.
  rewrite <- (proj1 (complete_flags t Hg Ht) Hc). set (new := mkT _ _ _ _ _ _ _ _ junk). assert (good new) as Hn. { constructor; try done; apply Hg. }
  set (N := fun d => with_data new (t_flags t) d).
  assert (forall d, lin_id (N d) = lin_id new) as HN by done.
  set (Q := fun i j d => length d = length junk /\ forall ids, inside ids (t_shape t) -> chunk_no t (chunk_of t ids) < i \/ chunk_no t (chunk_of t ids) = i /\ number (t_chunk t) (place (t_chunk t) ids) < j -> d !! lin_id new ids = cell t ids).
  destruct (good_cpd t Hg) as [C1 C2].
  destruct (for_up_inv (fun i d => Q i 0 d) 0 (t_ccount t) (fun i d => let cids := ids_of (strides (t_cpd t)) i in for_up 0 (t_elems t) (fun j d => rechunk_elem t new cids (chunk_pos t cids) j d) d) junk) as (d & Ed & Hd).
  - lia.
  - split; [done|]. intros ids _ [H|[_ H]]; lia.
  - intros i d Hi HQ. cbv zeta. set (cids := ids_of (strides (t_cpd t)) i). rewrite (g_ccount _ Hg) in Hi. destruct (ids_of_spec _ i C1 ltac:(lia)) as [I1 I2]. fold cids in I1, I2.
    destruct (for_up_inv (fun j d => Q i j d) 0 (t_elems t) (fun j d => rechunk_elem t new cids (chunk_pos t cids) j d) d) as (d' & Ed & Hd).
    + lia.
    + done.
    + intros j d1 Hj' [L1 HQ1]. unfold rechunk_elem. rewrite (g_istr _ Hg). set (m := ids_of (strides (t_chunk t)) j). change (zip_with Nat.add m (zip_with Nat.mul cids (t_chunk t))) with (global (t_chunk t) cids m).
      rewrite (g_elems _ Hg) in Hj'. destruct (ids_of_spec _ j (g_chunk _ Hg) ltac:(lia)) as [J1 J2]. fold m in J1, J2.
      assert (length cids = length (t_chunk t)) as Lc. { rewrite (inside_length _ _ I1), C2. symmetry. apply (g_len _ Hg). }
      destruct (global_chunk (t_chunk t) cids m J1 Lc) as [G1 G2]. set (ids := global (t_chunk t) cids m) in *.
      assert (length ids = length (t_shape t)) as Li. { unfold ids, global. rewrite !zip_with_length. rewrite (inside_length _ _ J1), Lc. rewrite (g_len _ Hg). lia. }
      assert (forall ids', inside ids' (t_shape t) -> chunk_no t (chunk_of t ids') = i -> number (t_chunk t) (place (t_chunk t) ids') = j -> ids' = ids) as Hsame.
      { intros ids' Hi' E1 E2. rewrite <- (global_split (t_chunk t) ids'); [|rewrite (inside_length _ _ Hi'); apply (g_len _ Hg)|apply (g_chunk _ Hg)]. unfold ids. f_equal.
        - pose proof (chunk_of_inside t ids' Hg Hi') as K. rewrite chunk_no_eq in E1 by done. apply (number_inj (t_cpd t)); [done..|]. rewrite <- I2. done.
        - apply (number_inj (t_chunk t)); [apply (g_chunk _ Hg)|apply (place_inside (t_shape t)); [apply (g_len _ Hg)|apply (g_chunk _ Hg)|done]|done|congruence]. }
      destruct (all_below ids (t_shape t)) eqn:Eb.
      * apply (all_below_iff _ _ Li) in Eb. assert (chunk_pos t cids + j = lin_id t ids) as ->. { rewrite lin_id_eq, chunk_pos_eq by done. rewrite G2. change (chunk_of t ids) with (chunk_index (t_chunk t) ids). rewrite G1, <- J2. lia. }
        destruct (rd_lt (t_data t) (lin_id t ids) (lin_id_lt t ids Hg Eb)) as (v & Hv & ->). cbn [obind]. rewrite wr_Ok by (rewrite L1; apply (lin_id_lt new); done). eexists. split; [reflexivity|]. split; [by rewrite insert_length|].
        intros ids' Hi' Hor. destruct (decide (ids' = ids)) as [->|Hne].
        -- rewrite list_lookup_insert; [done|]. rewrite L1. by apply (lin_id_lt new).
        -- rewrite list_lookup_insert_ne by (intros E; apply Hne; by apply (lin_id_inj new)). apply HQ1; [done|]. destruct Hor as [?|[E1 E2]]; [by left|]. right. split; [done|]. destruct (decide (number (t_chunk t) (place (t_chunk t) ids') = j)) as [E|]; [|lia]. destruct Hne. by apply Hsame.
      * eexists. split; [reflexivity|]. split; [done|]. intros ids' Hi' Hor. apply HQ1; [done|]. destruct Hor as [?|[E1 E2]]; [by left|]. right. split; [done|]. destruct (decide (number (t_chunk t) (place (t_chunk t) ids') = j)) as [E|]; [|lia].
        apply (all_below_false _ _ Li) in Eb. exfalso. apply Eb. rewrite <- (Hsame ids'); done.
    + exists d'. split; [done|]. destruct Hd as [L1 Hd]. split; [done|]. intros ids Hi' [H|[_ H]]; [|lia]. apply Hd; [done|]. destruct (decide (chunk_no t (chunk_of t ids) = i)) as [E|]; [|left; lia]. right. split; [done|]. by apply place_lt.
  - cbv zeta in Ed. rewrite Ed. cbn [obind]. eexists. split; [reflexivity|]. destruct Hd as [L1 Hd]. split; [apply good_with; [done|done]|]. do 3 (split; [done|]). intros ids Hi. unfold cell at 1. apply Hd; [done|]. left. apply chunk_no_lt; [done|]. by apply chunk_of_inside.
Qed.

(** ** Slicing to a contiguous tensor *)
Lemma cont_lin_number shape ids : inside ids shape -> shape <> [] -> cont_lin ids (strides shape) = number shape ids.
Proof.
  intros Hi Hn. destruct shape as [|d ds]; [done|]. destruct ids as [|i ids]; [by inversion Hi|]. apply Forall2_cons in Hi as [_ Hi]. unfold strides. cbn [strides_from cont_lin number]. rewrite sum_prod_number by done. lia.
Qed.
Lemma cont_get_ok (c : cont V) ids : fresh c -> inside ids (c_shape c) -> cont_get c ids = rd (c_data c) (number (c_shape c) ids) /\ exists v, c_data c !! number (c_shape c) ids = Some v /\ cont_tryGet c ids = Ok (Some v).
Proof.
  intros (H1 & H2 & H3) Hi. pose proof (inside_length _ _ Hi) as Hl. pose proof (number_lt _ _ H1 Hi) as Hn. destruct (rd_lt (c_data c) (number (c_shape c) ids)) as (v & Hv & Hv'); [lia|]. split.
  - unfold cont_get. destruct (c_shape c) as [|d ds] eqn:E; [by destruct ids|]. rewrite Hl, Nat.ltb_irrefl. rewrite <- Hl, firstn_all. rewrite H2, cont_lin_number by done. done.
  - exists v. split; [done|]. unfold cont_tryGet. rewrite Hl, Nat.eqb_refl. cbn [negb]. destruct (c_shape c) as [|d ds] eqn:E; [destruct ids; [|done]; cbn in Hv'; by rewrite Hv'|]. rewrite (proj2 (all_below_iff _ _ Hl) Hi). rewrite H2, cont_lin_number by done. by rewrite Hv'.
Qed.
Lemma fresh_shows (c : cont V) (f : list nat -> V) : fresh c -> (forall ids, inside ids (c_shape c) -> c_data c !! number (c_shape c) ids = Some (f ids)) -> cont_shows c f.
Proof. intros Hf H ids Hi. destruct (cont_get_ok c ids Hf Hi) as (E1 & v & Hv & E2). rewrite E1. rewrite H in Hv by done. injection Hv as [= <-]. split; [by apply rd_Ok, H|done]. Qed.
Lemma cont_trySet_ok (c : cont V) ids v : fresh c -> c_shape c <> [] -> exists c', cont_trySet c ids v = Ok (bool_decide (inside ids (c_shape c)), c') /\ fresh c' /\ c_shape c' = c_shape c /\
  forall ids', inside ids' (c_shape c) -> cont_get c' ids' = if bool_decide (ids' = ids) then Ok v else cont_get c ids'.
Proof.
  intros Hf Hn. pose proof Hf as (H1 & H2 & H3). unfold cont_trySet. destruct (Nat.eqb_spec (length ids) (length (c_shape c))) as [Hl|Hl]; cbn [negb orb].
  2: { assert (~ inside ids (c_shape c)) as Hx by (intros H; by apply Hl, inside_length). rewrite bool_decide_false by done. eexists. split; [reflexivity|]. split; [done|]. split; [done|]. intros ids' Hi'. rewrite bool_decide_false; [done|]. by intros ->. }
  destruct (Nat.eqb_spec (length (c_shape c)) 0) as [H0|H0]; [by destruct (c_shape c)|]. destruct (all_below ids (c_shape c)) eqn:Eb.
  - apply (all_below_iff _ _ Hl) in Eb. rewrite bool_decide_true by done. rewrite H2, cont_lin_number by done. pose proof (number_lt _ _ H1 Eb) as Hlt. rewrite wr_Ok by lia. cbn [obind]. eexists. split; [reflexivity|].
    assert (fresh (mkC (c_shape c) (strides (c_shape c)) (<[number (c_shape c) ids:=v]> (c_data c)))) as Hf'. { split; [done|]. split; [done|]. cbn. by rewrite insert_length. }
    split; [done|]. split; [done|]. intros ids' Hi'. rewrite (proj1 (cont_get_ok _ ids' Hf' Hi')). rewrite (proj1 (cont_get_ok c ids' Hf Hi')). cbn. case_bool_decide as E.
    + subst. apply rd_Ok, list_lookup_insert. lia.
    + unfold rd. by rewrite list_lookup_insert_ne by (intros E'; apply E; symmetry; by apply (number_inj (c_shape c))).
  - apply (all_below_false _ _ Hl) in Eb. rewrite bool_decide_false by done. eexists. split; [reflexivity|]. split; [done|]. split; [done|]. intros ids' Hi'. rewrite bool_decide_false; [done|]. by intros ->.
Qed.
(** A loop that fills the positions one after the other *)
Lemma fill_loop shape (d0 : list V) (g : list nat -> outcome V) (f : list nat -> V) pos : Forall (fun d => 0 < d) shape -> length d0 = count shape -> (forall ids, inside ids shape -> g ids = Ok (f ids)) ->
  (forall i, i < count shape -> pos i = i) ->
  exists d, for_up 0 (count shape) (fun i d => let* v := g (ids_of (strides shape) i) in wr d (pos i) v) d0 = Ok d /\ length d = count shape /\ forall ids, inside ids shape -> d !! number shape ids = Some (f ids).
Proof.
  intros Hp Hl Hg Hpos. destruct (for_up_inv (fun i d => length d = count shape /\ forall ids, inside ids shape -> number shape ids < i -> d !! number shape ids = Some (f ids)) 0 (count shape)
    (fun i d => let* v := g (ids_of (strides shape) i) in wr d (pos i) v) d0) as (d & Ed & L & Hd).
  - lia.
  - split; [done|]. intros; lia.
  - intros i d Hi [L Hd]. destruct (ids_of_spec shape i Hp ltac:(lia)) as [I1 I2]. rewrite Hg by done. cbn [obind]. rewrite Hpos by lia. rewrite wr_Ok by lia. eexists. split; [reflexivity|]. split; [by rewrite insert_length|].
    intros ids Hid Hlt. destruct (decide (number shape ids = i)) as [E|E].
    + rewrite E, list_lookup_insert by lia. f_equal. f_equal. apply (number_inj shape); [done..|]. congruence.
    + rewrite list_lookup_insert_ne by done. apply Hd; [done|lia].
  - exists d. split; [done|]. split; [done|]. intros ids Hi. apply Hd; [done|]. by apply number_lt.
Qed.
Lemma for_up_ext' {A} lo hi (f g : nat -> A -> outcome A) a : lo <= hi -> (forall i s, lo <= i < hi -> f i s = g i s) -> for_up lo hi f a = for_up lo hi g a.
Proof. intros Hle H. apply for_up_ext. intros i Hi s. apply H. done. Qed.

Lemma dice_cont_ok t rs junk f : good t -> tracked t -> rank t <> 0 -> shows t f -> proper_ranges rs (t_shape t) -> length junk = count (size_of <$> rs) -> (forall ids, in_ranges ids rs -> present t (chunk_of t ids)) ->
  exists c, dice_cont junk t rs = Ok (Some c) /\ fresh c /\ c_shape c = size_of <$> rs /\ forall ids, inside ids (c_shape c) -> c_data c !! number (c_shape c) ids = Some (f (shifted ids rs)).
Proof.
  intros Hg Ht Hr Hf Hp Hj Hpr. pose proof (Forall2_length _ _ _ Hp) as Hl. unfold dice_cont. change (length (t_shape t)) with (rank t) in Hl. rewrite Hl, Nat.eqb_refl. cbn [negb]. apply Nat.eqb_neq in Hr as Hr'. rewrite Hr'.
  rewrite (proj2 (ranges_ok_iff _ _ Hl) Hp). cbn [negb]. destruct (range_there t rs Hg Ht Hp) as (b & -> & Hb). rewrite (proj2 Hb Hpr). cbn [obind negb]. rewrite (extents_size _ _ Hp). pose proof (sizes_pos _ _ Hp) as Hs. set (shape := size_of <$> rs) in *.
  unfold cont_new. rewrite (proj2 (has_zero_false shape)) by done. cbn [obind c_strides].
  assert (shape <> []) as Hne. { intros E. assert (length shape = rank t) as K by (unfold shape; by rewrite fmap_length). rewrite E in K. cbn in K. lia. }
  destruct (fill_loop shape junk (fun ids => get t (zip_with Nat.add ids (fst <$> rs))) (fun ids => f (shifted ids rs)) (fun i => cont_lin (ids_of (strides shape) i) (strides shape))) as (d & Ed & L & Hd); [done|done| | |].
  - intros ids Hi. rewrite shifted_zip. apply Hf. by apply shifted_inside.
  - intros i Hi. destruct (ids_of_spec shape i Hs Hi) as [I1 I2]. rewrite cont_lin_number by done. done.
  - cbv zeta. cbv beta in Ed. rewrite Ed. cbn [obind]. eexists. split; [reflexivity|]. split; [|done]. split; [done|]. done.
Qed.
Lemma dice_cont_none t rs junk : good t -> tracked t -> rank t <> 0 -> (~ proper_ranges rs (t_shape t) \/ exists ids, in_ranges ids rs /\ ~ present t (chunk_of t ids)) -> dice_cont junk t rs = Ok None.
Proof.
  intros Hg Ht Hr Hno. unfold dice_cont. destruct (Nat.eqb_spec (length rs) (rank t)) as [Hl|Hl]; [cbn [negb]|done]. apply Nat.eqb_neq in Hr as ->. destruct (ranges_ok rs (t_shape t)) eqn:Er; [cbn [negb]|done]. apply (ranges_ok_iff _ _ Hl) in Er.
  destruct (range_there t rs Hg Ht Er) as (b & -> & Hb). cbn [obind]. destruct b; [|done]. destruct Hno as [?|(ids & Hi & Hn)]; [done|]. destruct Hn. by apply (proj1 Hb).
Qed.
Lemma cont_dice_ok (c : cont V) rs junk f : fresh c -> cont_shows c f -> proper_ranges rs (c_shape c) -> length junk = count (size_of <$> rs) ->
  exists c', cont_dice junk c rs = Ok (Some c') /\ fresh c' /\ c_shape c' = size_of <$> rs /\ forall ids, inside ids (c_shape c') -> c_data c' !! number (c_shape c') ids = Some (f (shifted ids rs)).
Proof.
  intros Hc Hf Hp Hj. pose proof (Forall2_length _ _ _ Hp) as Hl. unfold cont_dice. rewrite Hl, Nat.eqb_refl. cbn [negb]. rewrite (proj2 (ranges_ok_iff _ _ Hl) Hp). rewrite (extents_size _ _ Hp). pose proof (sizes_pos _ _ Hp) as Hs. set (shape := size_of <$> rs) in *.
  unfold cont_new. rewrite (proj2 (has_zero_false shape)) by done. cbn [obind c_strides].
  destruct (fill_loop shape junk (fun ids => cont_get c (zip_with Nat.add ids (fst <$> rs))) (fun ids => f (shifted ids rs)) (fun i => i)) as (d & Ed & L & Hd); [done|done| |done|].
  - intros ids Hi. rewrite shifted_zip. apply Hf. by apply shifted_inside.
  - cbv beta in Ed. rewrite Ed. cbn [obind]. eexists. split; [reflexivity|]. split; [|done]. split; [done|]. done.
Qed.
Lemma cont_dice_none (c : cont V) rs junk : ~ proper_ranges rs (c_shape c) -> cont_dice junk c rs = Ok None.
Proof. intros Hn. unfold cont_dice. destruct (Nat.eqb_spec (length rs) (length (c_shape c))) as [Hl|Hl]; [cbn [negb]|done]. destruct (ranges_ok rs (c_shape c)) eqn:E; [|done]. by apply (ranges_ok_iff _ _ Hl) in E. Qed.

(** ** From a contiguous tensor *)
Lemma ones shape : Forall (fun d => 0 < d) shape -> zip_with ceil shape shape = replicate (length shape) 1.
Proof. induction 1 as [|d ds Hd _ IH]; [done|]. cbn. rewrite IH. f_equal. unfold ceil. rewrite Nat.mod_same by lia. cbn. apply Nat.div_same. lia. Qed.
Lemma strides_ones a n : strides_from a (replicate n 1) = replicate n a.
Proof. revert a. induction n as [|n IH]; intros a; [done|]. cbn. by rewrite Nat.mul_1_r, IH. Qed.
Lemma count_ones n : count (replicate n 1) = 1.
Proof. induction n as [|n IH]; [done|]. unfold count in *. cbn. rewrite IH. done. Qed.
Lemma of_cont_ok (c : cont V) : fresh c -> exists t, chunked_of_cont c = Ok t /\ good t /\ tracked t /\ complete t /\ t_shape t = c_shape c /\ forall ids, inside ids (c_shape c) -> cell t ids = c_data c !! number (c_shape c) ids.
Proof.
  intros (H1 & H2 & H3). unfold chunked_of_cont. rewrite (proj2 (has_zero_false _)) by done. rewrite grab_all by done. cbn [obind]. eexists. split; [reflexivity|]. set (t := mkT _ _ _ _ _ _ _ _ _).
  assert (good t) as Hg. { constructor; try done; cbn. - by rewrite ones. - by rewrite strides_ones. - by rewrite count_ones. - lia. }
  assert (tracked t) as Ht by done. split; [done|]. split; [done|]. split; [apply complete_flags; done|]. split; [done|]. intros ids Hi. unfold cell. rewrite lin_id_eq by done. pose proof (chunk_no_lt t _ Hg (chunk_of_inside t ids Hg Hi)) as Hlt. change (t_ccount t) with 1 in Hlt.
  cbn [t_data t_chunk t]. change (t_data t) with (c_data c). f_equal. assert (place (c_shape c) ids = ids) as E; [|change (t_chunk t) with (c_shape c); rewrite E; lia].
  clear -Hi. induction Hi as [|i d ids ds Hd _ IH]; [done|]. cbn. change (zip_with Nat.modulo ids ds) with (place ds ids). rewrite IH. by rewrite Nat.mod_small.
Qed.
End tensor.
