(** Proofs about tensors, fourth part: slicing to chunked tensors, and comparing. *)
From stdpp Require Import base numbers list list_numbers.
From Coq Require Import Lia.
From Verif Require Import CppBase TensorModel TensorSpec TensorProofs TensorOps TensorOps2.

Lemma aligned_mul cpd cstr chunk cids : length cstr = length cpd -> aligned cpd cstr chunk -> inside cids cpd -> zip_with Nat.mul cids cstr = zip_with Nat.mul cids chunk.
Proof.
  unfold aligned. revert cstr chunk cids. induction cpd as [|p cpd IH]; intros [|s cstr] [|c chunk] [|i cids] Hl Ha Hi; try done; try (by inversion Hi). cbn in Ha. { by inversion Ha. }
  apply Forall2_cons in Ha as [Ha0 Ha]. apply Forall2_cons in Hi as [Hi0 Hi]. cbn in Ha0. cbn. f_equal; [|apply IH; [cbn in Hl; lia|done..]]. destruct Ha0 as [->| ->]; [|done]. assert (i = 0) as -> by lia. done.
Qed.

Section tensor.
Context {V : Type}.
Implicit Types t u : ct V.

(** ** tryDice *)
Lemma dice_ok t rs chunk junk f : good t -> tracked t -> rank t <> 0 -> shows t f -> proper_ranges rs (t_shape t) -> length chunk = rank t -> Forall (fun d => 0 < d) chunk ->
  length junk = chunked_size (size_of <$> rs) chunk -> (forall ids, in_ranges ids rs -> present t (chunk_of t ids)) ->
  aligned (zip_with ceil (size_of <$> rs) chunk) (strides_from (count chunk) (zip_with ceil (size_of <$> rs) chunk)) chunk ->
  exists u, tryDice junk t rs chunk = Ok (Some u) /\ good u /\ tracked u /\ complete u /\ t_shape u = size_of <$> rs /\ t_chunk u = chunk /\ forall ids, inside ids (t_shape u) -> cell u ids = Some (f (shifted ids rs)).
Proof.
  intros Hg Ht Hr Hf Hp Hlc Hc Hj Hpr Hal. pose proof (Forall2_length _ _ _ Hp) as Hl. unfold tryDice. change (length (t_shape t)) with (rank t) in Hl. rewrite Hl, Hlc, Nat.eqb_refl. cbn [negb orb]. apply Nat.eqb_neq in Hr as Hr'. rewrite Hr'.
  rewrite (proj2 (ranges_ok_iff _ _ Hl) Hp). cbn [negb]. destruct (range_there t rs Hg Ht Hp) as (b & -> & Hb). rewrite (proj2 Hb Hpr). cbn [obind negb]. rewrite (extents_size _ _ Hp). pose proof (sizes_pos _ _ Hp) as Hs. set (shape := size_of <$> rs) in *.
  assert (length shape = rank t) as Hls by (unfold shape; by rewrite fmap_length).
  destruct (new_ok shape chunk true junk ltac:(lia) Hs Hc Hj) as (n & -> & N1 & N2 & N3 & N4 & N5 & N6). cbn [obind].
  assert (complete n) as Nc by (by apply complete_flags). destruct (good_cpd n N1) as [C1 C2]. assert (rank n = rank t) as Rn by (unfold rank at 1; congruence).
  set (Q := fun i j u => good u /\ tracked u /\ complete u /\ t_shape u = shape /\ t_chunk u = chunk /\ t_cpd u = t_cpd n /\ t_istr u = t_istr n /\ t_cstr u = t_cstr n /\
    forall ids, inside ids shape -> chunk_no n (chunk_of n ids) < i \/ chunk_no n (chunk_of n ids) = i /\ number chunk (place chunk ids) < j -> cell u ids = Some (f (shifted ids rs))).
  destruct (for_up_inv (fun i u => Q i 0 u) 0 (t_ccount n) (fun i u => let cids := ids_of (strides (t_cpd n)) i in for_up 0 (t_elems n) (fun j u => dice_elem t n rs cids j u) u) n) as (u & Eu & Hu).
  - lia.
  - unfold Q. do 8 (split; [done|]). intros ids _ [H|[_ H]]; lia.
  - intros i u Hi HQ. cbv zeta. set (cids := ids_of (strides (t_cpd n)) i). rewrite (g_ccount _ N1) in Hi. destruct (ids_of_spec _ i C1 ltac:(lia)) as [I1 I2]. fold cids in I1, I2.
    destruct (for_up_inv (fun j u => Q i j u) 0 (t_elems n) (fun j u => dice_elem t n rs cids j u) u) as (u' & Eu & Hu).
    + lia.
    + done.
    + intros j u1 Hj' (K1 & K2 & K3 & K4 & K5 & K6 & K7 & K8 & K9). unfold dice_elem. rewrite (g_istr _ N1), N4, N3. set (m := ids_of (strides chunk) j).
      rewrite (g_elems _ N1), N4 in Hj'. destruct (ids_of_spec _ j Hc ltac:(lia)) as [J1 J2]. fold m in J1, J2.
      assert (zip_with Nat.mul cids (t_cstr n) = zip_with Nat.mul cids chunk) as ->. { apply (aligned_mul (t_cpd n)); [rewrite (g_cstr _ N1); apply strides_length| |done]. rewrite (g_cstr _ N1), (g_cpd _ N1), N3, N4. exact Hal. }
      change (zip_with Nat.add m (zip_with Nat.mul cids chunk)) with (global chunk cids m).
      assert (length cids = length chunk) as Lc. { rewrite (inside_length _ _ I1), C2. lia. }
      destruct (global_chunk chunk cids m J1 Lc) as [G1 G2]. set (ids := global chunk cids m) in *.
      assert (length ids = length shape) as Li. { unfold ids, global. rewrite !zip_with_length. rewrite (inside_length _ _ J1), Lc. lia. }
      assert (forall ids', inside ids' shape -> chunk_no n (chunk_of n ids') = i -> number chunk (place chunk ids') = j -> ids' = ids) as Hsame.
      { intros ids' Hi' E1 E2. rewrite <- (global_split chunk ids'); [|rewrite (inside_length _ _ Hi'); lia|done]. unfold ids. f_equal.
        - assert (inside (chunk_of n ids') (t_cpd n)) as K by (apply chunk_of_inside; [done|by rewrite N3]). rewrite chunk_no_eq in E1 by done. unfold chunk_of in K, E1. rewrite N4 in K, E1. apply (number_inj (t_cpd n)); [done..|]. rewrite <- I2. done.
        - apply (number_inj chunk); [done|apply (place_inside shape); [lia|done|done]|done|congruence]. }
      destruct (all_below ids shape) eqn:Eb.
      * apply (all_below_iff _ _ Li) in Eb. rewrite shifted_zip. rewrite Hf by (by apply shifted_inside). cbn [obind]. assert (inside ids (t_shape u1)) as Hi1 by (by rewrite K4). assert (rank u1 <> 0) as Hr1 by (unfold rank in *; congruence).
        rewrite set_ok by done. eexists. split; [reflexivity|]. destruct (insert_next u1 ids (f (shifted ids rs)) K1 K2 Hi1 Hr1) as (M1 & M2 & M3 & M4 & _ & M6 & M7).
        unfold Q. split; [done|]. split; [done|]. split. { intros c Hci. specialize (K3 c Hci). unfold present in *. cbn [t_flags with_data]. change (chunk_no (with_data _ _ _) c) with (chunk_no u1 c). destruct (decide (chunk_no u1 (chunk_of u1 ids) = chunk_no u1 c)) as [->|Hne]; [|by rewrite list_lookup_insert_ne]. apply list_lookup_insert. rewrite K2. by apply chunk_no_lt. }
        split; [done|]. split; [done|]. split; [done|]. split; [done|]. split; [done|]. intros ids' Hi' Hor. rewrite M6 by (by rewrite K4). cbn [effect]. case_bool_decide as E; [by rewrite E|]. apply K9; [done|]. destruct Hor as [?|[E1 E2]]; [by left|]. right. split; [done|]. destruct (decide (number chunk (place chunk ids') = j)) as [E3|]; [|lia]. destruct E. symmetry. by apply Hsame.
      * eexists. split; [reflexivity|]. unfold Q. do 8 (split; [done|]). intros ids' Hi' Hor. apply K9; [done|]. destruct Hor as [?|[E1 E2]]; [by left|]. right. split; [done|]. destruct (decide (number chunk (place chunk ids') = j)) as [E|]; [|lia].
        apply (all_below_false _ _ Li) in Eb. exfalso. apply Eb. rewrite <- (Hsame ids'); done.
    + exists u'. split; [done|]. destruct Hu as (K1 & K2 & K3 & K4 & K5 & K6 & K7 & K8 & K9). unfold Q. do 8 (split; [done|]). intros ids Hi' [H|[_ H]]; [|lia]. apply K9; [done|]. destruct (decide (chunk_no n (chunk_of n ids) = i)) as [E|]; [|left; lia]. right. split; [done|]. rewrite <- N4. apply place_lt; [done|by rewrite N3].
  - cbv zeta in Eu. rewrite Eu. cbn [obind]. eexists. split; [reflexivity|]. destruct Hu as (K1 & K2 & K3 & K4 & K5 & K6 & K7 & K8 & K9). do 5 (split; [done|]). rewrite K4. intros ids Hi. apply K9; [done|]. left. apply chunk_no_lt; [done|]. apply chunk_of_inside; [done|by rewrite N3].
Qed.

(** ** tryDiceAtChunkLvl *)
Lemma flags_at_true t l : t_flags t = replicate (t_ccount t) true -> Forall (fun j => j < t_ccount t) l -> flags_at t l = Ok true.
Proof. intros E. induction 1 as [|j l Hj _ IH]; [done|]. cbn. rewrite (rd_Ok _ _ true) by (rewrite E; by apply lookup_replicate). done. Qed.
Lemma ceil_mul e c : 0 < c -> ceil (e * c) c = e.
Proof. intros. unfold ceil. rewrite Nat.mod_mul by lia. cbn. apply Nat.div_mul. lia. Qed.
Lemma grab_ok (d : list V) l n : l + n <= length d -> grab d l n = Ok (take n (drop l d)).
Proof. intros H. unfold grab. by rewrite (proj2 (Nat.leb_le _ _) H). Qed.
Lemma blit_ok (d : list V) l vs : l + length vs <= length d -> exists d', blit d l vs = Ok d'.
Proof. intros H. unfold blit. rewrite (proj2 (Nat.leb_le _ _) H). by eexists. Qed.
Lemma entry_le_count ds d : Forall (fun d => 0 < d) ds -> d ∈ ds -> d <= count ds.
Proof. induction 1 as [|x xs Hx H IH]; [intros Hd; by apply elem_of_nil in Hd|]. intros [->|Hd]%elem_of_cons; cbn; change (foldr Nat.mul 1 xs) with (count xs); [pose proof (count_pos xs H); nia|]. specialize (IH Hd). nia. Qed.

(** The elements of the new tensor are those of the chunks of the old one; its flags say that nothing is there. *)
Lemma dice_chunks_ok t rs junk : good t -> tracked t -> complete t -> rank t <> 0 -> proper_ranges rs (t_cpd t) -> length junk = count (size_of <$> rs) * t_elems t ->
  exists u, tryDiceChunks junk t rs = Ok (Some u, t) /\ good u /\ tracked u /\ t_chunk u = t_chunk t /\ t_shape u = zip_with (fun r c => size_of r * c) rs (t_chunk t) /\ t_flags u = replicate (t_ccount u) false /\
  forall ids, inside ids (t_shape u) -> inside (zip_with Nat.add ids (zip_with Nat.mul (fst <$> rs) (t_chunk t))) (t_shape t) -> cell u ids = cell t (zip_with Nat.add ids (zip_with Nat.mul (fst <$> rs) (t_chunk t))).
Proof.
  intros Hg Ht Hcp Hr Hp Hj. destruct (good_cpd t Hg) as [C1 C2]. pose proof (Forall2_length _ _ _ Hp) as Hl. rewrite C2 in Hl. unfold tryDiceChunks. rewrite Hl, Nat.eqb_refl. cbn [negb]. apply Nat.eqb_neq in Hr as Hr'. rewrite Hr'.
  rewrite (proj2 (ranges_ok_iff rs (t_cpd t) ltac:(lia)) Hp). cbn [negb]. pose proof (sizes_pos _ _ Hp) as Hs. rewrite (extents_size _ _ Hp).
  assert (forall m, inside m (size_of <$> rs) -> inside (zip_with Nat.add (fst <$> rs) m) (t_cpd t)) as Hin.
  { intros m Hm. pose proof (shifted_inside m rs (t_cpd t) Hp Hm) as K. replace (zip_with Nat.add (fst <$> rs) m) with (shifted m rs); [done|]. rewrite <- shifted_zip. clear. generalize (fst <$> rs). induction m as [|x m IH]; intros [|y l]; try done. cbn. rewrite IH. f_equal. lia. }
  assert (all_there t (chunk_list (fst <$> rs) (size_of <$> rs)) = Ok true) as ->.
  { destruct (all_there_ok t (chunk_list (fst <$> rs) (size_of <$> rs)) Hg Ht) as (b & Eb & Hb).
    - apply Forall_forall. intros c Hc. apply chunk_list_elem in Hc as (m & Hm & ->); [by apply Hin|by rewrite !fmap_length|done].
    - rewrite Eb. f_equal. apply Hb. apply Forall_forall. intros c Hc. apply chunk_list_elem in Hc as (m & Hm & ->); [|by rewrite !fmap_length|done]. apply Hcp. by apply Hin. }
  cbn [obind negb]. pose proof (proj1 (complete_flags t Hg Ht) Hcp) as Hfl. rewrite flags_at_true; [|done|].
  2: { apply Forall_forall. intros j Hjj. apply elem_of_list_bind in Hjj as (r & Hjr & Hrr). apply elem_of_seq in Hjr. apply elem_of_list_lookup in Hrr as [k Hk]. destruct (Forall2_lookup_l _ _ _ _ _ Hp Hk) as (d & Hd & Hrd). pose proof (entry_le_count (t_cpd t) d C1 ltac:(by apply elem_of_list_lookup; exists k)). rewrite (g_ccount _ Hg). unfold extent in Hjr. lia. }
  cbn [obind negb]. pose proof (g_len _ Hg) as Hlc. change (length (t_shape t)) with (rank t) in Hlc.
  assert (zip_with (fun r c => extent r * c) rs (t_chunk t) = zip_with (fun r c => size_of r * c) rs (t_chunk t)) as ->.
  { clear -Hp. generalize (t_chunk t). induction Hp as [|r d rs ds H _ IH]; intros [|c cs]; try done. cbn. by rewrite IH, (extent_size r d). }
  set (shape := zip_with (fun r c => size_of r * c) rs (t_chunk t)).
  assert (zip_with ceil shape (t_chunk t) = size_of <$> rs) as Hceil. { unfold shape. pose proof (g_chunk _ Hg) as Hc. clear -Hc Hl Hlc. assert (length (t_chunk t) = length rs) as K by lia. clear Hl Hlc. revert K. generalize dependent (t_chunk t). intros cs Hc. revert rs. induction Hc as [|c cs H _ IH]; intros [|r rs] K; try done. cbn. rewrite IH by (cbn in K; lia). by rewrite ceil_mul. }
  assert (Forall (fun d => 0 < d) shape) as Hsp. { unfold shape. pose proof (g_chunk _ Hg) as Hc. clear -Hc Hs. revert Hc. generalize (t_chunk t). intros cs Hc. revert rs Hs. induction Hc as [|c cs H _ IH]; intros [|r rs] Hs; cbn; try constructor. - apply Forall_cons in Hs as [? _]. nia. - apply IH. by apply Forall_cons in Hs as [_ ?]. }
  assert (length shape = rank t) as Lsh by (unfold shape; rewrite zip_with_length; lia).
  destruct (new_ok shape (t_chunk t) false junk ltac:(lia) Hsp (g_chunk _ Hg)) as (n & -> & N1 & N2 & N3 & N4 & N5 & N6). { unfold chunked_size. rewrite Hceil, Hj, (g_elems _ Hg). done. }
  cbn [obind]. assert (t_cpd n = size_of <$> rs) as Ncpd by (rewrite (g_cpd _ N1), N3, N4; done). assert (t_elems n = t_elems t) as Nel by (rewrite (g_elems _ N1), (g_elems _ Hg), N4; done).
  assert (forall m, inside m (size_of <$> rs) -> inside m (t_cpd t)) as Hin2. { intros m Hm. clear -Hm Hp. revert m Hm. induction Hp as [|r d rs ds H _ IH]; intros [|x m] Hm; try (by inversion Hm); try (by constructor). apply Forall2_cons in Hm as [Hx Hm]. unfold size_of in Hx. constructor; [lia|by apply IH]. }
  set (P := fun i (st : list V * list bool) => length (fst st) = length junk /\ snd st = t_flags t /\ forall cids k, inside cids (size_of <$> rs) -> number (size_of <$> rs) cids < i -> k < t_elems t ->
     fst st !! (t_elems t * number (size_of <$> rs) cids + k) = t_data t !! (t_elems t * chunk_no t (zip_with Nat.add cids (fst <$> rs)) + k)).
  assert (t_ccount n = count (size_of <$> rs)) as Ncc by (rewrite (g_ccount _ N1), Ncpd; done).
  match goal with |- context [for_up 0 (t_ccount n) ?F ?S] => destruct (for_up_inv P 0 (t_ccount n) F S) as ([d fl] & Ed & Hd1 & Hd2 & Hd3) end.
  - lia.
  - split; [done|]. split; [done|]. intros; lia.
  - intros i [d fl] Hi (L & Hfl2 & Hd). cbn [fst snd] in L, Hfl2, Hd. subst fl. rewrite Ncpd. destruct (ids_of_spec (size_of <$> rs) i Hs ltac:(lia)) as [I1 I2]. set (cids := ids_of (strides (size_of <$> rs)) i) in *.
    assert (inside (zip_with Nat.add cids (fst <$> rs)) (t_cpd t)) as Hci. { rewrite shifted_zip. by apply shifted_inside. } rewrite (chunk_pos_eq t) by done. pose proof (chunk_no_lt t _ Hg Hci) as Hlt.
    rewrite grab_ok by (rewrite (g_data _ Hg); nia). cbn [obind]. set (vs := take _ _). assert (length vs = t_elems t) as Lv by (unfold vs; rewrite take_length, drop_length, (g_data _ Hg); nia).
    rewrite (chunk_pos_eq n) by done. rewrite chunk_no_eq by (by rewrite Ncpd). rewrite Ncpd, <- I2, Nel.
    destruct (blit_ok d (t_elems t * i) vs) as (d' & Eb). { rewrite L, Hj, Lv. nia. } rewrite Eb. cbn [obind]. rewrite wr_Ok; [|rewrite Ht; apply chunk_no_lt; [done|by apply Hin2]]. cbn [obind]. eexists. split; [reflexivity|].
    split; [cbn; rewrite (proj1 (blit_lookup _ _ _ _ 0 Eb)); done|]. split. { cbn. rewrite list_insert_id; [done|]. rewrite Hfl. apply lookup_replicate. split; [done|]. apply chunk_no_lt; [done|by apply Hin2]. }
    intros c k Hc Hlt' Hk. cbn [fst]. rewrite (proj2 (blit_lookup _ _ _ _ _ Eb)). rewrite Lv. destruct (decide (number (size_of <$> rs) c = i)) as [E|E].
    + assert (c = cids) as -> by (apply (number_inj (size_of <$> rs)); [done..|congruence]). rewrite <- I2. rewrite decide_True by lia. unfold vs. rewrite lookup_take by lia. rewrite lookup_drop. f_equal. lia.
    + rewrite decide_False by nia. apply Hd; [done|lia|done].
  - rewrite Ed. cbn [obind]. cbn [fst snd] in Hd1, Hd2, Hd3. subst fl. assert (with_data t (t_flags t) (t_data t) = t) as -> by (by destruct t). eexists. split; [reflexivity|]. split; [apply good_with; [done|by rewrite N6]|]. do 4 (split; [done|]).
    intros ids Hi Hi2. set (ids2 := zip_with Nat.add ids (zip_with Nat.mul (fst <$> rs) (t_chunk t))) in *. change (t_shape (with_data n (t_flags n) d)) with (t_shape n) in Hi. assert (inside ids (t_shape n)) as Hi' by done. rewrite N3 in Hi.
    assert (place (t_chunk t) ids2 = place (t_chunk t) ids /\ chunk_index (t_chunk t) ids2 = zip_with Nat.add (chunk_index (t_chunk t) ids) (fst <$> rs)) as [P1 P2].
    { unfold ids2. assert (length ids = length (t_chunk t)) as L1 by (rewrite (inside_length _ _ Hi); lia). assert (length rs = length (t_chunk t)) as L2 by lia. pose proof (g_chunk _ Hg) as Hc. clear -L1 L2 Hc. revert ids rs L1 L2. induction Hc as [|c cs H _ IH]; intros [|i ids] [|r rs] L1 L2; try done. cbn in L1, L2. destruct (IH ids rs ltac:(lia) ltac:(lia)) as [A B]. unfold place, chunk_index in *. cbn. rewrite A, B. rewrite Nat.mod_add, Nat.div_add by lia. done. }
    unfold cell. change (lin_id (with_data n (t_flags n) d) ids) with (lin_id n ids). cbn [t_data with_data]. rewrite (lin_id_eq n), (lin_id_eq t) by done. rewrite N4. rewrite P1. unfold chunk_of. rewrite N4. change (zip_with Nat.div ids (t_chunk t)) with (chunk_index (t_chunk t) ids). change (zip_with Nat.div ids2 (t_chunk t)) with (chunk_index (t_chunk t) ids2). rewrite P2, Nel.
    assert (inside (chunk_index (t_chunk t) ids) (size_of <$> rs)) as Hci. { pose proof (chunk_of_inside n ids N1 Hi') as K. unfold chunk_of in K. rewrite N4, Ncpd in K. done. }
    rewrite (chunk_no_eq n) by (by rewrite Ncpd). rewrite Ncpd. rewrite (Nat.add_comm _ (t_elems t * _)), (Nat.add_comm _ (t_elems t * _)). apply Hd3; [done| |].
    + rewrite Ncc. by apply number_lt.
    + rewrite <- Nel, <- N4. by apply place_lt.
Qed.

(** ** Comparing *)
Lemma bool_loop n (g : nat -> outcome bool) (P : nat -> Prop) : (forall i, i < n -> exists b, g i = Ok b /\ (b = true <-> P i)) -> exists b, for_up 0 n (fun i b => if negb b then Ok false else g i) true = Ok b /\ (b = true <-> forall i, i < n -> P i).
Proof.
  intros H. destruct (for_up_inv (fun k b => b = true <-> forall i, i < k -> P i) 0 n (fun i b => if negb b then Ok false else g i) true) as (b & Eb & Hb); [lia| | |by exists b].
  - split; [intros _ i Hi; lia|done].
  - intros i b Hi Hb. destruct b; cbn [negb].
    + destruct (H i ltac:(lia)) as (b & -> & Hb'). exists b. split; [done|]. rewrite Hb'. split; [intros Hp j Hj; destruct (decide (j = i)) as [->|]; [done|apply Hb; [done|lia]]|]. intros Hp. apply Hp. lia.
    + exists false. split; [done|]. split; [done|]. intros Hp. apply Hb. intros j Hj. apply Hp. lia.
Qed.
Lemma flags_loop t : tracked t -> exists b, for_up 0 (t_ccount t) (fun i b => if negb b then Ok false else rd (t_flags t) i) true = Ok b /\ (b = true <-> t_flags t = replicate (t_ccount t) true).
Proof.
  intros Ht. destruct (bool_loop (t_ccount t) (rd (t_flags t)) (fun i => t_flags t !! i = Some true)) as (b & Eb & Hb).
  - intros i Hi. destruct (rd_lt (t_flags t) i) as (x & Hx & ->); [by rewrite Ht|]. exists x. split; [done|]. rewrite Hx. naive_solver.
  - exists b. split; [done|]. rewrite Hb. split.
    + intros H. apply list_eq. intros i. destruct (decide (i < t_ccount t)); [rewrite H by done; symmetry; by apply lookup_replicate|]. rewrite !lookup_ge_None_2; [done|rewrite replicate_length; lia|rewrite Ht; lia].
    + intros -> i Hi. by apply lookup_replicate.
Qed.
Lemma same_elems_ok (veq : V -> V -> bool) (c : cont V) t f g : (forall x y, veq x y = true <-> x = y) -> fresh c -> cont_shows c f -> good t -> tracked t -> rank t <> 0 -> shows t g ->
  exists b, same_elems veq c t = Ok b /\ (b = true <-> c_shape c = t_shape t /\ complete t /\ forall ids, inside ids (t_shape t) -> f ids = g ids).
Proof.
  intros Hv Hc Hf Hg Ht Hr Hs. unfold same_elems. case_bool_decide as E; cbn [negb]; [|exists false; split; [done|]; naive_solver]. destruct (flags_loop t Ht) as (b & -> & Hb). cbn [obind]. rewrite <- complete_flags in Hb by done. destruct b; cbn [negb].
  2: { exists false. split; [done|]. split; [done|]. intros (_ & H & _). by apply Hb. }
  apply Nat.eqb_neq in Hr as ->. destruct (bool_loop (count (t_shape t)) (fun i => let* x := cont_get c (ids_of (strides (t_shape t)) i) in let* y := get t (ids_of (strides (t_shape t)) i) in Ok (veq x y)) (fun i => f (ids_of (strides (t_shape t)) i) = g (ids_of (strides (t_shape t)) i))) as (b & Eb & Hb').
  - intros i Hi. destruct (ids_of_spec _ i (g_shape _ Hg) Hi) as [I1 I2]. rewrite (proj1 (Hf _ ltac:(by rewrite E))). cbn [obind]. rewrite (Hs _ I1). cbn [obind]. eexists. split; [reflexivity|]. apply Hv.
  - exists b. split; [exact Eb|]. rewrite Hb'. split.
    + intros H. split; [done|]. split; [by apply Hb|]. intros ids Hi. specialize (H (number (t_shape t) ids) ltac:(apply number_lt; [apply (g_shape _ Hg)|done])). rewrite ids_of_number in H by (try done; apply (g_shape _ Hg)). done.
    + intros (_ & _ & H) i Hi. apply H. by apply ids_of_spec; [apply (g_shape _ Hg)|].
Qed.
Lemma mem_eq_ok (veq : V -> V -> bool) : (forall x y, veq x y = true <-> x = y) -> forall n a b, length a = n -> length b = n -> exists r, mem_eq veq n a b = Ok r /\ (r = true <-> a = b).
Proof.
  intros Hv. induction n as [|n IH]; intros a b Ha Hb. { exists true. destruct a, b; try done. }
  destruct a as [|x a], b as [|y b]; try done. cbn. destruct (veq x y) eqn:E.
  - destruct (IH a b) as (r & -> & Hr); [cbn in *; lia..|]. exists r. split; [done|]. rewrite Hr. apply Hv in E as ->. naive_solver.
  - exists false. split; [done|]. split; [done|]. intros [= -> ->]. rewrite (proj2 (Hv y y)) in E; done.
Qed.
Lemma good_same t u : good t -> good u -> t_shape t = t_shape u -> t_chunk t = t_chunk u -> t_cpd t = t_cpd u /\ t_elems t = t_elems u /\ t_cstr t = t_cstr u /\ t_ccount t = t_ccount u.
Proof. intros Ht Hu E1 E2. rewrite (g_cpd _ Ht), (g_cpd _ Hu), (g_elems _ Ht), (g_elems _ Hu), (g_cstr _ Ht), (g_cstr _ Hu), (g_ccount _ Ht), (g_ccount _ Hu), (g_cpd _ Ht), (g_cpd _ Hu). rewrite E1, E2. done. Qed.
(** operator== answers if the stored elements, also those outside of the shape, are the same. *)
Lemma chunked_eq_ok (veq : V -> V -> bool) t u : (forall x y, veq x y = true <-> x = y) -> good t -> tracked t -> good u -> tracked u -> rank t <> 0 ->
  exists b, chunked_eq veq t u = Ok b /\ (b = true <-> t_shape t = t_shape u /\ t_chunk t = t_chunk u /\ complete t /\ complete u /\ t_data t = t_data u).
Proof.
  intros Hv Hg Ht Hg' Ht' Hr. unfold chunked_eq. case_bool_decide as E1; [|exists false; split; [done|]; naive_solver]. case_bool_decide as E2; [|exists false; split; [done|]; naive_solver]. cbn [andb negb].
  destruct (good_same t u Hg Hg' E1 E2) as (S1 & S2 & S3 & S4).
  destruct (bool_loop (t_ccount t) (fun i => let* x := rd (t_flags t) i in let* y := rd (t_flags u) i in Ok (Bool.eqb x y)) (fun i => t_flags t !! i = t_flags u !! i)) as (b & Eb & Hb).
  { intros i Hi. destruct (rd_lt (t_flags t) i) as (x & Hx & ->); [by rewrite Ht|]. destruct (rd_lt (t_flags u) i) as (y & Hy & ->); [rewrite Ht'; lia|]. cbn [obind]. eexists. split; [reflexivity|]. rewrite Hx, Hy. destruct x, y; cbn; naive_solver. }
  rewrite Eb. cbn [obind]. destruct b; cbn [negb].
  2: { exists false. split; [done|]. split; [done|]. intros (_ & _ & H1 & H2 & _). apply Hb. intros i Hi. apply complete_flags in H1, H2; try done. by rewrite H1, H2, S4. }
  match goal with |- context [for_up 0 (t_ccount t) ?F true] => destruct (bool_loop (t_ccount t) (fun i => let* x := rd (t_flags t) i in if negb x then Ok false else let* cids := chunk_ids t i in let* vs := grab (t_data t) (chunk_pos t cids) (t_elems t) in let* ws := grab (t_data u) (chunk_pos u cids) (t_elems t) in mem_eq veq (t_elems t) vs ws)
     (fun i => t_flags t !! i = Some true /\ take (t_elems t) (drop (t_elems t * i) (t_data t)) = take (t_elems t) (drop (t_elems t * i) (t_data u)))) as (b & Eb' & Hb') end.
  { intros i Hi. destruct (rd_lt (t_flags t) i) as (x & Hx & ->); [by rewrite Ht|]. cbn [obind]. destruct x; cbn [negb]; [|exists false; split; [done|]; rewrite Hx; naive_solver]. unfold chunk_ids. apply Nat.eqb_neq in Hr as ->. cbn [obind]. destruct (good_cpd t Hg) as [C1 C2]. pose proof Hi as Hi0. rewrite (g_ccount _ Hg) in Hi. destruct (ids_of_spec _ i C1 Hi) as [I1 I2].
    rewrite (chunk_pos_eq t), (chunk_pos_eq u) by done. rewrite (chunk_no_eq t), (chunk_no_eq u) by (try done; by rewrite <- S1). rewrite <- S1, <- S2, <- I2. assert (t_elems t * i + t_elems t <= t_ccount t * t_elems t) as K by nia. rewrite grab_ok by (by rewrite (g_data _ Hg)). cbn [obind]. rewrite grab_ok by (by rewrite (g_data _ Hg'), <- S4, <- S2). cbn [obind].
    destruct (mem_eq_ok veq Hv (t_elems t) (take (t_elems t) (drop (t_elems t * i) (t_data t))) (take (t_elems t) (drop (t_elems t * i) (t_data u)))) as (r & -> & Hr').
    - rewrite take_length, drop_length, (g_data _ Hg). lia.
    - rewrite take_length, drop_length, (g_data _ Hg'), <- S4, <- S2. lia.
    - exists r. split; [done|]. rewrite Hr', Hx. naive_solver. }
  exists b. split; [exact Eb'|]. rewrite Hb'. split.
  - intros H. assert (t_flags t = replicate (t_ccount t) true) as F1. { apply list_eq. intros i. destruct (decide (i < t_ccount t)) as [Hi|Hi]; [rewrite (proj1 (H i Hi)); symmetry; by apply lookup_replicate|]. rewrite !lookup_ge_None_2; [done|rewrite replicate_length; lia|rewrite Ht; lia]. }
    split; [done|]. split; [done|]. split; [by apply complete_flags|]. split.
    + apply complete_flags; [done..|]. rewrite <- S4, <- F1. apply list_eq. intros i. destruct (decide (i < t_ccount t)) as [Hi|Hi]; [symmetry; by apply (proj1 Hb)|]. rewrite !lookup_ge_None_2; [done|rewrite Ht; lia|rewrite Ht'; lia].
    + apply list_eq. intros k. destruct (decide (k < t_ccount t * t_elems t)) as [Hk|Hk]; [|rewrite !lookup_ge_None_2; [done|rewrite (g_data _ Hg'), <- S4, <- S2; lia|rewrite (g_data _ Hg); lia]].
      assert (0 < t_elems t) as He by nia. pose proof (Nat.div_mod k (t_elems t) ltac:(lia)) as Dm. pose proof (Nat.mod_upper_bound k (t_elems t) ltac:(lia)) as Db. assert (k / t_elems t < t_ccount t) as Hq by (apply Nat.div_lt_upper_bound; nia).
      destruct (H _ Hq) as [_ K]. apply (f_equal (fun l : list V => l !! (k mod t_elems t))) in K. rewrite !lookup_take, !lookup_drop in K by done. by rewrite <- Dm in K.
  - intros (_ & _ & H1 & _ & H2) i Hi. split; [|by rewrite H2]. apply complete_flags in H1; try done. rewrite H1. by apply lookup_replicate.
Qed.
(** Without chunks that reach over the border, every stored element belongs to an index. *)
Lemma divides_ceil shape chunk cids m : Forall2 (fun d c => d mod c = 0) shape chunk -> Forall (fun d => 0 < d) chunk -> inside cids (zip_with ceil shape chunk) -> inside m chunk -> inside (global chunk cids m) shape.
Proof.
  intros H. revert cids m. induction H as [|d c ds cs Hd _ IH]; intros cids m Hc Hi Hm. { inversion Hi; subst. by inversion Hm; subst. }
  apply Forall_cons in Hc as [Hc0 Hc]. destruct cids as [|x cids]; [by inversion Hi|]. destruct m as [|y m]; [by inversion Hm|]. cbn in Hi. apply Forall2_cons in Hi as [Hi0 Hi]. apply Forall2_cons in Hm as [Hm0 Hm]. constructor; [|by apply IH].
  unfold ceil in Hi0. rewrite Hd in Hi0. cbn in Hi0. pose proof (Nat.div_mod d c ltac:(lia)). nia.
Qed.
Lemma every_cell t k : good t -> Forall2 (fun d c => d mod c = 0) (t_shape t) (t_chunk t) -> k < length (t_data t) -> exists ids, inside ids (t_shape t) /\ lin_id t ids = k.
Proof.
  intros Hg Hd Hk. rewrite (g_data _ Hg) in Hk. assert (0 < t_elems t) as He by nia. pose proof (Nat.div_mod k (t_elems t) ltac:(lia)) as Dm. pose proof (Nat.mod_upper_bound k (t_elems t) ltac:(lia)) as Db. assert (k / t_elems t < t_ccount t) as Hq by (apply Nat.div_lt_upper_bound; nia).
  destruct (good_cpd t Hg) as [C1 C2]. rewrite (g_ccount _ Hg) in Hq. destruct (ids_of_spec _ _ C1 Hq) as [I1 I2]. rewrite (g_elems _ Hg) in Db at 2. destruct (ids_of_spec _ _ (g_chunk _ Hg) Db) as [J1 J2]. set (cids := ids_of (strides (t_cpd t)) (k / t_elems t)) in *. set (m := ids_of (strides (t_chunk t)) (k mod t_elems t)) in *.
  assert (length cids = length (t_chunk t)) as Lc. { rewrite (inside_length _ _ I1), C2. symmetry. apply (g_len _ Hg). } destruct (global_chunk (t_chunk t) cids m J1 Lc) as [G1 G2].
  assert (inside (global (t_chunk t) cids m) (t_shape t)) as Hi by (apply divides_ceil; [done|apply (g_chunk _ Hg)|by rewrite <- (g_cpd _ Hg)|done]). exists (global (t_chunk t) cids m). split; [done|]. rewrite lin_id_eq by done. rewrite G2, <- J2. change (chunk_of t (global (t_chunk t) cids m)) with (chunk_index (t_chunk t) (global (t_chunk t) cids m)). rewrite G1. rewrite chunk_no_eq by done. rewrite <- I2. lia.
Qed.
Lemma data_eq t u f g : good t -> good u -> t_shape t = t_shape u -> t_chunk t = t_chunk u -> shows t f -> shows u g -> Forall2 (fun d c => d mod c = 0) (t_shape t) (t_chunk t) -> t_data t = t_data u <-> forall ids, inside ids (t_shape t) -> f ids = g ids.
Proof.
  intros Hg Hg' E1 E2 Hf Hh Hd. destruct (good_same t u Hg Hg' E1 E2) as (S1 & S2 & S3 & S4). pose proof (proj1 (shows_cell t f Hg) Hf) as Hf2. pose proof (proj1 (shows_cell u g Hg') Hh) as Hh2. clear Hf Hh. rename Hf2 into Hf, Hh2 into Hh. unfold cell in *.
  assert (forall ids, lin_id t ids = lin_id u ids) as HL by (intros ids; unfold lin_id; by rewrite E2, S3, (g_istr _ Hg), (g_istr _ Hg'), E2). split.
  - intros E ids Hi. pose proof (Hf ids Hi) as A. rewrite E, HL, Hh in A by (by rewrite <- E1). by injection A.
  - intros H. apply list_eq. intros k. assert (length (t_data t) = length (t_data u)) as Ln by (rewrite (g_data _ Hg), (g_data _ Hg'); congruence). destruct (decide (k < length (t_data t))) as [Hk|Hk]; [|rewrite !lookup_ge_None_2; [done|lia|lia]].
    destruct (every_cell t k Hg Hd Hk) as (ids & Hi & <-). rewrite (Hf ids Hi), HL, (Hh ids) by (by rewrite <- E1). by rewrite H.
Qed.
End tensor.
