(** Lemmas about casts, rounding and the elementwise kernels. *)
From stdpp Require Import base numbers sorting list sets.
From Coq Require Import Lia.
From Verif Require Import CppBase PromoteModel PromoteSpec.
Open Scope Z_scope.

Lemma one_pos : 0 < one.
Proof. unfold one. apply Z.pow_pos_nonneg; lia. Qed.
Lemma one_eq : 2 ^ 1074 = one.
Proof. reflexivity. Qed.
Global Opaque one.

(** ** The ranking *)
Lemma ranking_spec i t : ranking !! i = Some t <-> Z.of_nat i = generality t.
Proof.
  unfold ranking.
  do 12 (destruct i as [|i]; [cbn [lookup list_lookup]; split; [intros [= <-]; reflexivity|destruct t; cbn; intros; lia || reflexivity]|]).
  split; [done|]. destruct t; cbn [generality]; lia.
Qed.
Lemma below_gen s t : below s t <-> generality s <= generality t.
Proof.
  unfold below. split.
  - intros (i & j & Hi & Hj & ?). apply ranking_spec in Hi, Hj. lia.
  - intros H. exists (Z.to_nat (generality s)), (Z.to_nat (generality t)).
    assert (0 <= generality s) by (destruct s; cbn; lia).
    rewrite !ranking_spec. repeat split; lia.
Qed.
Lemma gen_inj s t : generality s = generality t -> s = t.
Proof. destruct s, t; cbn; intros; done || lia. Qed.
Lemma highest_unique l r r' : highest l r -> highest l r' -> r = r'.
Proof.
  intros [H1 H2] [H3 H4]. apply gen_inj.
  pose proof (proj1 (below_gen _ _) (H2 _ H3)). pose proof (proj1 (below_gen _ _) (H4 _ H1)). lia.
Qed.
Lemma more_general_highest s t : highest [s; t] (more_general s t).
Proof.
  unfold more_general, highest. split; [case_decide; rewrite !elem_of_cons; tauto|].
  intros u Hu. apply below_gen. rewrite !elem_of_cons, elem_of_nil in Hu.
  case_decide; destruct Hu as [->|[->|[]]]; lia.
Qed.
Lemma foldl_highest ts t : highest (t :: ts) (foldl more_general t ts).
Proof.
  revert t. induction ts as [|u ts IH]; intros t; cbn [foldl].
  - split; [apply elem_of_cons; by left|]. intros ? [->|[]%elem_of_nil]%elem_of_cons. apply below_gen. lia.
  - destruct (IH (more_general t u)) as [H1 H2]. destruct (more_general_highest t u) as [H3 H4].
    assert (Hin : more_general t u = t \/ more_general t u = u).
    { rewrite !elem_of_cons, elem_of_nil in H3. tauto. }
    split.
    + rewrite elem_of_cons in H1. rewrite !elem_of_cons. destruct H1 as [H1|H1]; [rewrite H1; tauto|tauto].
    + intros w Hw. rewrite !elem_of_cons in Hw.
      assert (w ∈ [t; u] \/ w ∈ ts) as [Hw'|Hw'] by (rewrite !elem_of_cons, elem_of_nil; tauto).
      * apply H4 in Hw'. pose proof (H2 (more_general t u) ltac:(apply elem_of_cons; by left)) as H5.
        apply below_gen in Hw', H5. apply below_gen. lia.
      * apply H2. apply elem_of_cons. by right.
Qed.
Lemma most_general_highest ts r : most_general ts = Ok r -> highest ts r.
Proof. destruct ts; [done|]. intros [= <-]. apply foldl_highest. Qed.
Lemma most_general_total ts : ts <> [] -> exists r, most_general ts = Ok r.
Proof. destruct ts; [done|]. eauto. Qed.

(** ** Inference on columns *)
Lemma merge_step n vts res : length vts = n -> length res = n -> merge n vts res = Ok (zip_with more_general res vts).
Proof.
  intros Hv Hr. unfold merge, for_up. rewrite Nat.sub_0_r.
  assert (Hgo : forall m lo pre res vpre vts, length pre = lo -> length vpre = lo -> length res = m -> length vts = m ->
    forn m lo (fun k res => let* a := rd (vpre ++ vts) k in let* r := rd res k in
      if decide (generality a > generality r) then wr res k a else Ok res) (pre ++ res) = Ok (pre ++ zip_with more_general res vts)).
  { clear. induction m as [|m IH]; intros lo pre res vpre vts H1 H2 H3 H4.
    - destruct res; [|done]. done.
    - destruct res as [|r res]; [done|]. destruct vts as [|a vts]; [done|].
      cbn [forn]. rewrite (rd_Ok _ lo a) by (rewrite lookup_app_r by lia; rewrite H2, Nat.sub_diag; done).
      cbn [obind]. rewrite (rd_Ok _ lo r) by (rewrite lookup_app_r by lia; rewrite H1, Nat.sub_diag; done). cbn [obind].
      assert (Hst : (if decide (generality a > generality r) then wr (pre ++ r :: res) lo a else Ok (pre ++ r :: res)) = Ok ((pre ++ [more_general r a]) ++ res)).
      { unfold more_general. rewrite <- app_assoc. cbn [app]. case_decide; [|done].
        unfold wr. rewrite decide_True by (rewrite app_length; cbn [length]; lia).
        rewrite insert_app_r_alt by lia. rewrite H1, Nat.sub_diag. done. }
      rewrite Hst. cbn [obind]. replace (vpre ++ a :: vts) with ((vpre ++ [a]) ++ vts) by (by rewrite <- app_assoc).
      rewrite (IH (S lo) (pre ++ [more_general r a]) res (vpre ++ [a]) vts).
      + by rewrite <- app_assoc.
      + rewrite app_length. cbn [length]. lia.
      + rewrite app_length. cbn [length]. lia.
      + cbn [length] in H3. lia.
      + cbn [length] in H4. lia. }
  apply (Hgo n 0%nat [] res [] vts); done.
Qed.
Lemma merge_all_cols n args res : length res = n -> Forall (fun v => length v = n) args ->
  exists out, merge_all n args res = Ok out /\ length out = n /\
    forall k t, out !! k = Some t -> exists r ts, res !! k = Some r /\ Forall2 (fun v t => v !! k = Some t) args ts /\ t = foldl more_general r ts.
Proof.
  revert res. induction args as [|v args IH]; intros res Hr Hf.
  - exists res. repeat split; [done|]. intros k t Ht. exists t, []. repeat split; [done|constructor].
  - apply Forall_cons in Hf as [Hv Hf]. cbn [merge_all]. rewrite merge_step by done. cbn [obind].
    destruct (IH (zip_with more_general res v)) as (out & H1 & H2 & H3); [rewrite zip_with_length; lia|done|].
    exists out. split; [done|]. split; [done|]. intros k t Ht. destruct (H3 k t Ht) as (r & ts & Hr' & Hts & Heq).
    apply lookup_zip_with_Some in Hr' as (r0 & t0 & -> & Hr0 & Ht0).
    exists r0, (t0 :: ts). repeat split; [done|by constructor|done].
Qed.

Lemma result_vt_eq o s t : result_vt o s t = Ok (adjust (vtrait_of o) (more_general s t)).
Proof.
  unfold result_vt, infer_vts, infer_from_args. cbn [frame_cols decide decide_rel].
  rewrite !decide_False by done. cbn [obind map snd default from_option merge_all].
  rewrite merge_step by done. done.
Qed.
Lemma cast_target_eq o s t : cast_target o s t = Ok (match vtrait_of o with Cmp => more_general s t | tr => adjust tr (more_general s t) end).
Proof. unfold cast_target. destruct (vtrait_of o) eqn:E; [| |done]; rewrite result_vt_eq, E; done. Qed.

(** ** Values *)
Lemma range_spec t : range t = if integral t then Some (lo t, hi t) else None.
Proof. destruct t; reflexivity. Qed.
Lemma holds_int t x : integral t = true -> holds t x <-> exists z, x = z * one /\ lo t <= z <= hi t.
Proof.
  intros Ht. assert (H : holds t x <-> exists a b z, range t = Some (a, b) /\ x = z * one /\ a <= z <= b) by (destruct t; done).
  rewrite H, range_spec, Ht. split; [intros (a & b & z & [= <- <-] & ? & ?); eauto|intros (z & ? & ?); eauto 10].
Qed.
Lemma holds_float t x : t = F32 \/ t = F64 -> holds t x <-> has_bits (prec t) (kmin t) x.
Proof. intros [-> | ->]; done. Qed.
Lemma is_int_spec t : is_int t <-> integral t = true.
Proof. unfold is_int. rewrite range_spec. destruct (integral t); split; try done; try (intros (? & ? & ?); done). eauto. Qed.
Lemma numeric_cases t : numeric t -> integral t = true \/ (integral t = false /\ (t = F32 \/ t = F64)).
Proof. intros [? ?]. destruct t; auto; done. Qed.

Lemma to_int_id t z : integral t = true -> lo t <= z <= hi t -> to_int t z = z.
Proof.
  intros Ht Hz. unfold to_int. case_decide.
  - subst. change (lo B1) with 0 in Hz. change (hi B1) with 1 in Hz. case_decide; lia.
  - rewrite Z.mod_small; [lia|]. split; [lia|]. assert (hi t - lo t < 2 ^ bits t) by (destruct t; done). lia.
Qed.
Lemma div_one z : z * one / one = z.
Proof. apply Z.div_mul. pose proof one_pos. lia. Qed.
Lemma quot_one z : Z.quot (z * one) one = z.
Proof. apply Z.quot_mul. pose proof one_pos. lia. Qed.

Lemma rne_exact m d : 0 < d -> rne (m * d) d = m.
Proof.
  intros. unfold rne. rewrite Z.div_mul, Z.mod_mul by lia. rewrite decide_True by lia. done.
Qed.
Lemma rnd_exact p k0 x d : 0 < p -> 0 <= k0 -> 0 < d -> has_bits p k0 x -> rnd p k0 (x * d) d = x.
Proof.
  intros Hp Hk0 Hd (m & k & Hm & Hk & ->). unfold rnd.
  rewrite Z.abs_mul, (Z.abs_eq d), Z.div_mul by lia.
  set (x := m * 2 ^ k). set (K := Z.max k0 (Z.log2 (Z.abs x) + 1 - p)).
  assert (HK : K <= k \/ x = 0).
  { destruct (decide (m = 0)) as [->|Hm0]; [right; unfold x; lia|left].
    unfold K. apply Z.max_lub; [lia|].
    assert (Z.log2 (Z.abs x) < p + k); [|lia].
    apply Z.log2_lt_pow2.
    - unfold x. rewrite Z.abs_mul, (Z.abs_eq (2 ^ k)) by (apply Z.pow_nonneg; lia). pose proof (Z.pow_pos_nonneg 2 k ltac:(lia) ltac:(lia)). nia.
    - unfold x. rewrite Z.abs_mul, (Z.abs_eq (2 ^ k)) by (apply Z.pow_nonneg; lia). rewrite Z.pow_add_r by lia.
      pose proof (Z.pow_pos_nonneg 2 k ltac:(lia) ltac:(lia)). nia. }
  assert (HKpos : 0 <= K) by (unfold K; lia).
  pose proof (Z.pow_pos_nonneg 2 K ltac:(lia) HKpos) as HP.
  destruct HK as [HK|HK]; [|rewrite HK; cbn [Z.sgn Z.mul]; done].
  assert (Hx : Z.abs x = Z.abs m * 2 ^ (k - K) * 2 ^ K).
  { unfold x. rewrite Z.abs_mul, (Z.abs_eq (2 ^ k)) by (apply Z.pow_nonneg; lia). rewrite <- Z.mul_assoc, <- Z.pow_add_r by lia. do 2 f_equal. lia. }
  rewrite Hx. replace (Z.abs m * 2 ^ (k - K) * 2 ^ K * d) with (Z.abs m * 2 ^ (k - K) * (d * 2 ^ K)) by ring.
  rewrite rne_exact by nia. rewrite <- Z.mul_assoc, <- Hx.
  rewrite Z.sgn_mul, (Z.sgn_pos d), Z.mul_1_r by lia. apply Z.sgn_abs || (rewrite Z.mul_comm; apply Z.abs_sgn).
Qed.
Lemma rnd_float t x d : t = F32 \/ t = F64 -> 0 < d -> holds t x -> rnd (prec t) (kmin t) (x * d) d = x.
Proof. intros Ht Hd Hx. apply holds_float in Hx; [|done]. apply rnd_exact; [| |done|done]; destruct Ht; subst; cbn; lia. Qed.
Lemma rnd_float1 t x : t = F32 \/ t = F64 -> holds t x -> rnd (prec t) (kmin t) x 1 = x.
Proof. intros Ht Hx. rewrite <- (Z.mul_1_r x) at 1. apply rnd_float; done || lia. Qed.

Lemma cast_exact s t x : numeric t -> holds t x -> cast s t x = Ok x.
Proof.
  intros Ht Htx. unfold cast. destruct (numeric_cases t Ht) as [Et|[Et Eft]]; rewrite Et.
  - apply holds_int in Htx as (z & -> & Hz); [|done]. destruct (integral s).
    + rewrite div_one, to_int_id by done. done.
    + rewrite quot_one. case_decide as E; [|rewrite decide_True by done; done].
      subst t. change (lo B1) with 0 in Hz. change (hi B1) with 1 in Hz. pose proof one_pos.
      assert (z = 0 \/ z = 1) as [-> | ->] by lia; case_decide; f_equal; lia.
  - rewrite decide_True by done. f_equal. by apply rnd_float1.
Qed.
Lemma cast_arg_exact s t x : numeric t -> holds t x -> cast_arg s t x = Ok x.
Proof. intros. unfold cast_arg. case_decide; [done|]. by apply cast_exact. Qed.

(** ** Results stay numbers of their type *)
Lemma to_int_range t z : integral t = true -> lo t <= to_int t z <= hi t.
Proof.
  intros Ht. unfold to_int. case_decide.
  - subst. change (lo B1) with 0. change (hi B1) with 1. case_decide; lia.
  - pose proof (Z.mod_pos_bound (z - lo t) (2 ^ bits t)). assert (0 < 2 ^ bits t) by (destruct t; done).
    assert (hi t - lo t = 2 ^ bits t - 1) by (destruct t; done). lia.
Qed.
Lemma rne_bounds n d : 0 < d -> n / d <= rne n d <= n / d + 1.
Proof. intros. unfold rne. repeat case_decide; [lia|lia|]. destruct (Z.even _); lia. Qed.
Lemma rnd_has_bits p k0 n d : 0 < p -> 0 <= k0 -> 0 < d -> has_bits p k0 (rnd p k0 n d).
Proof.
  intros Hp Hk0 Hd. unfold rnd. set (a := Z.abs n). set (k := Z.max k0 (Z.log2 (a / d) + 1 - p)).
  assert (Hk : k0 <= k /\ 0 <= k) by (unfold k; lia).
  pose proof (Z.pow_pos_nonneg 2 k ltac:(lia) ltac:(lia)) as HP.
  assert (Hq : a / (d * 2 ^ k) < 2 ^ p).
  { apply Z.div_lt_upper_bound; [nia|].
    assert (a / d < 2 ^ k * 2 ^ p).
    { rewrite <- Z.pow_add_r by lia.
      destruct (decide (a / d <= 0)) as [?|?]; [pose proof (Z.pow_pos_nonneg 2 (k + p)); lia|].
      apply Z.log2_lt_pow2; [lia|]. unfold k. lia. }
    pose proof (Z.div_mod a d ltac:(lia)). pose proof (Z.mod_pos_bound a d Hd). nia. }
  pose proof (rne_bounds a (d * 2 ^ k) ltac:(nia)) as Hb.
  assert (Hq0 : 0 <= a / (d * 2 ^ k)) by (apply Z.div_pos; unfold a; nia).
  assert (Hsg : Z.abs (Z.sgn n) <= 1) by (destruct n; cbn; lia).
  destruct (decide (rne a (d * 2 ^ k) = 2 ^ p)) as [E|E].
  - (* rounding up to the next power of two *)
    rewrite E. exists (Z.sgn n), (p + k). rewrite Z.pow_add_r by lia.
    split; [|split; [lia|lia]].
    assert (2 ^ 1 <= 2 ^ p) by (apply Z.pow_le_mono_r; lia). lia.
  - exists (Z.sgn n * rne a (d * 2 ^ k)), k. split; [|split; [lia|lia]].
    rewrite Z.abs_mul. rewrite (Z.abs_eq (rne _ _)) by lia. nia.
Qed.

(** Rounding is to a nearest number. *)
Lemma rne_nearest a d m : 0 < d -> Z.abs (rne a d * d - a) <= Z.abs (m * d - a).
Proof.
  intros Hd. pose proof (Z.div_mod a d ltac:(lia)) as Hdm. pose proof (Z.mod_pos_bound a d Hd) as Hr. unfold rne.
  set (q := a / d) in *. set (r := a mod d) in *. rewrite Hdm.
  assert (Hm : m <= q \/ q + 1 <= m) by lia.
  assert (Hlow : m <= q -> r <= Z.abs (m * d - (d * q + r))) by (intros; nia).
  assert (Hhigh : q + 1 <= m -> d - r <= Z.abs (m * d - (d * q + r))) by (intros; nia).
  assert (H1 : Z.abs (q * d - (d * q + r)) = r) by (replace (q * d - (d * q + r)) with (- r) by ring; lia).
  assert (H2 : Z.abs ((q + 1) * d - (d * q + r)) = d - r) by (replace ((q + 1) * d - (d * q + r)) with (d - r) by ring; lia).
  repeat case_decide; [rewrite H1|rewrite H2|destruct (Z.even q); [rewrite H1|rewrite H2]]; destruct Hm as [Hm|Hm]; (specialize (Hlow Hm) || specialize (Hhigh Hm)); lia.
Qed.
Lemma rnd_nearest p k0 n d y : 0 < p -> 0 <= k0 -> 0 < d -> has_bits p k0 y -> Z.abs (rnd p k0 n d * d - n) <= Z.abs (y * d - n).
Proof.
  intros Hp Hk0 Hd (m & k & Hm & Hk & ->). unfold rnd. set (a := Z.abs n). set (K := Z.max k0 (Z.log2 (a / d) + 1 - p)).
  assert (HK : 0 <= K) by (unfold K; lia). pose proof (Z.pow_pos_nonneg 2 K ltac:(lia) HK) as HP.
  destruct (decide (n = 0)) as [Hn|Hn]; [subst n; cbn [Z.sgn]; lia|].
  assert (Hsn : n = Z.sgn n * a) by (unfold a; destruct n; cbn; lia).
  assert (Hss : Z.sgn n * Z.sgn n = 1) by (destruct n; cbn; lia).
  assert (HL : Z.sgn n * rne a (d * 2 ^ K) * 2 ^ K * d - n = Z.sgn n * (rne a (d * 2 ^ K) * (d * 2 ^ K) - a)) by (assert (Hg : forall s b N r P, N = s * b -> s * r * P * d - N = s * (r * (d * P) - b)) by (intros; subst; ring); by apply Hg).
  assert (HR : m * 2 ^ k * d - n = Z.sgn n * (Z.sgn n * m * 2 ^ k * d - a)).
  { replace (Z.sgn n * (Z.sgn n * m * 2 ^ k * d - a)) with (Z.sgn n * Z.sgn n * (m * 2 ^ k * d) - Z.sgn n * a) by ring. rewrite Hss, <- Hsn. lia. }
  rewrite HL, HR, !Z.abs_mul. apply Z.mul_le_mono_nonneg_l; [lia|].
  set (m' := Z.sgn n * m). assert (Hm' : Z.abs m' < 2 ^ p) by (unfold m'; destruct n; cbn; lia).
  destruct (decide (K <= k)) as [Hle|Hlt].
  - replace (m' * 2 ^ k * d) with ((m' * 2 ^ (k - K)) * (d * 2 ^ K)).
    + apply rne_nearest. nia.
    + replace k with ((k - K) + K) at 2 by lia. rewrite Z.pow_add_r by lia. ring.
  - assert (HKe : K = Z.log2 (a / d) + 1 - p) by lia.
    assert (Ha : 2 ^ (K + p - 1) <= a / d).
    { assert (0 < a / d). { destruct (decide (0 < a / d)); [done|]. rewrite (Z.log2_nonpos (a / d)) in HKe by lia. lia. }
      replace (K + p - 1) with (Z.log2 (a / d)) by lia. apply Z.log2_spec. done. }
    assert (Ha2 : 2 ^ (p - 1) * (d * 2 ^ K) <= a).
    { replace (K + p - 1) with ((p - 1) + K) in Ha by lia. rewrite Z.pow_add_r in Ha by lia.
      pose proof (Z.mul_div_le a d Hd). pose proof (Z.pow_pos_nonneg 2 (p - 1) ltac:(lia) ltac:(lia)). nia. }
    assert (Hy : m' * 2 ^ k <= 2 ^ (p - 1) * 2 ^ K).
    { pose proof (Z.pow_pos_nonneg 2 k ltac:(lia) ltac:(lia)).
      assert (2 ^ p * 2 ^ k <= 2 ^ (p - 1) * 2 ^ K); [|nia].
      rewrite <- !Z.pow_add_r by lia. apply Z.pow_le_mono_r; lia. }
    pose proof (rne_nearest a (d * 2 ^ K) (2 ^ (p - 1)) ltac:(nia)) as Hnear.
    assert (m' * 2 ^ k * d <= 2 ^ (p - 1) * (d * 2 ^ K)) by nia. lia.
Qed.

(** An odd integer of more than [p] bits does not have [p] bits. *)
Lemma odd_no_bits p k0 z : 0 <= k0 -> Z.odd z = true -> 2 ^ p <= Z.abs z -> ~ has_bits p k0 (z * one).
Proof.
  intros Hk0 Ho Hz (m & k & Hm & Hk & Heq). rewrite <- one_eq in Heq.
  destruct (decide (k <= 1074)) as [Hle|Hgt].
  - replace 1074 with ((1074 - k) + k) in Heq by lia. rewrite Z.pow_add_r in Heq by lia.
    pose proof (Z.pow_pos_nonneg 2 k ltac:(lia) ltac:(lia)). pose proof (Z.pow_pos_nonneg 2 (1074 - k) ltac:(lia) ltac:(lia)) as HP.
    assert (m = z * 2 ^ (1074 - k)) by nia. subst m. rewrite Z.abs_mul, (Z.abs_eq (2 ^ _)) in Hm by lia. nia.
  - replace k with ((k - 1075) + 1 + 1074) in Heq by lia. rewrite !Z.pow_add_r in Heq by lia.
    assert (HP : 0 < 2 ^ 1074) by (rewrite one_eq; apply one_pos).
    change (2 ^ 1) with 2 in Heq.
    assert (z = 2 * (m * 2 ^ (k - 1075))). { apply (Z.mul_reg_r _ _ (2 ^ 1074)); [rewrite one_eq; pose proof one_pos; lia|]. rewrite Heq. rewrite one_eq. ring. }
    subst z. rewrite Z.odd_mul in Ho. done.
Qed.

(** ** Kernels *)
Lemma int_result_exact t z : lo t <= z <= hi t -> int_result t z = Ok (z * one).
Proof. intros. unfold int_result. by rewrite decide_True. Qed.
Lemma yes_no_truth (P : Prop) `{Decision P} v : yes_no P v -> truth (bool_decide P) = v.
Proof. unfold yes_no, truth. rewrite one_eq. case_bool_decide; tauto || (intros [[? ->]|[? ->]]; done). Qed.
Lemma yes_no_truth_and (P Q : Prop) `{Decision P} `{Decision Q} v : yes_no (P /\ Q) v -> truth (bool_decide P && bool_decide Q) = v.
Proof. rewrite <- bool_decide_and. apply yes_no_truth. Qed.
Lemma yes_no_truth_or (P Q : Prop) `{Decision P} `{Decision Q} v : yes_no (P \/ Q) v -> truth (bool_decide P || bool_decide Q) = v.
Proof. rewrite <- bool_decide_or. apply yes_no_truth. Qed.
Lemma numeric_F64 : numeric F64.
Proof. split; done. Qed.

Lemma kernel_exact o r x y v : numeric r -> holds r x -> holds r y -> ideal o r x y v -> holds r v ->
  (o = Mod -> is_int r -> holds F64 x /\ holds F64 y) -> kernel o r x y = Ok v.
Proof.
  intros Hr Hx Hy Hi Hv Hm.
  assert (Hone := one_pos).
  destruct o; cbn [kernel ideal] in *; try rewrite one_eq in Hi;
    try (f_equal; first [by apply yes_no_truth_and|by apply yes_no_truth_or|by apply yes_no_truth]);
    try (f_equal; case_decide; lia).
  all: destruct (numeric_cases r Hr) as [Er|[Er Efr]]; rewrite Er.
  all: try (pose proof Hx as Hx'; pose proof Hy as Hy'; pose proof Hv as Hv';
    apply holds_int in Hx' as (a & -> & Ha); [|done]; apply holds_int in Hy' as (b & -> & Hb); [|done];
    apply holds_int in Hv' as (c & -> & Hc); [|done]; rewrite ?div_one).
  - replace (a + b) with c by nia. by apply int_result_exact.
  - subst v. f_equal. by apply rnd_float1.
  - replace (a - b) with c by nia. by apply int_result_exact.
  - subst v. f_equal. by apply rnd_float1.
  - assert (Hc' : c * one = a * b * one). { apply (Z.mul_reg_r _ _ one); [lia|]. rewrite Hi. ring. }
    replace (a * b) with c by nia. by apply int_result_exact.
  - f_equal. rewrite <- Hi. by apply rnd_float.
  - destruct Hi as [Hy0 [[_ Hi]|[Hf _]]]; [|destruct Hf as [-> | ->]; done].
    rewrite decide_False by done. rewrite Z.quot_mul_cancel_r in Hi by nia.
    replace (Z.quot a b) with c by nia. by apply int_result_exact.
  - destruct Hi as [Hy0 [[Hf _]|[_ Hi]]]; [apply is_int_spec in Hf; congruence|].
    rewrite decide_False by done. f_equal.
    replace (Z.sgn y * x * one) with (v * Z.abs y).
    + apply rnd_float; [done|lia|done].
    + rewrite <- Z.mul_assoc, <- Hi. destruct y; cbn [Z.sgn Z.abs]; lia.
  - destruct Hi as [Hy0 Hi]. destruct (Hm eq_refl) as [H1 H2]; [by apply is_int_spec|].
    change (rnd 53 0) with (rnd (prec F64) (kmin F64)). rewrite (rnd_float1 F64 (a * one)), (rnd_float1 F64 (b * one)) by auto.
    rewrite decide_False by done. rewrite <- Hi. apply cast_exact; done.
  - destruct Hi as [Hy0 ->]. by rewrite decide_False.
Qed.

(** ** One operation *)
Lemma highest_more_general s t r : highest [s; t] r -> more_general s t = r.
Proof. intros H. apply (highest_unique [s; t]); [apply more_general_highest|done]. Qed.
Lemma highest_numeric s t r : numeric s -> numeric t -> highest [s; t] r -> numeric r.
Proof. intros Hs Ht [H _]. rewrite !elem_of_cons, elem_of_nil in H. destruct H as [->|[->|[]]]; done. Qed.
Lemma computed_in_spec o s t r : numeric s -> numeric t -> computed_in o s t r ->
  numeric r /\ result_vt o s t = Ok r /\ cast_target o s t = Ok r.
Proof.
  intros Hs Ht H. rewrite result_vt_eq, cast_target_eq.
  assert (Hg : forall r, highest [s; t] r -> numeric r /\ more_general s t = r) by (intros; split; [by eapply (highest_numeric s t)|by apply highest_more_general]).
  destruct o; cbn [computed_in vtrait_of adjust] in *; try (apply Hg in H as [Hn ->]; destruct Hn; try case_decide; done).
  all: destruct H as (g & Hh & Hc); apply Hg in Hh as [Hn ->].
  all: destruct Hc as [(Hi & Hx & ->)|([Hf| ->] & ->)]; [apply is_int_spec in Hi; destruct g; done|destruct Hf as [-> | ->]; done|done].
Qed.
Lemma exact_numeric e r v : exact e r v -> numeric r /\ holds r v.
Proof. induction 1 as [|o e1 e2 s t r x y v H1 [IH1 _] H2 [IH2 _] Hc]; [done|]. split; [|done]. by apply (computed_in_spec o s t r). Qed.
Lemma ew_exact o s t r x y v : numeric s -> numeric t -> computed_in o s t r -> holds r x -> holds r y ->
  ideal o r x y v -> holds r v -> (o = Mod -> is_int r -> holds F64 x /\ holds F64 y) -> ew o (s, x) (t, y) = Ok (r, v).
Proof.
  intros Hs Ht Hc Hx Hy Hi Hv Hm. destruct (computed_in_spec o s t r Hs Ht Hc) as (Hr & H1 & H2).
  unfold ew. cbn [fst snd]. rewrite H1, H2. cbn [obind]. rewrite !cast_arg_exact by done. cbn [obind].
  rewrite (kernel_exact o r x y v) by done. done.
Qed.

(** ** Which casts keep every number *)
Lemma int_in_int s t x : integral s = true -> integral t = true -> lo t <= lo s -> hi s <= hi t -> holds s x -> holds t x.
Proof. intros Hs Ht ? ? (z & -> & ?)%holds_int; [|done]. apply holds_int; [done|]. exists z. split; [done|lia]. Qed.
Lemma int_in_float s t x : integral s = true -> t = F32 \/ t = F64 -> - 2 ^ prec t < lo s -> hi s < 2 ^ prec t -> holds s x -> holds t x.
Proof.
  intros Hs Ht ? ? (z & -> & ?)%holds_int; [|done]. apply holds_float; [done|]. exists z, 1074. rewrite one_eq.
  split; [lia|]. split; [destruct Ht; subst; cbn; lia|done].
Qed.
Lemma f32_in_f64 x : holds F32 x -> holds F64 x.
Proof.
  intros (m & k & Hm & Hk & ->). exists m, k. repeat split; [|lia].
  assert (2 ^ 24 <= 2 ^ 53) by (apply Z.pow_le_mono_r; lia). lia.
Qed.
Lemma hi_holds s : integral s = true -> holds s (hi s * one).
Proof. intros. apply holds_int; [done|]. exists (hi s). split; [done|]. destruct s; done. Qed.
Lemma lo_holds s : integral s = true -> holds s (lo s * one).
Proof. intros. apply holds_int; [done|]. exists (lo s). split; [done|]. destruct s; done. Qed.
Lemma cast_int_range s t x y : integral t = true -> integral s = true -> cast s t x = Ok y -> exists z, y = z * one /\ lo t <= z <= hi t.
Proof. intros Ht Hs. unfold cast. rewrite Ht, Hs. intros [= <-]. eexists. split; [done|]. by apply to_int_range. Qed.
Lemma cast_float_bits s t x y : t = F32 \/ t = F64 -> cast s t x = Ok y -> has_bits (prec t) (kmin t) y.
Proof.
  intros Ht. unfold cast. replace (integral t) with false by (destruct Ht; subst; done). rewrite decide_True by done.
  intros [= <-]. apply rnd_has_bits; destruct Ht; subst; cbn; lia.
Qed.
Lemma not_keeps_int s t z : integral s = true -> integral t = true -> s <> t -> lo s <= z <= hi s -> ~ (lo t <= z <= hi t) -> ~ keeps s t.
Proof.
  intros Hs Ht Hne Hz Hnz Hk. specialize (Hk (z * one)). rewrite holds_int in Hk by done. specialize (Hk ltac:(eauto)).
  unfold cast_arg in Hk. rewrite decide_False in Hk by done. apply cast_int_range in Hk as (w & Hw & ?); [|done|done].
  pose proof one_pos. assert (z = w) by nia. subst. done.
Qed.
Lemma not_keeps_float s t : integral s = true -> t = F32 \/ t = F64 -> Z.odd (hi s) = true -> 2 ^ prec t <= hi s -> ~ keeps s t.
Proof.
  intros Hs Ht Ho Hh Hk. specialize (Hk _ (hi_holds s Hs)). unfold cast_arg in Hk.
  rewrite decide_False in Hk by (intros ->; destruct Ht as [-> | ->]; discriminate Hs).
  apply cast_float_bits in Hk; [|done]. revert Hk. apply odd_no_bits; [destruct Ht; subst; cbn; lia|done|].
  assert (0 < 2 ^ prec t) by (destruct Ht as [-> | ->]; reflexivity). lia.
Qed.
Lemma keeps_sub s t : numeric t -> (forall x, holds s x -> holds t x) -> keeps s t.
Proof. intros Ht H x Hx. apply cast_arg_exact; [done|by apply H]. Qed.
Lemma keeps_holds s t x : numeric s -> numeric t -> below s t -> keeps s t -> holds s x -> holds t x.
Proof.
  intros Hs Ht Hb Hk Hx. pose proof (Hk x Hx) as H. unfold cast_arg in H. case_decide; [by subst|].
  destruct (numeric_cases t Ht) as [Et|[Et Eft]].
  - destruct (numeric_cases s Hs) as [Es|[Es Efs]].
    + apply cast_int_range in H; [|done|done]. by apply holds_int.
    + apply below_gen in Hb. destruct Efs as [-> | ->]; destruct t; cbn in Hb; done || lia.
  - apply holds_float; [done|]. by eapply cast_float_bits.
Qed.
