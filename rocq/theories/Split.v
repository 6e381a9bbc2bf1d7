(** C62: grouped sums with optimistic splitting. *)
From stdpp Require Import base numbers list list_numbers.
From Coq Require Import ZArith Lia.
From Verif Require Import CppBase SplitModel.
Local Open Scope Z_scope.

(** * Specification *)
(** The values of group [q], in order, and their sum. *)
Definition group_values (data ids : list Z) (q : nat) : list Z := omap (data !!.) (filter (fun i => ids !! i = Some (Z.of_nat q)) (seq 0 (length data))).
Definition sum (l : list Z) : Z := foldr Z.add 0 l.
(** The values that are not negative, and the negative ones. *)
Definition pos (l : list Z) : list Z := filter (fun v => 0 <= v) l.
Definition neg (l : list Z) : list Z := filter (fun v => v < 0) l.
(** Every group id is a group. *)
Definition ids_ok (ids : list Z) (m : nat) : Prop := Forall (fun g => 0 <= g < Z.of_nat m) ids.

(** * Proofs *)
Lemma sum_app l m : sum (l ++ m) = sum l + sum m.
Proof. unfold sum. induction l as [|x l IH]; cbn [app foldr]; lia. Qed.
Lemma sum_pos l : 0 <= sum (pos l).
Proof. unfold pos, sum. induction l as [|x l IH]; [done|]. rewrite filter_cons. case_decide; cbn [foldr]; lia. Qed.
Lemma sum_neg l : sum (neg l) <= 0.
Proof. unfold neg, sum. induction l as [|x l IH]; [done|]. rewrite filter_cons. case_decide; cbn [foldr]; lia. Qed.
Lemma sum_split l : sum l = sum (pos l) + sum (neg l).
Proof. unfold pos, neg, sum. induction l as [|x l IH]; [done|]. rewrite !filter_cons. destruct (decide (0 <= x)); [rewrite decide_False by lia|rewrite decide_True by lia]; cbn [foldr]; lia. Qed.
Lemma sum_1 v : sum [v] = v. Proof. unfold sum. cbn [foldr]. lia. Qed.
Lemma sum_pos_1 v : sum (pos [v]) = Z.max v 0. Proof. unfold sum, pos. rewrite filter_cons, filter_nil. case_decide; cbn [foldr]; lia. Qed.
Lemma sum_neg_1 v : sum (neg [v]) = Z.min v 0. Proof. unfold sum, neg. rewrite filter_cons, filter_nil. case_decide; cbn [foldr]; lia. Qed.
Lemma pos_app l m : pos (l ++ m) = pos l ++ pos m. Proof. apply filter_app. Qed.
Lemma neg_app l m : neg (l ++ m) = neg l ++ neg m. Proof. apply filter_app. Qed.

Section Loop.
  Context (wrapv : bool) (t : ity).
  (** what a row does to the two accumulators of its group *)
  Definition gstep (a l v : Z) : outcome (Z * Z) :=
    let* tmp := add_half wrapv t (wrap (is_signed t) (half t) v) l in
    if negb (xorb (bool_decide (0 <= v)) (bool_decide (tmp < v))) then
      let* x := add_full wrapv t v l in let* a := add_full wrapv t a x in Ok (a, 0)
    else Ok (a, tmp).
  Definition vals_to (data ids : list Z) (q n : nat) : list Z := omap (data !!.) (filter (fun i => ids !! i = Some (Z.of_nat q)) (seq 0 n)).
  Lemma vals_to_S data ids q n v g : data !! n = Some v -> ids !! n = Some g -> vals_to data ids q (S n) = vals_to data ids q n ++ (if decide (g = Z.of_nat q) then [v] else []).
  Proof.
    intros Hv Hg. unfold vals_to. rewrite seq_S, filter_app, omap_app. cbn [plus]. f_equal. rewrite filter_cons, filter_nil. rewrite Hg. destruct (decide (g = Z.of_nat q)) as [->|Hne].
    - rewrite decide_True by done. cbn. by rewrite Hv.
    - rewrite decide_False by congruence. done.
  Qed.
  Lemma vals_to_prefix data ids q n k : (n <= k)%nat -> exists l, vals_to data ids q k = vals_to data ids q n ++ l.
  Proof. intros Hk. unfold vals_to. replace k with (n + (k - n))%nat by lia. rewrite seq_app, filter_app, omap_app. eauto. Qed.

  Context (good : list Z -> Prop) (I : list Z -> Z -> Z -> Prop).
  Context (good_prefix : forall l m, good (l ++ m) -> good l) (I0 : I [] 0 0) (Istep : forall vs v a l, good (vs ++ [v]) -> I vs a l -> exists a' l', gstep a l v = Ok (a', l') /\ I (vs ++ [v]) a' l').

  Lemma split_loop data ids m : length data = length ids -> ids_ok ids m -> (forall q, (q < m)%nat -> good (group_values data ids q)) ->
    exists res lo, for_up 0 (length data) (split_row wrapv t data ids m) (replicate m 0, replicate m 0) = Ok (res, lo) /\ length res = m /\ length lo = m /\
      forall q, (q < m)%nat -> exists a l, res !! q = Some a /\ lo !! q = Some l /\ I (group_values data ids q) a l.
  Proof.
    intros Hl Hids Hgood.
    match goal with |- context [for_up 0 ?n ?f ?s0] => destruct (for_up_inv (fun r (s : list Z * list Z) => length (fst s) = m /\ length (snd s) = m /\ forall q, (q < m)%nat -> exists a l, fst s !! q = Some a /\ snd s !! q = Some l /\ I (vals_to data ids q r) a l) 0 n f s0) as ([res lo] & E & H1 & H2 & H3) end.
    - lia.
    - cbn [fst snd]. rewrite replicate_length. split; [done|]. split; [done|]. intros q Hq. exists 0, 0. by rewrite lookup_replicate_2.
    - intros r [res lo] Hr (H1 & H2 & H3). cbn [fst snd] in *. unfold split_row. destruct (lookup_lt_is_Some_2 ids r) as [g Eg]; [lia|]. destruct (lookup_lt_is_Some_2 data r) as [v Ev]; [lia|]. rewrite (rd_Ok _ _ _ Eg). cbn [obind].
      pose proof (Forall_lookup_1 _ _ _ _ Hids Eg) as Hg. cbn beta in Hg. rewrite decide_False by lia. rewrite (rd_Ok _ _ _ Ev). cbn [obind]. destruct (H3 (Z.to_nat g) ltac:(lia)) as (a & l & Ea & El & HI). rewrite (rd_Ok _ _ _ El). cbn [obind].
      assert (Hgd : good (vals_to data ids (Z.to_nat g) r ++ [v])).
      { destruct (vals_to_prefix data ids (Z.to_nat g) (S r) (length data) ltac:(lia)) as (l' & E'). pose proof (Hgood (Z.to_nat g) ltac:(lia)) as HG. unfold group_values in HG. fold (vals_to data ids (Z.to_nat g) (length data)) in HG. rewrite E' in HG. apply good_prefix in HG. rewrite (vals_to_S _ _ _ _ v g Ev Eg), decide_True in HG by lia. done. }
      destruct (Istep _ _ _ _ Hgd HI) as (a' & l' & Es & HI'). unfold gstep in Es.
      assert (Hfin : forall res' lo', length res' = m -> length lo' = m -> res' !! Z.to_nat g = Some a' -> lo' !! Z.to_nat g = Some l' -> (forall q, q <> Z.to_nat g -> res' !! q = res !! q /\ lo' !! q = lo !! q) ->
        length res' = m /\ length lo' = m /\ forall q, (q < m)%nat -> exists a0 l0, res' !! q = Some a0 /\ lo' !! q = Some l0 /\ I (vals_to data ids q (1 + r)) a0 l0).
      { intros res' lo' L1 L2 Er El' Hoth. split; [done|]. split; [done|]. intros q Hq. replace (1 + r)%nat with (S r) by lia. rewrite (vals_to_S _ _ _ _ v g Ev Eg). destruct (decide (g = Z.of_nat q)) as [->|Hne].
        - rewrite Nat2Z.id in *. eauto.
        - destruct (Hoth q ltac:(lia)) as [-> ->]. rewrite app_nil_r. by apply H3. }
      destruct (add_half wrapv t (wrap (is_signed t) (half t) v) l) as [tmp| |]; [|done|done]. cbn [obind] in Es. cbn [obind]. destruct (negb (xorb (bool_decide (0 <= v)) (bool_decide (tmp < v)))).
      + destruct (add_full wrapv t v l) as [x| |]; [|done|done]. cbn [obind] in Es. cbn [obind]. rewrite (rd_Ok _ _ _ Ea). cbn [obind]. destruct (add_full wrapv t a x) as [y| |]; [|done|done]. cbn [obind] in Es. injection Es as -> <-. cbn [obind]. rewrite wr_Ok by lia. cbn [obind]. rewrite wr_Ok by lia. cbn [obind]. eexists. split; [done|]. cbn [fst snd].
        apply Hfin; [by rewrite insert_length|by rewrite insert_length|by rewrite list_lookup_insert by lia|by rewrite list_lookup_insert by lia|]. intros q Hq. by rewrite !list_lookup_insert_ne by done.
      + injection Es as -> ->. rewrite wr_Ok by lia. cbn [obind]. eexists. split; [done|]. cbn [fst snd]. apply Hfin; [done|by rewrite insert_length|done|by rewrite list_lookup_insert by lia|]. intros q Hq. by rewrite list_lookup_insert_ne by done.
    - exists res, lo. split; [done|]. done.
  Qed.
  Lemma split_ok data ids m (out : list Z -> Z) : length data = length ids -> ids_ok ids m -> (forall q, (q < m)%nat -> good (group_values data ids q)) ->
    (forall vs a l, good vs -> I vs a l -> add_full wrapv t a l = Ok (out vs)) ->
    agg_split wrapv t data ids m = Ok (map (fun q => out (group_values data ids q)) (seq 0 m)).
  Proof.
    intros Hl Hids Hgood Hout. unfold agg_split. rewrite decide_False by (intros H; by apply H). destruct (split_loop data ids m Hl Hids Hgood) as (res & lo & -> & Hr & Hlo & HI). cbn [obind fst snd].
    match goal with |- context [for_up 0 ?n ?f ?s0] => destruct (for_up_inv (fun r (s : list Z) => length s = m /\ (forall q, (q < r)%nat -> s !! q = Some (out (group_values data ids q))) /\ forall q, (r <= q)%nat -> s !! q = res !! q) 0 n f s0) as (s & E & H1 & H2 & _) end.
    - lia.
    - split; [done|]. split; [lia|done].
    - intros r s Hrm (H1 & H2 & H3). destruct (HI r ltac:(lia)) as (a & l & Ea & El & HIr). rewrite (rd_Ok s r a) by (by rewrite H3). cbn [obind]. rewrite (rd_Ok _ _ _ El). cbn [obind]. rewrite (Hout _ _ _ (Hgood r ltac:(lia)) HIr). cbn [obind]. rewrite wr_Ok by lia. eexists. split; [done|]. rewrite insert_length. split; [done|]. split.
      + intros q Hq. destruct (decide (q = r)) as [->|Hne]; [by rewrite list_lookup_insert by lia|]. rewrite list_lookup_insert_ne by done. apply H2. lia.
      + intros q Hq. rewrite list_lookup_insert_ne by lia. apply H3. lia.
    - rewrite E. f_equal. apply list_eq. intros q. change (map ?f ?s) with (f <$> s). rewrite list_lookup_fmap. destruct (decide (q < m)%nat) as [Hq|Hq]; [rewrite lookup_seq_lt by done; cbn; by apply H2|]. rewrite lookup_seq_ge by lia. apply lookup_ge_None_2. lia.
  Qed.
End Loop.

(** the plain sum *)
Lemma plain_ok wrapv t data ids m (good : list Z -> Prop) (out : list Z -> Z) : length data = length ids -> ids_ok ids m -> (forall l m, good (l ++ m) -> good l) -> (forall q, (q < m)%nat -> good (group_values data ids q)) -> out [] = 0 ->
  (forall vs v, good (vs ++ [v]) -> add_full wrapv t (out vs) v = Ok (out (vs ++ [v]))) -> agg_plain wrapv t data ids m = Ok (map (fun q => out (group_values data ids q)) (seq 0 m)).
Proof.
  intros Hl Hids Hpre Hgood H0 Hstep. unfold agg_plain. rewrite decide_False by (intros H; by apply H).
  match goal with |- context [for_up 0 ?n ?f ?s0] => destruct (for_up_inv (fun r (s : list Z) => length s = m /\ forall q, (q < m)%nat -> s !! q = Some (out (vals_to data ids q r))) 0 n f s0) as (s & E & H1 & H2) end.
  - lia.
  - rewrite replicate_length. split; [done|]. intros q Hq. rewrite lookup_replicate_2 by done. cbn. by rewrite H0.
  - intros r s Hr (H1 & H2). destruct (lookup_lt_is_Some_2 ids r) as [g Eg]; [lia|]. destruct (lookup_lt_is_Some_2 data r) as [v Ev]; [lia|]. rewrite (rd_Ok _ _ _ Eg). cbn [obind]. pose proof (Forall_lookup_1 _ _ _ _ Hids Eg) as Hg. cbn beta in Hg. rewrite decide_False by lia.
    rewrite (rd_Ok _ _ _ (H2 (Z.to_nat g) ltac:(lia))). cbn [obind]. rewrite (rd_Ok _ _ _ Ev). cbn [obind]. rewrite Hstep.
    + cbn [obind]. rewrite wr_Ok by lia. eexists. split; [done|]. rewrite insert_length. split; [done|]. intros q Hq. replace (1 + r)%nat with (S r) by lia. rewrite (vals_to_S _ _ _ _ v g Ev Eg). destruct (decide (g = Z.of_nat q)) as [->|Hne]; [rewrite Nat2Z.id; by rewrite list_lookup_insert by lia|]. rewrite list_lookup_insert_ne by lia. rewrite app_nil_r. by apply H2.
    + destruct (vals_to_prefix data ids (Z.to_nat g) (S r) (length data) ltac:(lia)) as (l' & E'). pose proof (Hgood (Z.to_nat g) ltac:(lia)) as HG. unfold group_values in HG. fold (vals_to data ids (Z.to_nat g) (length data)) in HG. rewrite E' in HG. apply Hpre in HG. rewrite (vals_to_S _ _ _ _ v g Ev Eg), decide_True in HG by lia. done.
  - rewrite E. f_equal. apply list_eq. intros q. change (map ?f ?s) with (f <$> s). rewrite list_lookup_fmap. destruct (decide (q < m)%nat) as [Hq|Hq]; [rewrite lookup_seq_lt by done; cbn; by apply H2|]. rewrite lookup_seq_ge by lia. apply lookup_ge_None_2. lia.
Qed.

(** * Conversions *)
Lemma wrap_spec sg m z : 0 < m -> m mod 2 = 0 -> exists c, wrap sg m z = z + m * c /\ in_type sg m (wrap sg m z).
Proof.
  intros Hm He. unfold wrap, in_type. destruct sg.
  - exists (- ((z + m / 2) / m)). pose proof (Z.div_mod (z + m / 2) m ltac:(lia)). pose proof (Z.mod_pos_bound (z + m / 2) m Hm). pose proof (Z.div_mod m 2 ltac:(lia)). split; lia.
  - exists (- (z / m)). pose proof (Z.div_mod z m ltac:(lia)). pose proof (Z.mod_pos_bound z m Hm). split; lia.
Qed.
Lemma wrap_add sg m z c : 0 < m -> wrap sg m (z + m * c) = wrap sg m z.
Proof.
  intros Hm. unfold wrap. destruct sg.
  - replace (z + m * c + m / 2) with (z + m / 2 + c * m) by lia. by rewrite Z.mod_add by lia.
  - replace (z + m * c) with (z + c * m) by lia. by rewrite Z.mod_add by lia.
Qed.
Lemma wrap_id sg m z : 0 < m -> m mod 2 = 0 -> in_type sg m z -> wrap sg m z = z.
Proof.
  intros Hm He Hz. pose proof (Z.div_mod m 2 ltac:(lia)). unfold wrap, in_type in *. destruct sg; rewrite Z.mod_small by lia; lia.
Qed.
Lemma half_even t : 0 < half t /\ half t mod 2 = 0. Proof. by destruct t. Qed.
Lemma half_pos t : 0 < half t / 2. Proof. by destruct t. Qed.
Lemma full_even t : 0 < full t /\ full t mod 2 = 0. Proof. by destruct t. Qed.

Section Wrapping.
  Context (wrapv : bool) (t : ity) (Hw : wrapv = true \/ is_signed t = false).
  Lemma arith_wraps m z : 0 < m -> m mod 2 = 0 -> arith wrapv t m z = Ok (wrap (is_signed t) m z).
  Proof.
    intros Hm He. unfold arith. destruct (is_signed t) eqn:Es; [|done]. destruct Hw as [-> | ?]; [|done]. case_decide; [|done]. by rewrite wrap_id.
  Qed.
  Lemma add_full_wraps x y : add_full wrapv t x y = Ok (wrap (is_signed t) (full t) (x + y)).
  Proof. unfold add_full. apply arith_wraps; apply full_even. Qed.
  Lemma add_half_wraps x y : add_half wrapv t x y = Ok (wrap (is_signed t) (half t) (x + y)).
  Proof. unfold add_half. destruct t eqn:Et; (done || (rewrite <- Et in *; apply arith_wraps; by rewrite Et)). Qed.

  Definition wrap_inv (vs : list Z) (a l : Z) : Prop := (exists c, a + l = sum vs + full t * c) /\ 0 <= l < (if is_signed t then half t / 2 else half t).
  Lemma wrap_step vs v a l : Forall (in_type (is_signed t) (full t)) (vs ++ [v]) -> wrap_inv vs a l -> exists a' l', gstep wrapv t a l v = Ok (a', l') /\ wrap_inv (vs ++ [v]) a' l'.
  Proof.
    intros Hg [[c Hc] Hl]. apply Forall_app in Hg as [_ Hv]. apply Forall_singleton in Hv. unfold gstep. rewrite add_half_wraps. cbn [obind].
    destruct (wrap_spec (is_signed t) (half t) v) as (c1 & E1 & _); [apply half_even..|]. destruct (wrap_spec (is_signed t) (half t) (wrap (is_signed t) (half t) v + l)) as (c2 & E2 & R2); [apply half_even..|].
    set (tmp := wrap (is_signed t) (half t) (wrap (is_signed t) (half t) v + l)) in *. clearbody tmp. set (hv := wrap (is_signed t) (half t) v) in *. clearbody hv. unfold wrap_inv. rewrite sum_app, sum_1.
    destruct (bool_decide_reflect (0 <= v)) as [H1|H1], (bool_decide_reflect (tmp < v)) as [H2|H2]; cbn [xorb negb].
    1,4: rewrite !add_full_wraps; cbn [obind]; rewrite !add_full_wraps; cbn [obind]; eexists _, _; (split; [done|]); (split; [|destruct t; cbn in *; lia]);
      destruct (wrap_spec (is_signed t) (full t) (v + l)) as (c3 & E3 & _); [apply full_even..|]; destruct (wrap_spec (is_signed t) (full t) (a + wrap (is_signed t) (full t) (v + l))) as (c4 & E4 & _); [apply full_even..|]; exists (c + c3 + c4); rewrite E4, E3; lia.
    all: exists a, tmp; (split; [done|]); assert (Ht : tmp = v + l /\ 0 <= tmp) by (clear Hc Hw; destruct t; unfold in_type in *; cbn [is_signed half full] in *; change (2 ^ 16 / 2) with 32768 in *; change (2 ^ 16) with 65536 in *; change (2 ^ 32 / 2) with 2147483648 in *; change (2 ^ 32) with 4294967296 in *; lia);
      destruct Ht as [-> Ht]; (split; [exists c; lia|]); clear - R2 Ht; unfold in_type in R2; destruct (is_signed t); lia.
  Qed.
End Wrapping.

(** * The theorems *)
(** Unsigned values (and signed values, if overflows of signed arithmetic wrap around): the sum of every group, modulo the size of the type; the same as without
    optimistic splitting. *)
Theorem C62_wrapping wrapv t data ids m : wrapv = true \/ is_signed t = false -> length data = length ids -> ids_ok ids m -> Forall (in_type (is_signed t) (full t)) data ->
  agg_split wrapv t data ids m = Ok (map (fun q => wrap (is_signed t) (full t) (sum (group_values data ids q))) (seq 0 m)) /\ agg_plain wrapv t data ids m = agg_split wrapv t data ids m.
Proof.
  intros Hw Hl Hids Hd. assert (Hgood : forall q, (q < m)%nat -> Forall (in_type (is_signed t) (full t)) (group_values data ids q)).
  { intros q _. apply Forall_forall. intros v Hv. unfold group_values in Hv. apply elem_of_list_omap in Hv as (i & _ & Hi). by apply (Forall_lookup_1 _ _ _ _ Hd Hi). }
  assert (E : agg_split wrapv t data ids m = Ok (map (fun q => wrap (is_signed t) (full t) (sum (group_values data ids q))) (seq 0 m))).
  { apply (split_ok wrapv t (Forall (in_type (is_signed t) (full t))) (wrap_inv t) ltac:(intros l k H; apply Forall_app in H; tauto)) with (out := fun vs => wrap (is_signed t) (full t) (sum vs)); [|intros; by apply wrap_step|done|done|done|].
    - split; [exists 0; unfold sum; cbn [foldr]; lia|]. destruct t; split; vm_compute; congruence.
    - intros vs a l _ [[c Hc] _]. rewrite add_full_wraps by done. f_equal. rewrite Hc. apply wrap_add. apply full_even. }
  split; [done|]. rewrite E. apply (plain_ok wrapv t data ids m (Forall (in_type (is_signed t) (full t))) (fun vs => wrap (is_signed t) (full t) (sum vs))); [done|done|intros l k H; apply Forall_app in H; tauto|done|by destruct t|].
  intros vs v _. rewrite add_full_wraps by done. f_equal. rewrite sum_app, sum_1. destruct (wrap_spec (is_signed t) (full t) (sum vs)) as (c & -> & _); [apply full_even..|]. replace (sum vs + full t * c + v) with (sum vs + v + full t * c) by lia. apply wrap_add. apply full_even.
Qed.
(** Signed values: what is needed for the arithmetic to be defined. 32 bits: the sum of the values of a group that are not negative and the sum of its negative values are in the range
    of the type. 64 bits: the values, and the sum of those of a group that are not negative, are in the range of 32 bits. *)
Definition defined (t : ity) (vs : list Z) : Prop :=
  Forall (in_type true (full t)) vs /\ sum (pos vs) < full t / 2 /\ - (full t / 2) <= sum (neg vs) /\
  (t = I64 -> Forall (in_type true (half t)) vs /\ sum (pos vs) < half t / 2).
Lemma defined_prefix t l m : defined t (l ++ m) -> defined t l.
Proof.
  intros (H1 & H2 & H3 & H4). rewrite pos_app, sum_app in H2. rewrite neg_app, sum_app in H3. rewrite pos_app, sum_app in H4. pose proof (sum_pos m). pose proof (sum_neg m). apply Forall_app in H1 as [H1 _]. split; [done|]. split; [lia|]. split; [lia|]. intros Ht. destruct (H4 Ht) as [H5 H6]. apply Forall_app in H5 as [H5 _]. split; [done|lia].
Qed.
Definition exact_inv (t : ity) (vs : list Z) (a l : Z) : Prop := a + l = sum vs /\ 0 <= l <= sum (pos vs) /\ l < half t / 2.
Lemma add_full_exact t x y : is_signed t = true -> in_type true (full t) (x + y) -> add_full false t x y = Ok (x + y).
Proof. intros Hs Hz. unfold add_full, arith. rewrite Hs. by rewrite decide_True. Qed.
Lemma exact_step t vs v a l : is_signed t = true -> defined t (vs ++ [v]) -> exact_inv t vs a l -> exists a' l', gstep false t a l v = Ok (a', l') /\ exact_inv t (vs ++ [v]) a' l'.
Proof.
  intros Hs (D1 & D2 & D3 & D4) (Ha & Hl & Hh). rewrite pos_app, sum_app, sum_pos_1 in D2. rewrite neg_app, sum_app, sum_neg_1 in D3. rewrite pos_app, sum_app, sum_pos_1 in D4. rewrite Forall_app, Forall_singleton in D1. rewrite Forall_app, Forall_singleton in D4. destruct D1 as [_ Dv]. pose proof (sum_pos vs) as Sp. pose proof (sum_neg vs) as Sn. pose proof (sum_split vs) as Ss.
  assert (Hhalf : exists tmp c, add_half false t (wrap (is_signed t) (half t) v) l = Ok tmp /\ tmp = v + l + half t * c /\ in_type true (half t) tmp).
  { destruct (wrap_spec (is_signed t) (half t) v) as (c1 & E1 & _); [apply half_even..|]. destruct t; try done; unfold add_half.
    - destruct (wrap_spec (is_signed I32) (half I32) (wrap (is_signed I32) (half I32) v + l)) as (c2 & E2 & R2); [apply half_even..|]. eexists _, (c1 + c2). split; [done|]. split; [|done]. rewrite E2, E1. lia.
    - destruct (D4 eq_refl) as [[_ D5] D6]. rewrite wrap_id by (done || apply half_even). exists (v + l), 0. unfold arith. cbn [is_signed]. unfold in_type in *. rewrite decide_True; [split; [done|]; split; lia|]. cbn in *. lia. }
  destruct Hhalf as (tmp & c & E & Et & Rt). unfold gstep. rewrite E. cbn [obind]. unfold exact_inv. rewrite sum_app, sum_1, pos_app, sum_app, sum_pos_1.
  destruct (bool_decide_reflect (0 <= v)) as [H1|H1], (bool_decide_reflect (tmp < v)) as [H2|H2]; cbn [xorb negb].
  1,4: rewrite (add_full_exact t v l Hs) by (unfold in_type; lia); cbn [obind]; rewrite add_full_exact by (done || (unfold in_type; lia)); cbn [obind]; eexists _, _; (split; [done|]); (split; [lia|]); (split; [lia|]); pose proof (half_pos t); lia.
  all: exists a, tmp; (split; [done|]); assert (Ht : tmp = v + l /\ 0 <= tmp) by (clear D2 D3 D4; destruct t; try done; unfold in_type in *; cbn [is_signed half full] in *; change (2 ^ 16 / 2) with 32768 in *; change (2 ^ 16) with 65536 in *; change (2 ^ 32 / 2) with 2147483648 in *; change (2 ^ 32) with 4294967296 in *; lia);
    destruct Ht as [-> Ht]; (split; [lia|]); (split; [lia|]); unfold in_type in Rt; lia.
Qed.
Theorem C62_signed t data ids m : is_signed t = true -> length data = length ids -> ids_ok ids m -> (forall q, (q < m)%nat -> defined t (group_values data ids q)) ->
  agg_split false t data ids m = Ok (map (fun q => sum (group_values data ids q)) (seq 0 m)) /\ agg_plain false t data ids m = agg_split false t data ids m.
Proof.
  intros Hs Hl Hids Hgood. assert (E : agg_split false t data ids m = Ok (map (fun q => sum (group_values data ids q)) (seq 0 m))).
  { apply (split_ok false t (defined t) (exact_inv t) (defined_prefix t)); [|intros; by apply exact_step|done|done|done|].
    - split; [done|]. split; [done|]. by destruct t.
    - intros vs a l (D1 & D2 & D3 & _) (Ha & _). rewrite add_full_exact; [by rewrite Ha|done|]. rewrite Ha. pose proof (sum_pos vs). pose proof (sum_neg vs). pose proof (sum_split vs). unfold in_type. lia. }
  split; [done|]. rewrite E. apply (plain_ok false t data ids m (defined t) sum); [done|done|apply defined_prefix|done|done|].
  intros vs v (D1 & D2 & D3 & _). pose proof (sum_pos (vs ++ [v])). pose proof (sum_neg (vs ++ [v])). pose proof (sum_split (vs ++ [v])) as Hsp. rewrite sum_app, sum_1 in Hsp |- *. apply add_full_exact; [done|]. unfold in_type. lia.
Qed.
(** Without these conditions the arithmetic can overflow although the sums are small. 64 bits: the lower half itself overflows, so the check comes too late. *)
Theorem C62_half_refuted : agg_split false I64 [2147483647; 1] [0; 0] 1 = UB /\ agg_plain false I64 [2147483647; 1] [0; 0] 1 = Ok [2147483648].
Proof. split; vm_compute; done. Qed.
(** ... for all columns whose values are not negative and fit the half type while their sum does not: *)
Lemma half_overflow data n k l : (k + n = length data)%nat -> Forall (fun v => 0 <= v < 2147483648) data -> 0 <= l < 2147483648 -> 2147483648 <= l + sum (drop k data) ->
  forn n k (split_row false I64 data (replicate (length data) 0) 1) ([0], [l]) = UB.
Proof.
  revert k l. induction n as [|n IH]; intros k l Hk Hd Hl Hs; [rewrite drop_ge in Hs by lia; unfold sum in Hs; cbn [foldr] in Hs; lia|]. destruct (lookup_lt_is_Some_2 data k) as [v Ev]; [lia|]. pose proof (Forall_lookup_1 _ _ _ _ Hd Ev) as Hv. cbn beta in Hv.
  rewrite (drop_S data v k Ev) in Hs. change (sum (v :: drop (S k) data)) with (v + sum (drop (S k) data)) in Hs. cbn [forn]. unfold split_row at 1. rewrite (rd_Ok _ _ 0) by (apply lookup_replicate_2; lia). cbn [obind]. rewrite decide_False by lia. rewrite (rd_Ok _ _ _ Ev). cbn [obind]. change (rd [l] (Z.to_nat 0)) with (Ok l). cbn [obind].
  rewrite wrap_id by (done || (unfold in_type; cbn [half is_signed]; change (2 ^ 32 / 2) with 2147483648; lia)). unfold add_half, arith. cbn [is_signed half]. destruct (decide (v + l < 2147483648)) as [Hlt|Hge].
  - rewrite decide_True by (unfold in_type; cbn [half is_signed]; change (2 ^ 32 / 2) with 2147483648; lia). cbn [obind]. rewrite bool_decide_true by lia. rewrite bool_decide_false by lia. cbn [xorb negb]. change (wr [l] (Z.to_nat 0) (v + l)) with (Ok [v + l]). cbn [obind]. apply IH; (done || lia).
  - rewrite decide_False by (unfold in_type; cbn [half is_signed]; change (2 ^ 32 / 2) with 2147483648; lia). done.
Qed.
Theorem C62_half_overflow_refuted data : Forall (fun v => 0 <= v < 2 ^ 31) data -> 2 ^ 31 <= sum data -> agg_split false I64 data (replicate (length data) 0) 1 = UB.
Proof.
  intros Hd Hs. unfold agg_split. rewrite replicate_length. rewrite decide_False by (intros H; by apply H). unfold for_up at 1. rewrite Nat.sub_0_r. change (replicate 1 0) with [0]. rewrite (half_overflow data (length data) 0 0); [done|lia|done|lia|]. rewrite drop_0. exact Hs.
Qed.
(** The value and the lower half are added before they are added to the (negative) sum. *)
Theorem C62_full_refuted : agg_split false I32 [-100; 5; 2147483647] [0; 0; 0] 1 = UB /\ agg_plain false I32 [-100; 5; 2147483647] [0; 0; 0] 1 = Ok [2147483552] /\
  agg_split false I64 [-100; 5; 9223372036854775807] [0; 0; 0] 1 = UB /\ agg_plain false I64 [-100; 5; 9223372036854775807] [0; 0; 0] 1 = Ok [9223372036854775712].
Proof. repeat split; vm_compute; done. Qed.
(** As without optimistic splitting, a group id that is one too large is used as an index. *)
Theorem C62_bound_refuted wrapv t v (m : nat) : agg_split wrapv t [v] [Z.of_nat m] m = UB.
Proof.
  unfold agg_split. cbn [length]. rewrite decide_False by (intros H; by apply H). cbn. rewrite decide_False by lia. rewrite Nat2Z.id. unfold rd. by rewrite lookup_ge_None_2 by (by rewrite replicate_length).
Qed.

(** * Concrete cases *)
Theorem C62_ex_unsigned : agg_split false U32 [65535; 7; 1; 4294967295; 70000; 9] [0; 1; 0; 1; 0; 1] 2 = Ok [135536; 15] /\ ids_ok [0; 1; 0; 1; 0; 1] 2 /\ Forall (in_type false (full U32)) [65535; 7; 1; 4294967295; 70000; 9] /\ group_values [65535; 7; 1; 4294967295; 70000; 9] [0; 1; 0; 1; 0; 1] 1 = [7; 4294967295; 9].
Proof. split; [vm_compute; done|]. split; [repeat constructor; lia|]. split; [repeat constructor; vm_compute; congruence|]. vm_compute. done. Qed.
Theorem C62_ex_signed : agg_split false I32 [32767; -5; 40000; 1; -70000] [0; 1; 0; 0; 1] 2 = Ok [72768; -70005] /\ agg_split false I64 [100; -5; 40000; 1; -70000] [0; 1; 0; 0; 0] 2 = Ok [-29899; -5] /\ defined I32 [32767; 40000; 1] /\ defined I64 [100; 40000; 1; -70000].
Proof.
  split; [vm_compute; done|]. split; [vm_compute; done|].
  split; (split; [repeat constructor; vm_compute; congruence|]); (split; [by vm_compute|]); (split; [by vm_compute|]); [done|]. intros _. split; [repeat constructor; vm_compute; congruence|by vm_compute].
Qed.
Print Assumptions C62_wrapping. Print Assumptions C62_signed. Print Assumptions C62_half_overflow_refuted. Print Assumptions C62_full_refuted. Print Assumptions C62_bound_refuted.
