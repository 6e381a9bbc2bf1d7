(** Lemmas about the encoding kernels. *)
From stdpp Require Import base numbers list list_numbers.
From Coq Require Import Lia.
From Verif Require Import CppBase Mem EncodeModel.
Local Open Scope nat_scope.

Lemma fresh_length {V} (junk : nat -> V) n : length (fresh junk n) = n.
Proof. unfold fresh. by rewrite map_length, seq_length. Qed.

Lemma copy_range_app {V} (pre src rest : list V) p w : p = length pre -> w = length src -> w <= length rest ->
  copy_range (pre ++ rest) p src 0 w = Ok (pre ++ src ++ drop w rest).
Proof.
  intros -> -> H. destruct (copy_range_spec (pre ++ rest) (length pre) src 0 (length src)) as (b & E & L & H1 & H2); [rewrite app_length; lia|lia|].
  rewrite E. f_equal. rewrite app_length in L. apply list_eq. intros i. destruct (decide (i < length pre)) as [Hi|Hi].
  - rewrite H2 by lia. by rewrite !lookup_app_l by done.
  - destruct (decide (i < length pre + length src)) as [Hs|Hs].
    + specialize (H1 (i - length pre)). replace (length pre + (i - length pre)) with i in H1 by lia. rewrite H1 by lia.
      rewrite lookup_app_r by lia. rewrite lookup_app_l by lia. done.
    + rewrite H2 by lia. rewrite !lookup_app_r by lia. rewrite lookup_drop. f_equal. lia.
Qed.
Lemma wr_app {V} (pre rest : list V) p v : p = length pre -> 1 <= length rest -> wr (pre ++ rest) p v = Ok (pre ++ [v] ++ drop 1 rest).
Proof.
  intros -> H. destruct rest as [|y rest]; [simpl in H; lia|]. rewrite wr_Ok by (rewrite app_length; simpl; lia).
  rewrite insert_app_r_alt by lia. rewrite Nat.sub_diag. done.
Qed.

(** Loops that either go on or throw, depending on the iteration alone. *)
Lemma forn_or {St} (P : nat -> St -> Prop) (good : nat -> Prop) n lo f s :
  P lo s ->
  (forall i s, lo <= i < lo + n -> P i s ->
    (good i /\ exists s', f i s = Ok s' /\ P (S i) s') \/ (~ good i /\ f i s = Throw)) ->
  ((forall i, lo <= i < lo + n -> good i) /\ exists s', forn n lo f s = Ok s' /\ P (lo + n) s') \/
  ((exists i, lo <= i < lo + n /\ ~ good i) /\ forn n lo f s = Throw).
Proof.
  revert lo s. induction n as [|n IH]; intros lo s H0 Hs; simpl.
  - left. split; [lia|]. exists s. by rewrite Nat.add_0_r.
  - destruct (Hs lo s) as [(Hg & s1 & E1 & H1)|(Hg & E1)]; [lia|done| |].
    + rewrite E1. simpl. destruct (IH (S lo) s1 H1) as [(Ha & s2 & E2 & H2)|((i & Hi & Hn) & E2)].
      * intros i t Hi HP. apply Hs; [lia|done].
      * left. split; [|exists s2; split; [done|]; by replace (lo + S n) with (S lo + n) by lia].
        intros i Hi. destruct (decide (i = lo)) as [->|]; [done|]. apply Ha. lia.
      * right. split; [|done]. exists i. split; [lia|done].
    + right. rewrite E1. split; [|done]. exists lo. split; [lia|done].
Qed.
(** Loops that cannot throw and reach an iteration with undefined behaviour. *)
Lemma forn_ub {St} (P : St -> Prop) n lo f s k :
  P s -> (forall i s, P s -> f i s = UB \/ exists s', f i s = Ok s' /\ P s') ->
  lo <= k < lo + n -> (forall s, P s -> f k s = UB) -> forn n lo f s = UB.
Proof.
  intros H0 Hs. revert lo s H0. induction n as [|n IH]; intros lo s H0 Hk HU; [lia|]. simpl.
  destruct (decide (k = lo)) as [->|]; [by rewrite HU|].
  destruct (Hs lo s H0) as [->|(s' & -> & H')]; [done|]. simpl. apply IH; [done|lia|done].
Qed.
Lemma forn_noThrow {St} (P : St -> Prop) n lo f s :
  P s -> (forall i s, P s -> f i s = UB \/ exists s', f i s = Ok s' /\ P s') ->
  forn n lo f s = UB \/ exists s', forn n lo f s = Ok s' /\ P s'.
Proof.
  intros H0 Hs. revert lo s H0. induction n as [|n IH]; intros lo s H0; simpl; [eauto|].
  destruct (Hs lo s H0) as [->|(s' & -> & H')]; [by left|]. simpl. by apply IH.
Qed.

Section onehot.
  Context {V : Type} (vzero vone : V) (cast : V -> nat).
  Definition width (d : Z) : nat := if decide (d = -1)%Z then 1 else Z.to_nat d.
  Definition blk (d : Z) (v : V) : list V :=
    if decide (d = -1)%Z then [v] else map (fun k => if decide (k = cast v) then vone else vzero) (seq 0 (Z.to_nat d)).
  Definition fits (d : Z) (v : V) : Prop := d = (-1)%Z \/ d = 0%Z \/ cast v < Z.to_nat d.
  Definition enc (info : list Z) (x : nat -> V) (c : nat) : list V := concat (map (fun c => blk (nth c info 0%Z) (x c)) (seq 0 c)).

  Lemma blk_length d v : length (blk d v) = width d.
  Proof. unfold blk, width. destruct (decide (d = -1)%Z); [done|]. by rewrite map_length, seq_length. Qed.
  Lemma enc_S info x c : enc info x (S c) = enc info x c ++ blk (nth c info 0%Z) (x c).
  Proof. unfold enc. rewrite seq_S, map_app, concat_app. simpl. by rewrite app_nil_r. Qed.
  Lemma enc_length info x c : c <= length info -> length (enc info x c) = sum_list_with width (take c info).
  Proof.
    induction c as [|c IH]; intros Hc; [done|]. rewrite enc_S, app_length, IH, blk_length by lia.
    destruct (nth_lookup_or_length info c 0%Z) as [E|]; [|lia]. rewrite (take_S_r _ _ _ E), sum_list_with_app. simpl. lia.
  Qed.
  Lemma sum_take info c : sum_list_with width (take c info) <= sum_list_with width info.
  Proof. rewrite <- (take_drop c info) at 2. rewrite sum_list_with_app. lia. Qed.
  Lemma cols_spec info n : Forall (fun d => -1 <= d)%Z info -> one_hot_cols info n = Ok (n + sum_list_with width info).
  Proof.
    intros H. revert n. induction H as [|d info Hd H IH]; intros n; cbn [one_hot_cols sum_list_with]; [f_equal; lia|].
    unfold width at 1. destruct (decide (d = -1)%Z); [rewrite IH; f_equal; lia|]. destruct (decide (0 < d)%Z); [rewrite IH; f_equal; lia|].
    assert (d = 0%Z) as -> by lia. rewrite decide_False by lia. rewrite IH. f_equal.
  Qed.
  Lemma cols_Throw info n : Exists (fun d => d < -1)%Z info -> one_hot_cols info n = Throw.
  Proof.
    intros H. revert n. induction H as [d info Hd|d info H IH]; intros n; cbn [one_hot_cols].
    - rewrite !decide_False by lia. by rewrite decide_True by lia.
    - repeat case_decide; auto.
  Qed.
  Lemma blk_insert d v : d <> (-1)%Z -> cast v < Z.to_nat d -> <[cast v := vone]> (replicate (Z.to_nat d) vzero) = blk d v.
  Proof.
    intros Hd Hv. unfold blk. rewrite decide_False by done. apply list_eq. intros i. destruct (decide (i = cast v)) as [->|Hi].
    - rewrite list_lookup_insert by (by rewrite replicate_length). rewrite list_lookup_fmap, lookup_seq_lt by done. simpl. by rewrite decide_True.
    - rewrite list_lookup_insert_ne by done. rewrite list_lookup_fmap. destruct (decide (i < Z.to_nat d)) as [Hl|Hl].
      + rewrite lookup_replicate_2, lookup_seq_lt by done. simpl. by rewrite decide_False.
      + rewrite lookup_seq_ge by lia. apply lookup_ge_None_2. rewrite replicate_length. lia.
  Qed.

  Lemma cell_spec a n info x r c pre k rest :
    is_dense a n (length info) x -> r < n -> c < length info -> (-1 <= nth c info 0)%Z -> width (nth c info 0%Z) <= length rest ->
    (fits (nth c info 0%Z) (x r c) /\ one_hot_cell vzero vone cast a info (length pre) r c (pre ++ k ++ rest, length k)
       = Ok (pre ++ (k ++ blk (nth c info 0%Z) (x r c)) ++ drop (width (nth c info 0%Z)) rest, length (k ++ blk (nth c info 0%Z) (x r c))))
    \/ (~ fits (nth c info 0%Z) (x r c) /\ one_hot_cell vzero vone cast a info (length pre) r c (pre ++ k ++ rest, length k) = Throw).
  Proof.
    intros Ha Hr Hc Hd Hw. destruct (nth_lookup_or_length info c 0%Z) as [E|]; [|lia].
    revert E Hd Hw. generalize (nth c info 0%Z) as d. intros d E Hd Hw.
    unfold one_hot_cell. rewrite (rd_Ok _ _ _ E). cbn [obind]. rewrite (dm_at_Ok a n (length info) x r c Ha Hr Hc).
    unfold width in *. destruct (decide (d = -1)%Z) as [->|Hne].
    - left. split; [by left|]. cbn [obind]. rewrite (app_assoc pre k rest). rewrite wr_app; [|by rewrite app_length|done]. cbn [obind].
      unfold blk. simpl. rewrite app_length. simpl. by rewrite <- !app_assoc.
    - destruct (decide (d <> 0)%Z) as [H0|H0].
      + rewrite (app_assoc pre k rest). rewrite copy_range_app; [|by rewrite app_length|by rewrite replicate_length|done]. cbn [obind].
        destruct (decide (cast (x r c) < Z.to_nat d)) as [Hl|Hl].
        * left. split; [by right; right|]. rewrite wr_Ok by (rewrite !app_length, replicate_length; lia). cbn [obind].
          f_equal. f_equal; [|rewrite app_length, blk_length; unfold width; by rewrite decide_False].
          rewrite insert_app_r_alt by (rewrite app_length; lia). rewrite app_length.
          replace (length pre + length k + cast (x r c) - (length pre + length k)) with (cast (x r c)) by lia.
          rewrite insert_app_l by (by rewrite replicate_length). rewrite blk_insert by done. by rewrite !app_assoc.
        * right. split; [|done]. intros [->|[->|?]]; lia.
      + apply dec_stable in H0. subst d. left. split; [by right; left|]. unfold blk. simpl. rewrite app_nil_r. by rewrite drop_0.
  Qed.

  Definition rows_upto (info : list Z) (x : nat -> nat -> V) (r : nat) : list V := concat (map (fun r => enc info (x r) (length info)) (seq 0 r)).
  Lemma rows_upto_S info x r : rows_upto info x (S r) = rows_upto info x r ++ enc info (x r) (length info).
  Proof. unfold rows_upto. rewrite seq_S, map_app, concat_app. simpl. by rewrite app_nil_r. Qed.
  Lemma rows_upto_length info x r : length (rows_upto info x r) = r * sum_list_with width info.
  Proof. induction r as [|r IH]; [done|]. rewrite rows_upto_S, app_length, IH, enc_length by done. rewrite take_ge by done. lia. Qed.

  Lemma one_hot_spec junk a n info x :
    is_dense a n (length info) x -> Forall (fun d => -1 <= d)%Z info -> sum_list_with width info <> 0 ->
    ((forall r c, r < n -> c < length info -> fits (nth c info 0%Z) (x r c)) /\
      one_hot vzero vone cast junk a 1 info = Ok (sum_list_with width info, rows_upto info x n)) \/
    ((exists r c, r < n /\ c < length info /\ ~ fits (nth c info 0%Z) (x r c)) /\ one_hot vzero vone cast junk a 1 info = Throw).
  Proof.
    intros Ha Hi Hm. pose proof Ha as (Hrows & Hcols & _). unfold one_hot. rewrite decide_False by lia. rewrite decide_False by (intros H; exact (H Hcols)).
    rewrite (cols_spec info 0 Hi). cbn [obind]. rewrite Nat.add_0_l. rewrite decide_False by done. set (m := sum_list_with width info) in *.
    rewrite Hrows, Hcols. unfold for_up. rewrite Nat.sub_0_r.
    destruct (forn_or (fun r b => length b = n * m /\ exists rest, b = rows_upto info x r ++ rest)
      (fun r => forall c, c < length info -> fits (nth c info 0%Z) (x r c)) n 0
      (fun r b => let* s := forn (length info - 0) 0 (one_hot_cell vzero vone cast a info (r * m) r) (b, 0) in Ok (fst s)) (fresh junk (n * m)))
      as [(Hg & b & E & Hl & rest & Hb)|((r & Hr & Hn) & E)].
    - rewrite fresh_length. split; [done|]. by exists (fresh junk (n * m)).
    - intros r b Hr (Hl & rest & ->). rewrite Nat.sub_0_r.
      destruct (forn_or (fun c (s : list V * nat) => length (fst s) = n * m /\ snd s = length (enc info (x r) c) /\
                   exists rest, fst s = rows_upto info x r ++ enc info (x r) c ++ rest)
        (fun c => fits (nth c info 0%Z) (x r c)) (length info) 0 (one_hot_cell vzero vone cast a info (r * m) r) (rows_upto info x r ++ rest, 0))
        as [(Hg & [b k] & E & Hl' & _ & rest' & Hb)|((c & Hc & Hn) & E)].
      + split; [done|]. split; [done|]. by exists rest.
      + intros c [b k] Hc (Hl' & Hk & rest' & Hb). cbn [fst snd] in *. subst b k.
        assert (Hd : (-1 <= nth c info 0)%Z).
        { destruct (nth_lookup_or_length info c 0%Z) as [En|]; [|lia]. exact (Forall_lookup_1 _ _ _ _ Hi En). }
        assert (Hw : width (nth c info 0%Z) <= length rest').
        { rewrite !app_length, rows_upto_length, enc_length in Hl' by lia. fold m in Hl'.
          assert (sum_list_with width (take (S c) info) <= m) by apply sum_take.
          destruct (nth_lookup_or_length info c 0%Z) as [En|]; [|lia]. rewrite (take_S_r _ _ _ En), sum_list_with_app in H. simpl in H. nia. }
        assert (Hp : r * m = length (rows_upto info x r)) by (symmetry; apply rows_upto_length). rewrite Hp.
        destruct (cell_spec a n info x r c (rows_upto info x r) (enc info (x r) c) rest' Ha ltac:(lia) ltac:(lia) Hd Hw) as [[Hf E]|[Hf E]].
        * left. split; [done|]. eexists. split; [exact E|]. cbn [fst snd]. rewrite <- enc_S. split; [|split; [done|by eexists]].
          rewrite enc_S, !app_length, drop_length, blk_length. rewrite !app_length in Hl'. lia.
        * right. by split.
      + left. split; [intros c Hc; apply Hg; lia|]. rewrite E. cbn [obind fst]. eexists. split; [done|].
        split; [done|]. rewrite rows_upto_S. exists rest'. cbn [fst] in Hb. rewrite Hb. simpl. by rewrite app_assoc.
      + right. split; [|by rewrite E]. intros Hg. apply Hn, Hg. lia.
    - left. split; [intros r c Hr; apply Hg; lia|]. rewrite E. cbn [obind]. f_equal. f_equal. subst b.
      rewrite app_length, rows_upto_length in Hl. fold m in Hl. simpl in Hl. destruct rest; [apply app_nil_r|simpl in Hl; lia].
    - right. rewrite E. split; [|done]. exists r.
      destruct (decide (Exists (fun c => ~ (fits (nth c info 0%Z) (x r c))) (seq 0 (length info)))) as [H|H].
      + apply Exists_exists in H as (c & Hc & Hf). exists c. rewrite elem_of_seq in Hc. split; [lia|]. split; [lia|done].
      + exfalso. apply Hn. intros c Hc.
        assert (Hdec : Decision (fits (nth c info 0%Z) (x r c))) by (unfold fits; apply _).
        destruct (decide (fits (nth c info 0%Z) (x r c))) as [|Hf]; [done|].
        exfalso. apply H, Exists_exists. exists c. rewrite elem_of_seq. split; [lia|done].
  Qed.

  (** *** Strings *)
  Context {K : Type} `{!EqDecision K} (of_nat : nat -> V).
  Definition first_row (col : nat -> K) (r : nat) : nat := default r (fst <$> list_find (fun f => col f = col r) (seq 0 r)).
  Definition rank (col : nat -> K) (r : nat) : nat := length (remove_dups (map col (seq 0 (first_row col r)))).
  Lemma first_row_spec col r : first_row col r <= r /\ col (first_row col r) = col r /\ forall f, f < first_row col r -> col f <> col r.
  Proof.
    unfold first_row. destruct (list_find (fun f => col f = col r) (seq 0 r)) as [[i f]|] eqn:E; simpl.
    - apply list_find_Some in E as (Hi & Hf & Hm). apply lookup_seq in Hi as [-> Hi]. simpl in *. split; [lia|]. split; [done|].
      intros j Hj. apply (Hm j j); [|done]. apply lookup_seq. lia.
    - apply list_find_None in E. split; [done|]. split; [done|]. intros f Hf.
      assert (Hin : f ∈ seq 0 r) by (apply elem_of_seq; lia). exact (proj1 (Forall_forall _ _) E f Hin).
  Qed.
  Lemma first_row_eq col r f : f <= r -> col f = col r -> (forall g, g < f -> col g <> col r) -> first_row col r = f.
  Proof.
    intros H1 H2 H3. destruct (first_row_spec col r) as (A & B & C). destruct (lt_eq_lt_dec (first_row col r) f) as [[H|H]|H]; [|done|].
    - by destruct (H3 _ H). - by destruct (C f H).
  Qed.
  Lemma index_of_Some (k : K) l n : index_of k l = Some n -> n < length l.
  Proof.
    revert n; induction l as [|y l IH]; intros n; cbn [index_of length]; [done|]. case_decide; [intros [= <-]; lia|].
    destruct (index_of k l) as [j|]; [|done]. intros [= <-]. specialize (IH j eq_refl). lia.
  Qed.
  Lemma index_of_None (k : K) l : index_of k l = None <-> k ∉ l.
  Proof.
    induction l as [|y l IH]; simpl; [split; [by intros _ ?%elem_of_nil|done]|]. rewrite not_elem_of_cons. case_decide; [split; [done|intros [? _]; congruence]|].
    destruct (index_of k l); simpl; [split; [done|intros [_ H']; by apply IH in H']|]. split; [|done]. intros _. split; [congruence|by apply IH].
  Qed.
  Lemma index_of_app (k : K) l l' n : index_of k l = Some n -> index_of k (l ++ l') = Some n.
  Proof. revert n; induction l as [|y l IH]; intros n; simpl; [done|]. case_decide; [done|]. destruct (index_of k l); [|done]. intros E. by rewrite (IH n0). Qed.
  Lemma index_of_new (k : K) l : k ∉ l -> index_of k (l ++ [k]) = Some (length l).
  Proof. induction l as [|y l IH]; intros H; simpl; [by rewrite decide_True|]. apply not_elem_of_cons in H as [H1 H2]. rewrite decide_False by congruence. by rewrite IH. Qed.

  Definition seen_inv (col : nat -> K) (r : nat) (seen : list K) : Prop :=
    NoDup seen /\ (forall k, k ∈ seen <-> k ∈ map col (seq 0 r)) /\ forall r', r' < r -> index_of (col r') seen = Some (rank col r').
  Lemma seen_length col r seen : seen_inv col r seen -> length seen = length (remove_dups (map col (seq 0 r))).
  Proof.
    intros (H1 & H2 & _). apply Permutation_length. apply NoDup_Permutation; [done|apply NoDup_remove_dups|].
    intros k. by rewrite elem_of_remove_dups.
  Qed.
  Lemma seen_step col r seen : seen_inv col r seen ->
    let seen' := match index_of (col r) seen with Some _ => seen | None => seen ++ [col r] end in
    seen_inv col (S r) seen' /\ index_of (col r) seen' = Some (rank col r).
  Proof.
    intros HI. pose proof HI as (H1 & H2 & H3). destruct (index_of (col r) seen) as [j|] eqn:E; cbn zeta.
    - assert (Hin : col r ∈ seen). { destruct (decide (col r ∈ seen)) as [|Hn]; [done|]. apply index_of_None in Hn. congruence. }
      assert (Hr : index_of (col r) seen = Some (rank col r)).
      { apply H2 in Hin. apply elem_of_list_fmap in Hin as (r' & Er & Hr'). apply elem_of_seq in Hr'. rewrite Er, H3 by lia. f_equal.
        unfold rank. destruct (first_row_spec col r') as (A & B & C). rewrite (first_row_eq col r (first_row col r')); [done|lia|congruence|].
        intros g Hg. rewrite Er. by apply C. }
      split; [|done]. split; [done|]. split.
      + intros k. rewrite seq_S, map_app, elem_of_app, H2. simpl. rewrite elem_of_list_singleton. split; [by left|]. intros [?| ->]; [done|]. by apply H2.
      + intros r' Hr'. destruct (decide (r' = r)) as [->|]; [done|]. apply H3. lia.
    - apply index_of_None in E. assert (Hr : index_of (col r) (seen ++ [col r]) = Some (rank col r)).
      { rewrite index_of_new by done. f_equal. rewrite (seen_length _ _ _ HI). unfold rank. rewrite (first_row_eq col r r); [done|done|done|].
        intros g Hg Eg. apply E, H2, elem_of_list_fmap. exists g. split; [done|]. apply elem_of_seq. lia. }
      split; [|done]. split.
      + apply NoDup_app. split; [done|]. split; [intros k Hk ->%elem_of_list_singleton; done|]. apply NoDup_singleton.
      + split.
        * intros k. rewrite seq_S, map_app, !elem_of_app, H2. done.
        * intros r' Hr'. destruct (decide (r' = r)) as [->|]; [done|]. apply index_of_app, H3. lia.
  Qed.

  Lemma one_hot_string_spec junk junk' (a : dmat K) n m x info_rows info :
    is_dense a n m x -> m_skip a = m ->
    exists b, is_dense (mkDM b 0 n m m) n m (fun r c => of_nat (rank (fun r => x r c) r)) /\
      one_hot_string vzero vone cast of_nat junk junk' a info_rows info = one_hot vzero vone cast junk (mkDM b 0 n m m) info_rows info.
  Proof.
    intros Ha Hs. pose proof Ha as (Hr & Hc & _ & _ & Hx). unfold one_hot_string. rewrite Hr, Hc.
    destruct (for_up_inv (fun c (b : list V) => length b = n * m /\ forall r c', r < n -> c' < c -> b !! (r * m + c') = Some (of_nat (rank (fun r => x r c') r)))
      0 m (fun c b => let* s := for_up 0 n (recode_cell of_nat a c) (b, []) in Ok (fst s)) (fresh junk' (n * m))) as (b & E & Hl & Hb).
    - lia.
    - rewrite fresh_length. split; [done|]. lia.
    - intros c b Hcm (Hl & Hb).
      destruct (for_up_inv (fun r (s : list V * list K) => length (fst s) = n * m /\ seen_inv (fun r => x r c) r (snd s) /\
          (forall r' c', r' < n -> c' < c -> fst s !! (r' * m + c') = Some (of_nat (rank (fun r => x r c') r'))) /\
          (forall r', r' < r -> fst s !! (r' * m + c) = Some (of_nat (rank (fun r => x r c) r')))) 0 n (recode_cell of_nat a c) (b, []))
        as ([b' seen] & E & Hl' & _ & H1 & H2).
      + lia.
      + split; [done|]. split; [|split; [done|lia]]. split; [apply NoDup_nil_2|]. split; [done|lia].
      + intros r [b' seen] Hrn (Hl' & Hi & H1 & H2). unfold recode_cell. cbn [fst snd] in *. rewrite Hs.
        replace (m_off a + (m * r + c)) with (m_off a + r * m_skip a + c) by lia. rewrite (rd_Ok _ _ _ (Hx r c ltac:(lia) ltac:(lia))). cbn [obind].
        destruct (seen_step (fun r => x r c) r seen Hi) as [Hi' Er]. cbn beta zeta in Er. rewrite Er.
        replace (m * r + c) with (r * m + c) by lia.
        assert (Hlt : r * m + c < length b') by (rewrite Hl'; apply pos_lt; lia). rewrite wr_Ok by done. cbn [obind].
        eexists. split; [done|]. cbn [fst snd]. rewrite insert_length. split; [done|]. split; [exact Hi'|]. split.
        * intros r' c' Hr' Hc'. rewrite list_lookup_insert_ne; [by apply H1|]. intros Eq. apply pos_inj in Eq; lia.
        * intros r' Hr'. destruct (decide (r' = r)) as [->|]; [by apply list_lookup_insert|]. rewrite list_lookup_insert_ne; [apply H2; lia|].
          intros Eq. apply pos_inj in Eq; lia.
      + rewrite E. cbn [obind fst]. eexists. split; [done|]. split; [done|]. intros r c' Hr' Hc'. destruct (decide (c' = c)) as [->|]; [by apply H2|]. apply H1; lia.
    - exists b. rewrite E. cbn [obind]. split; [|done]. apply tabulated_is_dense. split; [done|]. intros r c Hr' Hc'. by apply Hb.
  Qed.

  (** Matrices of strings whose rows are not adjacent: the write is outside. *)
  Lemma one_hot_string_ub junk junk' (a : dmat K) info_rows info :
    0 < m_rows a -> 0 < m_cols a -> m_rows a * m_cols a <= (m_rows a - 1) * m_skip a + (m_cols a - 1) ->
    one_hot_string vzero vone cast of_nat junk junk' a info_rows info = UB.
  Proof.
    intros H1 H2 H3. unfold one_hot_string. set (N := m_rows a * m_cols a) in *.
    assert (Hstep : forall c r (s : list V * list K), length (fst s) = N ->
      recode_cell of_nat a c r s = UB \/ exists s', recode_cell of_nat a c r s = Ok s' /\ length (fst s') = N).
    { intros c r [b seen] Hl. unfold recode_cell. cbn [fst] in *. destruct (rd (m_buf a) (m_off a + (m_skip a * r + c))) as [k| |] eqn:E; cbn [obind].
      - destruct (index_of k _); [|by left]. unfold wr. destruct (decide _); cbn [obind]; [|by left]. right. eexists. split; [done|]. cbn [fst]. by rewrite insert_length.
      - unfold rd in E. destruct (m_buf a !! _); discriminate.
      - by left. }
    assert (E : for_up 0 (m_cols a) (fun c b => let* s := for_up 0 (m_rows a) (recode_cell of_nat a c) (b, []) in Ok (fst s)) (fresh junk' N) = UB); [|by rewrite E].
    unfold for_up. apply (forn_ub (fun b => length b = N) _ _ _ _ (m_cols a - 1)); [apply fresh_length| |lia|].
    - intros c b Hl. destruct (forn_noThrow (fun s : list V * list K => length (fst s) = N) (m_rows a - 0) 0 (recode_cell of_nat a c) (b, []) Hl (Hstep c)) as [->|(s' & -> & Hs)]; [by left|].
      right. cbn [obind]. eauto.
    - intros b Hl. rewrite (forn_ub (fun s : list V * list K => length (fst s) = N) _ _ _ _ (m_rows a - 1)); [done|done|apply Hstep|lia|].
      intros [b' seen] Hl'. unfold recode_cell. cbn [fst] in Hl'.
      destruct (rd (m_buf a) _) as [k| |] eqn:E; cbn [obind]; [|unfold rd in E; destruct (m_buf a !! _); discriminate|done].
      destruct (index_of k _); [|done]. unfold wr. rewrite decide_False; [done|]. rewrite Hl'. lia.
  Qed.
End onehot.
