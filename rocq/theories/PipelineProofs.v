(** Proofs about the execution of vectorized pipelines. *)
From stdpp Require Import base numbers sorting list list_numbers.
From Coq Require Import Lia.
From Verif Require Import CppBase Mem DenseModel PipelineModel PipelineSpec.

Lemma for2_collect {A} n m (f : nat -> nat -> list A -> outcome (list A)) (g : nat -> nat -> A) :
  (forall r c ws, r < n -> c < m -> f r c ws = Ok (ws ++ [g r c])) ->
  for2 n m f [] = Ok (seq 0 n ≫= fun r => g r <$> seq 0 m).
Proof.
  intros Hf. destruct (for2_inv (fun r c ws => ws = (seq 0 r ≫= fun r => g r <$> seq 0 m) ++ (g r <$> seq 0 c)) n m f []) as (ws & E & ->).
  - done.
  - intros r c ws Hr Hc ->. rewrite Hf by done. eexists. split; [done|]. replace (1 + c) with (S c) by lia. rewrite seq_S, fmap_app, app_assoc. done.
  - intros r ws Hr ->. replace (1 + r) with (S r) by lia. rewrite seq_S, bind_app. cbn [mbind list_bind fmap list_fmap]. by rewrite !app_nil_r.
  - rewrite E. cbn [seq fmap list_fmap]. by rewrite app_nil_r.
Qed.

Lemma elem_of_concat {A} (x : A) (ls : list (list A)) : x ∈ concat ls <-> exists l, x ∈ l /\ l ∈ ls.
Proof.
  rewrite elem_of_list_In, in_concat. split; intros (l & H1 & H2); exists l; [split; by apply elem_of_list_In|]. by apply elem_of_list_In in H1, H2.
Qed.

Section proofs.
Context {V : Type}.
Implicit Types ins : list (pinput V).

Lemma func_inputs_seen_fit ins n r r2 : lengths_fit (pi_split <$> ins) (pi_rows <$> ins) n -> r < r2 <= n ->
  exists xs, func_inputs r r2 ins = Ok xs /\ lengths_fit (pi_split <$> ins) xs (r2 - r) /\
    (some_input_has (pi_split <$> ins) (pi_rows <$> ins) n -> some_input_has (pi_split <$> ins) xs (r2 - r)) /\
    forall i, i < r2 - r -> all_seen (pi_split <$> ins) xs i = all_seen (pi_split <$> ins) (pi_rows <$> ins) (r + i).
Proof.
  intros Hc Hr. induction ins as [|i ins IH]; [exists []; split; [done|]; split; [constructor|]; split; [by intros (? & ? & ? & _)|done]|].
  unfold lengths_fit in *. rewrite !fmap_cons in Hc. apply Forall2_cons in Hc as [Hi Hc]. destruct (IH Hc) as (xs & E & Hcx & Hw & Hs).
  assert (Hx : exists x, func_input r r2 i = Ok x /\ (pi_split i = true -> length x = r2 - r \/ length x = 1) /\
            (pi_split i = true -> length (pi_rows i) = n -> length x = r2 - r) /\
            forall t, t < r2 - r -> seen (pi_split i) x t = seen (pi_split i) (pi_rows i) (r + t)).
  { unfold func_input, is_broadcast. destruct (pi_split i) eqn:Es; cbn [negb orb].
    - destruct (Hi eq_refl) as [Hl|Hl].
      + destruct (bool_decide_reflect (length (pi_rows i) = 1)) as [H1|H1].
        * exists (pi_rows i). split; [done|]. split; [auto|]. split; [lia|]. intros t Ht. unfold seen. by rewrite !decide_True by done.
        * assert (bad_range (Z.of_nat r) (Z.of_nat r2) (length (pi_rows i)) = false) as ->.
          { unfold bad_range. apply bool_decide_eq_false_2. lia. }
          exists (take (r2 - r) (drop r (pi_rows i))). assert (Hlen : length (take (r2 - r) (drop r (pi_rows i))) = r2 - r) by (rewrite take_length, drop_length; lia).
          split; [done|]. split; [auto|]. split; [done|]. intros t Ht. unfold seen. rewrite Hlen. rewrite (decide_False (P := length (pi_rows i) = 1)) by done.
          destruct (lookup_lt_is_Some_2 (pi_rows i) (r + t)) as [row Hrow]; [lia|]. rewrite Hrow.
          assert (Hrow' : take (r2 - r) (drop r (pi_rows i)) !! t = Some row) by (by rewrite lookup_take, lookup_drop by lia).
          destruct (decide (r2 - r = 1)) as [H2|H2]; [|by rewrite Hrow']. assert (t = 0) as -> by lia.
          destruct (take (r2 - r) (drop r (pi_rows i))) as [|x0 [|x1 l]]; simpl in Hlen; [lia| |lia]. simpl in Hrow'. congruence.
      + rewrite bool_decide_eq_true_2 by done. exists (pi_rows i). split; [done|]. split; [auto|]. split; [lia|]. intros t Ht. unfold seen. by rewrite !decide_True by done.
    - exists (pi_rows i). split; [done|]. split; [done|]. split; [done|]. done. }
  destruct Hx as (x & Ex & Hlx & Hnx & Hsx). exists (x :: xs). cbn [func_inputs]. rewrite Ex, E. cbn [obind]. split; [done|]. rewrite !fmap_cons. split; [by constructor|]. split.
  - intros (j & y & Hj1 & Hj2 & Hj3). destruct j as [|j].
    + injection Hj1 as Hj1. injection Hj2 as <-. exists 0, x. split; [by simpl; f_equal|]. split; [done|]. by apply Hnx.
    + destruct Hw as (j' & x' & H1 & H2 & H3); [by exists j, y|]. by exists (S j'), x'.
  - intros t Ht. unfold all_seen. cbn [zip_with]. f_equal; [by apply Hsx|]. by apply Hs.
Qed.

Lemma func_inputs_seen valid ins n r r2 : compatible valid (pi_split <$> ins) (pi_rows <$> ins) n -> r < r2 <= n ->
  exists xs, func_inputs r r2 ins = Ok xs /\ compatible valid (pi_split <$> ins) xs (r2 - r) /\
    forall i, i < r2 - r -> all_seen (pi_split <$> ins) xs i = all_seen (pi_split <$> ins) (pi_rows <$> ins) (r + i).
Proof.
  intros (Hf & Hn & Hv) Hr. destruct (func_inputs_seen_fit ins n r r2 Hf Hr) as (xs & E & Hfx & Hnx & Hs). exists xs. split; [done|]. split; [|done].
  split; [done|]. split; [by apply Hnx|]. intros i Hi. rewrite Hs by done. apply Hv. lia.
Qed.

(** A list of assignments that fills the cells of rows [a, b). *)
Definition described (pos : nat -> nat -> nat) (w : nat) (G : nat -> nat -> V) (ws : list (nat * V)) (a b : nat) : Prop :=
  (forall p v, (p, v) ∈ ws <-> exists row c, a <= row < b /\ c < w /\ p = pos row c /\ v = G row c) /\ NoDup ws.*1.

Definition pos_ok (pos : nat -> nat -> nat) (n w : nat) : Prop :=
  forall r c r' c', r < n -> r' < n -> c < w -> c' < w -> pos r c = pos r' c' -> r = r' /\ c = c'.

Lemma described_nil pos w G a : described pos w G [] a a.
Proof. split; [|constructor]. intros p v. split; [by intros ?%elem_of_nil|]. intros (? & ? & ? & _). lia. Qed.
Lemma described_app pos n w G ws1 ws2 a b c : pos_ok pos n w -> a <= b <= c -> c <= n -> described pos w G ws1 a b -> described pos w G ws2 b c -> described pos w G (ws1 ++ ws2) a c.
Proof.
  intros Hpos Hab Hcn [H1 N1] [H2 N2]. split.
  - intros p v. rewrite elem_of_app, H1, H2. split.
    + intros [(row & k & ? & ?)|(row & k & ? & ?)]; exists row, k; (split; [lia|done]).
    + intros (row & k & ? & ?). destruct (decide (row < b)); [left|right]; exists row, k; (split; [lia|done]).
  - rewrite fmap_app. apply NoDup_app. split; [done|]. split; [|done]. intros p Hp1 Hp2.
    apply elem_of_list_fmap in Hp1 as ([p1 v1] & -> & Hp1). apply elem_of_list_fmap in Hp2 as ([p2 v2] & E & Hp2). simpl in E. subst p2.
    apply H1 in Hp1 as (r1 & c1 & ? & ? & -> & _). apply H2 in Hp2 as (r2 & c2 & ? & ? & E & _). apply Hpos in E; [|lia..]. lia.
Qed.

Lemma collect_described pos n w G a k : pos_ok pos n w -> a + k <= n ->
  described pos w G (seq 0 k ≫= fun i => (fun c => (pos (a + i) c, G (a + i) c)) <$> seq 0 w) a (a + k).
Proof.
  intros Hpos Hn. split.
  - intros p v. rewrite elem_of_list_bind. split.
    + intros (i & Hin & Hi%elem_of_seq). apply elem_of_list_fmap in Hin as (c & [= -> ->] & Hc%elem_of_seq). exists (a + i), c. split; [lia|]. split; [lia|]. done.
    + intros (row & c & Hr & Hc & -> & ->). exists (row - a). split; [|apply elem_of_seq; lia]. apply elem_of_list_fmap. exists c.
      replace (a + (row - a)) with row by lia. split; [done|]. apply elem_of_seq. lia.
  - clear -Hpos Hn. induction k as [|k IH]; [constructor|]. rewrite seq_S, bind_app, fmap_app. cbn [mbind list_bind plus]. rewrite app_nil_r.
    apply NoDup_app. split; [apply IH; lia|]. split.
    + intros p Hp1 Hp2. apply elem_of_list_fmap in Hp1 as ([p1 v1] & -> & Hp1). apply elem_of_list_bind in Hp1 as (i & Hin & Hi%elem_of_seq).
      apply elem_of_list_fmap in Hin as (c & [= -> ->] & Hc%elem_of_seq). apply elem_of_list_fmap in Hp2 as ([p2 v2] & E & Hp2).
      apply elem_of_list_fmap in Hp2 as (c' & [= -> ->] & Hc'%elem_of_seq). simpl in E. apply Hpos in E; lia.
    + rewrite <- list_fmap_compose. apply NoDup_fmap_2_strong; [|apply NoDup_seq]. intros c c' Hc%elem_of_seq Hc'%elem_of_seq E. simpl in E. apply Hpos in E; lia.
Qed.

Lemma slice_rows n m r r2 : r < r2 <= n -> dm_sliceRow (dm_new n m) (Z.of_nat r) (Z.of_nat r2) = Ok (mkD (r * m) (r2 - r) m m ((r2 - r) * m) r 0 0 0).
Proof.
  intros Hr. unfold dm_sliceRow, dm_slice. cbn [d_rows d_cols d_skip d_off dm_new].
  assert (bad_range (Z.of_nat r) (Z.of_nat r2) n = false) as -> by (unfold bad_range; apply bool_decide_eq_false_2; lia).
  assert (bad_range 0 (Z.of_nat m) m = false) as -> by (unfold bad_range; apply bool_decide_eq_false_2; lia).
  rewrite !Z.sub_0_r, !Nat2Z.id. replace (Z.to_nat (Z.of_nat r2 - Z.of_nat r)) with (r2 - r) by lia.
  replace (0 + (r * m + Z.to_nat 0)) with (r * m) by (change (Z.to_nat 0) with 0; lia). done.
Qed.
Lemma slice_cols n m r r2 : r < r2 <= m -> dm_sliceCol (dm_new n m) (Z.of_nat r) (Z.of_nat r2) = Ok (mkD r n (r2 - r) m (n * m) 0 r 0 0).
Proof.
  intros Hr. unfold dm_sliceCol, dm_slice. cbn [d_rows d_cols d_skip d_off dm_new].
  assert (bad_range 0 (Z.of_nat n) n = false) as -> by (unfold bad_range; apply bool_decide_eq_false_2; lia).
  assert (bad_range (Z.of_nat r) (Z.of_nat r2) m = false) as -> by (unfold bad_range; apply bool_decide_eq_false_2; lia).
  rewrite !Z.sub_0_r, !Nat2Z.id. replace (Z.to_nat (Z.of_nat r2 - Z.of_nat r)) with (r2 - r) by lia. done.
Qed.

(** One batch. *)
Definition pos_rows (m : nat) (r c : nat) : nat := r * m + c.
Definition pos_cols (m : nat) (r c : nat) : nat := c * m + r.
Lemma pos_rows_ok n m : pos_ok (pos_rows m) n m.
Proof. intros r c r' c' _ _ Hc Hc' E. by apply pos_inj in E. Qed.
Lemma pos_cols_ok n w : pos_ok (pos_cols n) n w.
Proof. intros r c r' c' Hr Hr' _ _ E. apply pos_inj in E; [|done|done]. naive_solver. Qed.

Lemma batch_rows n m r r2 lres x : r < r2 <= n -> is_dense lres (r2 - r) m (fun i c => x (r + i) c) ->
  exists ws, batch_writes CRows n m r r2 lres = Ok ws /\ described (pos_rows m) m x ws r r2.
Proof.
  intros Hr (_ & _ & _ & _ & Hd). unfold batch_writes. rewrite slice_rows by done. cbn [obind d_rows d_cols d_skip].
  erewrite (for2_collect _ _ _ (fun i c => (pos_rows m (r + i) c, x (r + i) c))).
  - eexists. split; [done|]. pose proof (collect_described (pos_rows m) n m x r (r2 - r) (pos_rows_ok n m)) as H. replace (r + (r2 - r)) with r2 in H by lia. apply H. lia.
  - intros i c ws Hi Hc. rewrite (rd_Ok _ _ _ (Hd i c Hi Hc)). cbn [obind]. unfold dm_start, dm_partial. cbn [d_buf d_rows d_skip d_off].
    rewrite bool_decide_eq_false_2 by tauto. unfold pos_rows. do 4 f_equal. lia.
Qed.
Lemma batch_cols w n r r2 lres x : r < r2 <= n -> is_dense lres w (r2 - r) (fun c i => x (r + i) c) ->
  exists ws, batch_writes CCols w n r r2 lres = Ok ws /\ described (pos_cols n) w x ws r r2.
Proof.
  intros Hr (_ & _ & _ & _ & Hd). unfold batch_writes. rewrite slice_cols by done. cbn [obind d_rows d_cols d_skip].
  erewrite (for2_collect _ _ _ (fun c i => (pos_cols n (r + i) c, x (r + i) c))).
  2:{ intros c i ws Hc Hi. rewrite (rd_Ok _ _ _ (Hd c i Hc Hi)). cbn [obind]. unfold dm_start, dm_partial. cbn [d_buf d_rows d_skip d_off].
      rewrite bool_decide_eq_false_2 by tauto. unfold pos_cols. do 4 f_equal. lia. }
  eexists. split; [done|]. split.
  - intros p v. rewrite elem_of_list_bind. split.
    + intros (c & Hin & Hc%elem_of_seq). apply elem_of_list_fmap in Hin as (i & [= -> ->] & Hi%elem_of_seq). exists (r + i), c. split; [lia|]. split; [lia|]. done.
    + intros (row & c & Hrow & Hc & -> & ->). exists c. split; [|apply elem_of_seq; lia]. apply elem_of_list_fmap. exists (row - r).
      replace (r + (row - r)) with row by lia. split; [done|]. apply elem_of_seq. lia.
  - clear Hd. induction w as [|w IH]; [constructor|]. rewrite seq_S, bind_app, fmap_app. cbn [mbind list_bind plus]. rewrite app_nil_r.
    apply NoDup_app. split; [done|]. split.
    + intros p Hp1 Hp2. apply elem_of_list_fmap in Hp1 as ([p1 v1] & -> & Hp1). apply elem_of_list_bind in Hp1 as (c & Hin & Hc%elem_of_seq).
      apply elem_of_list_fmap in Hin as (i & [= -> ->] & Hi%elem_of_seq). apply elem_of_list_fmap in Hp2 as ([p2 v2] & E & Hp2).
      apply elem_of_list_fmap in Hp2 as (i' & [= -> ->] & Hi'%elem_of_seq). simpl in E. unfold pos_cols in E. apply pos_inj in E; lia.
    + rewrite <- list_fmap_compose. apply NoDup_fmap_2_strong; [|apply NoDup_seq]. intros c c' Hc%elem_of_seq Hc'%elem_of_seq E. simpl in E. unfold pos_cols in E. lia.
Qed.

(** One task. *)
Lemma task_described body cb n0 m0 ins bs pos n w G : 0 < bs -> pos_ok pos n w ->
  (forall r r2, r < r2 <= n -> exists xs lres ws, func_inputs r r2 ins = Ok xs /\ body xs = Ok lres /\ batch_writes cb n0 m0 r r2 lres = Ok ws /\ described pos w G ws r r2) ->
  forall fuel r ru, ru <= n -> r <= ru -> ru - r <= fuel -> exists ws, task_loop body cb n0 m0 ins bs fuel r ru = Ok ws /\ described pos w G ws r ru.
Proof.
  intros Hbs Hpos Hb. induction fuel as [|fuel IH]; intros r ru Hn Hr Hf; cbn [task_loop].
  - rewrite decide_False by lia. exists []. split; [done|]. replace r with ru by lia. apply described_nil.
  - destruct (decide (r < ru)) as [Hlt|Hge].
    2:{ exists []. split; [done|]. replace r with ru by lia. apply described_nil. }
    destruct (Hb r (Nat.min (r + bs) ru)) as (xs & lres & ws & -> & Hbody & Hw & Hd); [lia|]. cbn [obind]. rewrite Hbody. cbn [obind]. rewrite Hw. cbn [obind].
    destruct (decide (r + bs <= ru)) as [Hle|Hgt].
    + destruct (IH (r + bs) ru) as (rest & -> & Hd'); [lia..|]. cbn [obind]. eexists. split; [done|]. rewrite Nat.min_l in Hd by lia.
      eapply described_app; [done| | |done|done]; lia.
    + assert (task_loop body cb n0 m0 ins bs fuel (r + bs) ru = Ok []) as ->. { destruct fuel; cbn [task_loop]; by rewrite decide_False by lia. }
      cbn [obind]. eexists. split; [done|]. rewrite app_nil_r. by rewrite Nat.min_r in Hd by lia.
Qed.

Lemma all_described body cb n0 m0 ins bs pos n w G ts : 0 < bs -> pos_ok pos n w -> (forall t, t ∈ ts -> fst t < snd t <= n) ->
  (forall r r2, r < r2 <= n -> exists xs lres ws, func_inputs r r2 ins = Ok xs /\ body xs = Ok lres /\ batch_writes cb n0 m0 r r2 lres = Ok ws /\ described pos w G ws r r2) ->
  exists wss, all_writes body cb n0 m0 ins bs ts = Ok wss /\ Forall2 (fun t ws => described pos w G ws (fst t) (snd t)) ts wss.
Proof.
  intros Hbs Hpos Ht Hb. induction ts as [|t ts IH]; [exists []; split; [done|constructor]|].
  destruct (IH) as (wss & E & H); [intros t' ?; apply Ht; by right|]. destruct (Ht t) as [H1 H2]; [left|].
  destruct (task_described body cb n0 m0 ins bs pos n w G Hbs Hpos Hb (snd t - fst t) (fst t) (snd t)) as (ws & Ew & Hd); [lia..|].
  exists (ws :: wss). cbn [all_writes]. unfold task_writes. rewrite Ew. cbn [obind]. rewrite E. cbn [obind]. split; [done|]. by constructor.
Qed.

Lemma write_all_spec pos n w (G : nat -> nat -> V) ws : forall b,
  (forall p v, (p, v) ∈ ws -> p < length b /\ forall row c, row < n -> c < w -> pos row c = p -> v = G row c) ->
  exists b', write_all b ws = Ok b' /\ length b' = length b /\
    forall row c, row < n -> c < w -> (pos row c ∈ ws.*1 \/ b !! pos row c = Some (G row c)) -> b' !! pos row c = Some (G row c).
Proof.
  induction ws as [|[p v] ws IH]; intros b H.
  { exists b. split; [done|]. split; [done|]. intros row c _ _ [Hn|Hb]; [by apply elem_of_nil in Hn|done]. }
  destruct (H p v) as [Hp Hv]; [left|]. cbn [write_all]. rewrite wr_Ok by done. cbn [obind].
  destruct (IH (<[p := v]> b)) as (b' & E & Hl & Hb).
  { intros p' v' Hin. rewrite insert_length. apply H. by right. }
  exists b'. split; [done|]. rewrite insert_length in Hl. split; [done|]. intros row c Hr Hc Hor. apply Hb; [done|done|].
  destruct (decide (pos row c = p)) as [Epos|Hne].
  - right. rewrite Epos. rewrite list_lookup_insert by done. by rewrite (Hv row c Hr Hc Epos).
  - rewrite list_lookup_insert_ne by done. destruct Hor as [Hin|Hbb]; [|by right]. left. rewrite fmap_cons in Hin. apply elem_of_cons in Hin as [Heq|Hin]; [by simpl in Heq|done].
Qed.

Lemma cover_nodup n w pos G ts (wss : list (list (nat * V))) : pos_ok pos n w -> tasks_cover n ts ->
  Forall2 (fun t ws => described pos w G ws (fst t) (snd t)) ts wss ->
  NoDup (concat wss).*1.
Proof.
  intros Hpos [Ht Hc] HF.
  (* all tasks before and after a given one are disjoint from it *)
  assert (Hdis : forall i j t t' r, ts !! i = Some t -> ts !! j = Some t' -> fst t <= r < snd t -> fst t' <= r < snd t' -> i = j).
  { intros i j t t' r Hi Hj H1 H2. destruct (Hc r) as (k & tk & Hk & Hkr & Hu).
    - assert (t ∈ ts) as Hin by (by eapply elem_of_list_lookup_2). specialize (Ht t Hin). lia.
    - transitivity k; [by eapply Hu|symmetry; by eapply Hu]. }
  clear Hc. revert Ht Hdis. induction HF as [|t ws ts wss Hd HF IH]; intros Ht Hdis; [constructor|]. cbn [concat]. rewrite fmap_app. apply NoDup_app. split; [apply Hd|]. split.
  - intros p Hp1 Hp2. apply elem_of_list_fmap in Hp1 as ([p1 v1] & -> & Hp1). apply elem_of_list_fmap in Hp2 as ([p2 v2] & E & Hp2). simpl in E. subst p2.
    apply elem_of_concat in Hp2 as (ws' & Hp2 & Hin). apply elem_of_list_lookup_1 in Hin as (j & Hj).
    destruct (Forall2_lookup_r _ _ _ _ _ HF Hj) as (t' & Ht' & Hd'). apply Hd in Hp1 as (r1 & c1 & H1 & H1c & -> & _). apply Hd' in Hp2 as (r2 & c2 & H2 & H2c & E & _).
    assert (fst t < snd t <= n) by (apply Ht; left). assert (fst t' < snd t' <= n) by (apply Ht; right; by eapply elem_of_list_lookup_2).
    apply Hpos in E as [-> ->]; [|lia..]. assert (0 = S j); [|lia]. by eapply (Hdis 0 (S j) t t' r2).
  - apply IH; [intros t' ?; apply Ht; by right|]. intros i j u u' r Hi Hj H1 H2. assert (S i = S j); [|lia]. by eapply (Hdis (S i) (S j) u u' r).
Qed.

(** Any interleaving of the assignments of all tasks fills the result. *)
Lemma interleaved n w pos G ts (wss : list (list (nat * V))) ws b len : pos_ok pos n w -> tasks_cover n ts ->
  Forall2 (fun t ws => described pos w G ws (fst t) (snd t)) ts wss ->
  (forall r c, r < n -> c < w -> pos r c < len) -> length b = len ->
  ws ≡ₚ concat wss ->
  exists b', write_all b ws = Ok b' /\ length b' = len /\ forall r c, r < n -> c < w -> b' !! pos r c = Some (G r c).
Proof.
  intros Hpos Hcov HF Hlen Hb Hperm. destruct Hcov as [Ht Hc].
  destruct (write_all_spec pos n w G ws b) as (b' & E & Hl & Hall).
  - intros p v Hin. rewrite Hperm in Hin. apply elem_of_concat in Hin as (ws' & Hp & Hin). apply elem_of_list_lookup_1 in Hin as (j & Hj).
    destruct (Forall2_lookup_r _ _ _ _ _ HF Hj) as (t & Htj & Hd). assert (fst t < snd t <= n) as Htn by (apply Ht; by eapply elem_of_list_lookup_2).
    apply Hd in Hp as (row & c & Hr & Hcw & -> & ->). split; [rewrite Hb; apply Hlen; lia|]. intros row' c' Hr' Hc' E. apply Hpos in E as [-> ->]; [done|lia..].
  - exists b'. split; [done|]. split; [lia|]. intros r c Hr Hcw. apply Hall; [done|done|]. left. rewrite Hperm.
    destruct (Hc r Hr) as (i & t & Hi & Htr & _). destruct (Forall2_lookup_l _ _ _ _ _ HF Hi) as (ws' & Hws & Hd).
    apply elem_of_list_fmap. exists (pos r c, G r c). split; [done|]. apply elem_of_concat. exists ws'. split; [|by eapply elem_of_list_lookup_2].
    apply Hd. by exists r, c.
Qed.
End proofs.
