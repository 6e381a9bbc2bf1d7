(** C34: bitmaps and position lists. *)
From stdpp Require Import base numbers sorting list list_numbers.
From Coq Require Import Lia.
From Verif Require Import CppBase Mem BitmapModel.
Local Open Scope nat_scope.

(** The matrix [a] is a column with the entries [l]. *)
Definition column (a : dmat Z) (l : list Z) : Prop := is_dense a (length l) 1 (fun r _ => l !!! r).
(** The bitmap with [n] rows for the positions [l]. *)
Definition bitmap (n : nat) (l : list Z) : list Z := (fun r => if decide (Z.of_nat r ∈ l) then 1%Z else 0%Z) <$> seq 0 n.
(** The rows of a bitmap that are set, in order. *)
Definition positions (bm : list Z) : list Z := Z.of_nat <$> filter (fun r => bm !! r = Some 1%Z) (seq 0 (length bm)).

Lemma column_mk (l : list Z) buf : take (length l) buf = l -> column (mkDM buf 0 (length l) 1 1) l.
Proof.
  intros Ht. assert (Hl : length l <= length buf). { rewrite <- Ht at 1. rewrite take_length. lia. }
  split; [done|]. split; [done|]. split; [done|]. split; [cbn; lia|]. intros r c Hr Hc. cbn. rewrite Nat.mul_1_r. replace (r + c) with r by lia. rewrite <- (lookup_take buf (length l) r) by done. rewrite Ht. by apply list_lookup_lookup_total_lt.
Qed.
Lemma column_at a l r : column a l -> r < length l -> dm_at a r 0 = Ok (l !!! r).
Proof. intros Hc Hr. apply (dm_at_Ok a (length l) 1 (fun r _ => l !!! r)); [exact Hc|done|lia]. Qed.
Lemma to_size_id k : (Z.of_nat k < 2 ^ 64)%Z -> to_size (Z.of_nat k) = k.
Proof. intros Hk. unfold to_size. rewrite Z.mod_small by lia. lia. Qed.

(** Positions below the number of rows: the result has a one exactly at the listed positions (the list may be in any order and have
    duplicates). *)
Theorem C34_to_bitmap a l n : column a l -> (Z.of_nat n < 2 ^ 64)%Z -> Forall (fun p => 0 <= p < Z.of_nat n)%Z l ->
  exists res, pos_to_bitmap a n = Ok res /\ column res (bitmap n l).
Proof.
  intros Hc Hn Hl. pose proof Hc as (Hr & Hm & _). unfold pos_to_bitmap. rewrite decide_False by (intros E; by apply E). rewrite Hr.
  match goal with |- context [for_up 0 (length l) ?f ?s0] =>
    destruct (for_up_inv (fun k (res : list Z) => res = bitmap n (take k l)) 0 (length l) f s0) as (res & E & ->) end.
  - lia.
  - unfold bitmap. apply list_eq. intros i. rewrite list_lookup_fmap. destruct (decide (i < n)) as [Hi|Hi].
    + rewrite lookup_seq_lt, lookup_replicate_2 by done. cbn. rewrite decide_False; [done|]. apply not_elem_of_nil.
    + rewrite lookup_seq_ge by lia. rewrite lookup_ge_None_2 by (rewrite replicate_length; lia). done.
  - intros k res Hk ->. rewrite (column_at a l) by (done || lia). cbn [obind]. destruct (lookup_lt_is_Some_2 l k) as [p Hp]; [lia|]. rewrite (list_lookup_total_correct _ _ _ Hp).
    rewrite Forall_lookup in Hl. specialize (Hl _ _ Hp). assert (Ep : p = Z.of_nat (Z.to_nat p)) by lia. remember (Z.to_nat p) as q. subst p. rewrite to_size_id by lia.
    rewrite decide_False by lia. rewrite Nat.mul_1_r. rewrite wr_Ok by (unfold bitmap; rewrite fmap_length, seq_length; lia). eexists. split; [done|].
    replace (1 + k) with (S k) by lia. rewrite (take_S_r _ _ _ Hp). unfold bitmap. apply list_eq. intros i. destruct (decide (i < n)) as [Hi|Hi].
    + rewrite (list_lookup_fmap _ (seq 0 n) i), lookup_seq_lt by done. cbn. destruct (decide (i = q)) as [->|Hne].
      * rewrite list_lookup_insert by (rewrite fmap_length, seq_length; lia). f_equal. rewrite decide_True; [done|]. apply elem_of_app. right. by left.
      * rewrite list_lookup_insert_ne by done. rewrite list_lookup_fmap, lookup_seq_lt by done. cbn. f_equal. apply decide_ext. rewrite elem_of_app, elem_of_list_singleton. split; [by left|]. intros [?|?]; [done|lia].
    + rewrite !lookup_ge_None_2; [done| |]; rewrite ?insert_length, fmap_length, seq_length; lia.
  - rewrite E. cbn [obind]. eexists. split; [done|]. rewrite (take_ge l) by lia. assert (En : length (bitmap n l) = n) by (unfold bitmap; by rewrite fmap_length, seq_length).
    rewrite <- En at 2. apply column_mk. by rewrite take_ge.
Qed.

(** A bitmap to positions: exactly the rows whose value is 1, in increasing order. *)
Theorem C34_to_positions junk a bm : column a bm -> length junk = length bm ->
  exists res, bitmap_to_pos junk a = Ok res /\ column res (positions bm).
Proof.
  intros Hc Hj. pose proof Hc as (Hr & Hm & _). unfold bitmap_to_pos. rewrite decide_False by (intros E; by apply E). rewrite Hr.
  match goal with |- context [for_up 0 (length bm) ?f ?s0] =>
    destruct (for_up_inv (fun k (s : list Z * nat) => length (fst s) = length bm /\ snd s <= k /\ take (snd s) (fst s) = Z.of_nat <$> filter (fun r => bm !! r = Some 1%Z) (seq 0 k)) 0 (length bm) f s0) as ([res cnt] & E & Hlen & Hcnt & Ht) end.
  - lia.
  - done.
  - intros k [res cnt] Hk (Hlen & Hcnt & Ht). cbn [fst snd] in *. rewrite (column_at a bm) by (done || lia). cbn [obind]. destruct (lookup_lt_is_Some_2 bm k) as [v Hv]; [lia|]. rewrite (list_lookup_total_correct _ _ _ Hv).
    replace (1 + k) with (S k) by lia. rewrite seq_S, filter_app, fmap_app, filter_cons, filter_nil. cbn [plus]. rewrite Hv. case_decide as Hd.
    + subst v. rewrite wr_Ok by lia. cbn [obind]. eexists. split; [done|]. cbn [fst snd]. rewrite insert_length. split; [done|]. split; [lia|]. rewrite decide_True by done. rewrite <- Ht.
      replace (cnt + 1) with (S cnt) by lia. rewrite (take_S_r _ _ (Z.of_nat k)) by (apply list_lookup_insert; lia). rewrite take_insert by lia. done.
    + rewrite decide_False by (intros [=]; done). exists (res, cnt). split; [done|]. cbn [fst snd]. split; [done|]. split; [lia|]. rewrite app_nil_r. done.
  - rewrite E. cbn [obind fst snd] in *. rewrite decide_False by lia. eexists. split; [done|]. fold (positions bm) in Ht.
    assert (Hp : length (positions bm) = cnt). { rewrite <- Ht, take_length. lia. } rewrite <- Hp at 1. apply column_mk. by rewrite Hp.
Qed.

Lemma bitmap_lookup n l r : r < n -> bitmap n l !! r = Some (if decide (Z.of_nat r ∈ l) then 1%Z else 0%Z).
Proof. intros Hr. unfold bitmap. by rewrite list_lookup_fmap, lookup_seq_lt. Qed.
Lemma bitmap_length n l : length (bitmap n l) = n.
Proof. unfold bitmap. by rewrite fmap_length, seq_length. Qed.
Lemma list_filter_iff' {A} (P Q : A -> Prop) `{!forall x, Decision (P x), !forall x, Decision (Q x)} (l : list A) : (forall x, x ∈ l -> P x <-> Q x) -> filter P l = filter Q l.
Proof.
  induction l as [|x l IH]; intros Hl; [done|]. rewrite !filter_cons, IH by (intros y Hy; apply Hl; by right). destruct (Hl x (elem_of_list_here _ _)) as [H1 H2].
  destruct (decide (P x)) as [Hp|Hp]; [rewrite decide_True by auto|rewrite decide_False by auto]; done.
Qed.
Lemma filter_seq_sorted (l : list nat) a k : StronglySorted lt l -> Forall (fun x => a <= x < a + k) l -> filter (fun r => r ∈ l) (seq a k) = l.
Proof.
  revert l a. induction k as [|k IH]; intros l a Hs Hl; cbn [seq].
  - destruct l as [|x l]; [done|]. apply Forall_cons in Hl as [? _]. lia.
  - rewrite filter_cons. destruct l as [|x l].
    + rewrite decide_False by apply not_elem_of_nil. rewrite (IH [] (S a)); [done|constructor|constructor].
    + pose proof Hs as Hs'. apply StronglySorted_inv in Hs' as [Hs1 Hx]. pose proof Hl as Hl0. apply Forall_cons in Hl0 as [Hxa Hl1]. destruct (decide (x = a)) as [->|Hne].
      * rewrite decide_True by left. f_equal. trans (filter (fun r => r ∈ l) (seq (S a) k)); [|apply IH; [done|]].
        -- apply list_filter_iff'. intros y Hy. apply elem_of_seq in Hy. rewrite elem_of_cons. split; [intros [->|?]; [lia|done]|by right].
        -- rewrite Forall_forall in Hx, Hl1 |- *. intros y Hy. specialize (Hx y Hy). specialize (Hl1 y Hy). lia.
      * rewrite decide_False.
        -- apply IH; [done|]. rewrite Forall_forall in Hl, Hx |- *. intros y Hy. specialize (Hl y Hy). apply elem_of_cons in Hy as [->|Hy]; [lia|]. specialize (Hx y Hy). lia.
        -- rewrite elem_of_cons. intros [?|Hin]; [done|]. rewrite Forall_forall in Hx. specialize (Hx _ Hin). lia.
Qed.

(** Positions to bitmap and back, for strictly increasing positions below the number of rows. *)
Theorem C34_positions_round_trip junk a l n : column a l -> (Z.of_nat n < 2 ^ 64)%Z -> Forall (fun p => 0 <= p < Z.of_nat n)%Z l -> StronglySorted Z.lt l -> length junk = n ->
  exists bm res, pos_to_bitmap a n = Ok bm /\ bitmap_to_pos junk bm = Ok res /\ column res l.
Proof.
  intros Hc Hn Hl Hs Hj. destruct (C34_to_bitmap a l n Hc Hn Hl) as (bm & E & Hbm). destruct (C34_to_positions junk bm (bitmap n l) Hbm) as (res & E2 & Hres); [by rewrite bitmap_length|].
  exists bm, res. split; [done|]. split; [done|]. replace l with (positions (bitmap n l)); [done|]. unfold positions. rewrite bitmap_length.
  assert (El : Z.of_nat <$> (Z.to_nat <$> l) = l). { rewrite <- list_fmap_compose. rewrite <- (list_fmap_id l) at 2. apply list_fmap_ext. intros i p Hp. rewrite Forall_lookup in Hl. specialize (Hl _ _ Hp). cbn. lia. }
  trans (Z.of_nat <$> (Z.to_nat <$> l)); [|done]. f_equal. trans (filter (fun r => r ∈ Z.to_nat <$> l) (seq 0 n)); [|apply filter_seq_sorted].
  - apply list_filter_iff'. intros r Hr. apply elem_of_seq in Hr. rewrite bitmap_lookup by lia. rewrite elem_of_list_fmap. case_decide as Hd.
    + split; [|done]. intros _. exists (Z.of_nat r). split; [lia|done].
    + split; [done|]. intros (p & -> & Hp). rewrite Forall_forall in Hl. specialize (Hl _ Hp). rewrite Z2Nat.id in Hd by lia. done.
  - clear -Hs Hl. induction Hs as [|p l Hs IH Hp]; [constructor|]. apply Forall_cons in Hl as [Hp0 Hl]. rewrite fmap_cons. constructor; [by apply IH|]. apply Forall_forall. rewrite Forall_forall in Hp, Hl. intros q Hq. apply elem_of_list_fmap in Hq as (q' & -> & Hq'). specialize (Hp _ Hq'). specialize (Hl _ Hq'). lia.
  - rewrite Forall_fmap. eapply Forall_impl; [exact Hl|]. intros p Hp. cbn beta in Hp. unfold compose. lia.
Qed.
(** Bitmap to positions and back, for bitmaps of zeros and ones. *)
Theorem C34_bitmap_round_trip junk a bm : column a bm -> (Z.of_nat (length bm) < 2 ^ 64)%Z -> Forall (fun v => v = 0 \/ v = 1)%Z bm -> length junk = length bm ->
  exists p res, bitmap_to_pos junk a = Ok p /\ pos_to_bitmap p (length bm) = Ok res /\ column res bm.
Proof.
  intros Hc Hn Hb Hj. destruct (C34_to_positions junk a bm Hc Hj) as (p & E & Hp). destruct (C34_to_bitmap p (positions bm) (length bm) Hp Hn) as (res & E2 & Hres).
  { unfold positions. rewrite Forall_fmap, Forall_forall. intros r Hr. apply elem_of_list_filter in Hr as [_ Hr]. apply elem_of_seq in Hr. cbn. lia. }
  exists p, res. split; [done|]. split; [done|]. replace bm with (bitmap (length bm) (positions bm)) at 1; [done|]. apply list_eq. intros r. destruct (decide (r < length bm)) as [Hr|Hr].
  - rewrite bitmap_lookup by done. destruct (lookup_lt_is_Some_2 bm r Hr) as [v Hv]. rewrite Hv. f_equal.
    assert (Hin : Z.of_nat r ∈ positions bm <-> v = 1%Z). { unfold positions. rewrite elem_of_list_fmap. split.
      - intros (r' & Er & Hr'). apply Nat2Z.inj in Er. subst r'. apply elem_of_list_filter in Hr' as [H1 _]. congruence.
      - intros ->. exists r. split; [done|]. apply elem_of_list_filter. split; [done|]. apply elem_of_seq. lia. }
    rewrite Forall_lookup in Hb. specialize (Hb _ _ Hv). case_decide as Hd; [apply Hin in Hd; done|]. destruct Hb as [->| ->]; [done|]. exfalso. apply Hd. by apply Hin.
  - rewrite !lookup_ge_None_2; [done|lia|]. rewrite bitmap_length. lia.
Qed.
(** Positions that are too large: the first one beyond the length throws, but the position equal to the length is written to, outside the
    bitmap. *)
Theorem C34_too_large a l1 p l2 n : column a (l1 ++ p :: l2) -> (Z.of_nat n < 2 ^ 64)%Z -> Forall (fun p => 0 <= p < Z.of_nat n)%Z l1 -> (Z.of_nat n < p mod 2 ^ 64)%Z ->
  pos_to_bitmap a n = Throw.
Proof.
  intros Hc Hn Hl Hp. pose proof Hc as (Hr & Hm & _). unfold pos_to_bitmap. rewrite decide_False by (intros E; by apply E). rewrite Hr. unfold for_up. rewrite Nat.sub_0_r.
  rewrite app_length. cbn [length]. rewrite forn_app.
  match goal with |- context [forn (length l1) 0 ?f ?s0] =>
    destruct (for_up_inv (fun k (res : list Z) => length res = n) 0 (length l1) f s0) as (res & E & Hres) end.
  - lia.
  - by rewrite replicate_length.
  - intros k res Hk Hres. rewrite (column_at a (l1 ++ p :: l2)) by (done || rewrite app_length; lia). cbn [obind]. rewrite lookup_total_app_l by lia.
    destruct (lookup_lt_is_Some_2 l1 k) as [q Hq]; [lia|]. rewrite (list_lookup_total_correct _ _ _ Hq). rewrite Forall_lookup in Hl. specialize (Hl _ _ Hq).
    replace q with (Z.of_nat (Z.to_nat q)) by lia. rewrite to_size_id by lia. rewrite decide_False by lia. rewrite wr_Ok by lia. eexists. split; [done|]. by rewrite insert_length.
  - unfold for_up in E. rewrite Nat.sub_0_r in E. rewrite E. cbn [obind forn]. rewrite (column_at a (l1 ++ p :: l2)) by (done || rewrite app_length; cbn; lia). cbn [obind].
    rewrite (lookup_total_app_r l1) by lia. replace (0 + length l1 - length l1) with 0 by lia. cbn [lookup_total list_lookup_total]. rewrite decide_True; [done|]. unfold to_size. lia.
Qed.
Theorem C34_boundary_refuted n : (Z.of_nat n < 2 ^ 64)%Z -> pos_to_bitmap (mkDM [Z.of_nat n] 0 1 1 1) n = UB.
Proof.
  intros Hn. unfold pos_to_bitmap. cbn [m_cols m_rows]. rewrite decide_False by lia. unfold for_up. cbn [forn Nat.sub]. unfold dm_at. cbn [m_buf m_off m_skip]. rewrite (rd_Ok _ _ (Z.of_nat n)) by done. cbn [obind].
  rewrite to_size_id by done. rewrite decide_False by lia. unfold wr. rewrite decide_False; [done|]. rewrite replicate_length. lia.
Qed.

(** A bitmap that is a column of a wider matrix (rowSkip 3). *)
Definition c34_a : dmat Z := mkDM [7; 1; 7; 7; 0; 7; 7; 1; 7; 7; 1; 7]%Z 1 4 1 3.
Example C34_ex : column c34_a [1; 0; 1; 1]%Z /\ bitmap_to_pos [9; 9; 9; 9]%Z c34_a = Ok (mkDM [0; 2; 3; 9]%Z 0 3 1 1) /\
  pos_to_bitmap (mkDM [3; 0; 2; 0]%Z 0 4 1 1) 5 = Ok (mkDM [1; 0; 1; 1; 0]%Z 0 5 1 1).
Proof.
  split; [|vm_compute; done]. split; [done|]. split; [done|]. split; [cbn; lia|]. split; [right; cbn; lia|]. intros r c Hr Hc. destruct c as [|c]; [|lia]. cbn in Hr. destruct r as [|[|[|[|r]]]]; (done || lia).
Qed.
Example C34_ex_negative : pos_to_bitmap (mkDM [2; -1]%Z 0 2 1 1) 5 = Throw.
Proof. apply (C34_too_large _ [2%Z] (-1)%Z [] 5); [apply (column_mk [2; -1]%Z); done|lia|apply Forall_singleton; lia|done]. Qed.

Print Assumptions C34_to_bitmap.
Print Assumptions C34_to_positions.
Print Assumptions C34_positions_round_trip.
Print Assumptions C34_bitmap_round_trip.
Print Assumptions C34_too_large.
Print Assumptions C34_boundary_refuted.
