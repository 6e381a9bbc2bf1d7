(** C43: selecting rows and columns by position. C44: filtering rows and columns by a bit column. C45: the same on the bytes of a frame. *)
From stdpp Require Import base numbers sorting list list_numbers.
From Coq Require Import Lia.
From Verif Require Import CppBase Mem BitmapModel Bitmap ExtractModel.
Local Open Scope nat_scope.

(** * Specification *)
(** The position that index [v] denotes in a sequence of [n]: negative indexes count from the end. *)
Definition sel_pos (n : nat) (v : Z) : option nat :=
  if decide (0 <= v < Z.of_nat n)%Z then Some (Z.to_nat v)
  else if decide (- Z.of_nat n <= v < 0)%Z then Some (n - Z.to_nat (- v)) else None.
(** The positions whose bit is not zero, in increasing order. *)
Definition kept (bits : list Z) : list nat := filter (fun i => bits !!! i <> 0%Z) (seq 0 (length bits)).
(** Indexes fit a 64-bit integer. *)
Definition int64s (l : list Z) : Prop := Forall (fun v => - 2 ^ 63 <= v < 2 ^ 63)%Z l.

(** * Loops *)
Lemma for_up_throws {St} (P : St -> Prop) lo hi (f : nat -> St -> outcome St) s k : lo <= k < hi -> P s ->
  (forall i s, lo <= i < hi -> P s -> f i s = Throw \/ exists s', f i s = Ok s' /\ P s') -> (forall s, P s -> f k s = Throw) -> for_up lo hi f s = Throw.
Proof.
  intros Hk. unfold for_up. remember (hi - lo) as n eqn:Hn. revert lo s Hk Hn. induction n as [|n IH]; intros lo s Hk Hn HP Hf Hbad; [lia|]. cbn [forn].
  destruct (Hf lo s) as [->|(s' & E & HP')]; [lia|done|done|]. rewrite E. cbn [obind]. destruct (decide (lo = k)) as [->|].
  - rewrite Hbad in E by done. done.
  - apply IH; [lia|lia|done| |done]. intros i t Hi. apply Hf. lia.
Qed.

Lemma sel_index_spec n v : (Z.of_nat n < 2 ^ 63)%Z -> (- 2 ^ 63 <= v < 2 ^ 63)%Z -> sel_index v n = match sel_pos n v with Some p => Ok p | None => Throw end.
Proof.
  intros Hn Hv. unfold sel_index, sel_pos, to_size. destruct (decide (v < 0)%Z) as [H0|H0].
  - rewrite (decide_False (P := (0 <= v < _)%Z)) by lia. destruct (decide (- Z.of_nat n <= v < 0)%Z).
    + rewrite decide_False by lia. rewrite Z.mod_small by lia. rewrite decide_False by lia. f_equal. lia.
    + rewrite decide_True by lia. done.
  - rewrite decide_False by lia. rewrite Z.mod_small by lia. destruct (decide (0 <= v < Z.of_nat n)%Z).
    + rewrite decide_False by lia. done.
    + rewrite decide_True by lia. rewrite decide_False by lia. done.
Qed.
Lemma sel_pos_lt n v p : sel_pos n v = Some p -> p < n.
Proof. unfold sel_pos. repeat case_decide; intros [= <-]; lia. Qed.

(** the reads of the selection *)
Definition reads_sel (at_ : dmat Z -> nat -> outcome Z) (sel : dmat Z) (l : list Z) : Prop := forall r, r < length l -> at_ sel r = Ok (l !!! r).
Lemma reads_get sel l : column sel l -> reads_sel sel_get sel l.
Proof. intros Hc r Hr. by apply column_at. Qed.
Lemma reads_raw sel l : column sel l -> m_skip sel = 1 \/ length l <= 1 -> reads_sel sel_raw sel l.
Proof.
  intros Hc Hs r Hr. unfold sel_raw. pose proof Hc as (_ & _ & _ & _ & H). apply rd_Ok. specialize (H r 0 Hr ltac:(lia)). rewrite <- H. f_equal.
  destruct Hs as [->|Hs]; [lia|]. assert (r = 0) as -> by lia. lia.
Qed.

Lemma int64s_at l r : int64s l -> r < length l -> (- 2 ^ 63 <= l !!! r < 2 ^ 63)%Z.
Proof. intros H Hr. destruct (lookup_lt_is_Some_2 l r Hr) as [v Hv]. rewrite (list_lookup_total_correct _ _ _ Hv). by apply (Forall_lookup_1 _ _ _ _ H Hv). Qed.
Lemma Forall2_at {A B} `{!Inhabited A, !Inhabited B} (R : A -> B -> Prop) l k r : Forall2 R l k -> r < length l -> R (l !!! r) (k !!! r).
Proof.
  intros H Hr. destruct (lookup_lt_is_Some_2 l r Hr) as [v Hv]. destruct (Forall2_lookup_l _ _ _ _ _ H Hv) as (w & Hw & HR).
  by rewrite (list_lookup_total_correct _ _ _ Hv), (list_lookup_total_correct _ _ _ Hw).
Qed.

Section Dense.
  Context {V : Type}.
  Implicit Types (a : dmat V) (x : nat -> nat -> V).
  Lemma extract_row_ok at_ junk a sel n m x l ps : is_dense a n m x -> column sel l -> reads_sel at_ sel l -> (Z.of_nat n < 2 ^ 63)%Z -> int64s l ->
    Forall2 (fun v p => sel_pos n v = Some p) l ps -> length junk = length l * m ->
    exists res, extract_row_with at_ junk a sel = Ok res /\ is_dense res (length l) m (fun r c => x (ps !!! r) c).
  Proof.
    intros Ha (Hrs & Hcs & _) Hat Hn H64 Hps Hj. pose proof Ha as (Ra & Ca & _). unfold extract_row_with. rewrite Hcs, Hrs, Ra, Ca. rewrite decide_False by lia.
    destruct (for2_tabulate (length l) m (fun r c b => wr b (r * m + c) (x (ps !!! r) c)) (fun r c => x (ps !!! r) c) junk Hj) as (b & E & Hb); [done|].
    unfold for2 in E. erewrite for_up_ext.
    - rewrite E. cbn [obind]. eexists. split; [done|]. by apply tabulated_is_dense.
    - intros r b' Hr. rewrite Hat by lia. cbn [obind]. rewrite sel_index_spec; [|done|by apply int64s_at; [|lia]].
      pose proof (Forall2_at _ _ _ r Hps ltac:(lia)) as Hp. cbn beta in Hp. rewrite Hp. cbn [obind]. apply for_up_ext. intros c b'' Hc.
      pose proof (dm_at_Ok a n m x (ps !!! r) c Ha (sel_pos_lt _ _ _ Hp) ltac:(lia)) as Hx. unfold dm_at in Hx. rewrite Hx. done.
  Qed.
  Lemma extract_row_bad at_ junk a sel n m x l : is_dense a n m x -> column sel l -> reads_sel at_ sel l -> (Z.of_nat n < 2 ^ 63)%Z -> int64s l ->
    Exists (fun v => sel_pos n v = None) l -> length junk = length l * m -> extract_row_with at_ junk a sel = Throw.
  Proof.
    intros Ha (Hrs & Hcs & _) Hat Hn H64 Hbad Hj. pose proof Ha as (Ra & Ca & _). unfold extract_row_with. rewrite Hcs, Hrs, Ra, Ca. rewrite decide_False by lia.
    apply Exists_exists in Hbad as (v & Hv & Hnone). apply elem_of_list_lookup in Hv as (k & Hk).
    match goal with |- context [for_up 0 (length l) ?f ?s0] => rewrite (for_up_throws (fun b : list V => length b = length l * m) 0 (length l) f s0 k) end; [done| |done| |].
    - apply lookup_lt_Some in Hk. lia.
    - intros r b Hr Hb. pose proof (sel_index_spec n (l !!! r) Hn (int64s_at l r H64 ltac:(lia))) as Hi. pose proof (Hat r ltac:(lia)) as Hv.
      destruct (sel_pos n (l !!! r)) as [p|] eqn:Hp; [right|left; by rewrite Hv; cbn [obind]; rewrite Hi]. rewrite Hv. cbn [obind]. rewrite Hi. cbn [obind].
      match goal with |- context [for_up 0 m ?f ?s0] => destruct (for_up_inv (fun _ (b : list V) => length b = length l * m) 0 m f s0) as (b' & E & Hb') end; [lia|done| |eauto].
      intros c b' Hc Hb'. pose proof (dm_at_Ok a n m x p c Ha (sel_pos_lt _ _ _ Hp) ltac:(lia)) as Hx. unfold dm_at in Hx. rewrite Hx. cbn [obind].
      rewrite wr_Ok by (rewrite Hb'; apply pos_lt; lia). eexists. split; [done|]. by rewrite insert_length.
    - intros b Hb. rewrite Hat by (apply lookup_lt_Some in Hk; lia). cbn [obind]. rewrite sel_index_spec; [|done|apply int64s_at; [done|by apply lookup_lt_Some in Hk]].
      rewrite (list_lookup_total_correct _ _ _ Hk), Hnone. done.
  Qed.

  Lemma extract_col_ok at_ junk a sel n m x l ps : is_dense a n m x -> column sel l -> reads_sel at_ sel l -> (Z.of_nat m < 2 ^ 63)%Z -> int64s l ->
    Forall2 (fun v p => sel_pos m v = Some p) l ps -> length junk = n * length l ->
    exists res, extract_col_with at_ junk a sel = Ok res /\ is_dense res n (length l) (fun r c => x r (ps !!! c)).
  Proof.
    intros Ha (Hrs & Hcs & _) Hat Hn H64 Hps Hj. pose proof Ha as (Ra & Ca & _). unfold extract_col_with. rewrite Hcs, Hrs, Ra, Ca. rewrite decide_False by lia.
    match goal with |- context [for2 n (length l) ?f ?s0] => destruct (for2_tabulate n (length l) f (fun r c => x r (ps !!! c)) junk Hj) as (b & E & Hb) end.
    - intros r c b Hr Hc _. rewrite Hat by lia. cbn [obind]. rewrite sel_index_spec; [|done|by apply int64s_at].
      pose proof (Forall2_at _ _ _ c Hps Hc) as Hp. cbn beta in Hp. rewrite Hp. cbn [obind].
      pose proof (dm_at_Ok a n m x r (ps !!! c) Ha Hr (sel_pos_lt _ _ _ Hp)) as Hx. unfold dm_at in Hx. rewrite Hx. done.
    - rewrite E. cbn [obind]. eexists. split; [done|]. by apply tabulated_is_dense.
  Qed.
  Lemma extract_col_bad at_ junk a sel n m x l : is_dense a n m x -> column sel l -> reads_sel at_ sel l -> (Z.of_nat m < 2 ^ 63)%Z -> int64s l ->
    0 < n -> Exists (fun v => sel_pos m v = None) l -> length junk = n * length l -> extract_col_with at_ junk a sel = Throw.
  Proof.
    intros Ha (Hrs & Hcs & _) Hat Hn H64 Hn0 Hbad Hj. pose proof Ha as (Ra & Ca & _). unfold extract_col_with. rewrite Hcs, Hrs, Ra, Ca. rewrite decide_False by lia.
    apply Exists_exists in Hbad as (v & Hv & Hnone). apply elem_of_list_lookup in Hv as (k & Hk). unfold for2.
    assert (Hrow : forall r b, r < n -> length b = n * length l -> for_up 0 (length l) (fun c b => let* v := at_ sel c in let* i := sel_index v m in
      let* y := rd (m_buf a) (m_off a + r * m_skip a + i) in wr b (r * length l + c) y) b = Throw).
    { intros r b Hr Hb. apply (for_up_throws (fun b : list V => length b = n * length l) 0 (length l) _ b k); [|done| |].
      - apply lookup_lt_Some in Hk. lia.
      - intros c b' Hc Hb'. pose proof (sel_index_spec m (l !!! c) Hn (int64s_at l c H64 ltac:(lia))) as Hi. pose proof (Hat c ltac:(lia)) as Hv.
        destruct (sel_pos m (l !!! c)) as [p|] eqn:Hp; [right|left; by rewrite Hv; cbn [obind]; rewrite Hi]. rewrite Hv. cbn [obind]. rewrite Hi. cbn [obind]. pose proof (dm_at_Ok a n m x r p Ha Hr (sel_pos_lt _ _ _ Hp)) as Hx. unfold dm_at in Hx. rewrite Hx. cbn [obind].
        rewrite wr_Ok by (rewrite Hb'; apply pos_lt; lia). eexists. split; [done|]. by rewrite insert_length.
      - intros b' Hb'. rewrite Hat by (apply lookup_lt_Some in Hk; lia). cbn [obind]. rewrite sel_index_spec; [|done|apply int64s_at; [done|by apply lookup_lt_Some in Hk]].
        rewrite (list_lookup_total_correct _ _ _ Hk), Hnone. done. }
    rewrite (for_up_throws (fun b : list V => length b = n * length l) 0 n _ junk 0); [done|lia|done| |].
    - intros r b Hr Hb. left. apply Hrow; [lia|done].
    - intros b Hb. by apply Hrow.
  Qed.
End Dense.

(** * C43 *)
(** Row [r] of the result is the row that the [r]-th index denotes; the argument may be stored with any stride, the selection may have
    duplicates and be in any order. *)
Theorem C43_extract_rows {V} junk (a : dmat V) sel n m x l ps : is_dense a n m x -> column sel l -> m_skip sel = 1 \/ length l <= 1 -> (Z.of_nat n < 2 ^ 63)%Z -> int64s l ->
  Forall2 (fun v p => sel_pos n v = Some p) l ps -> length junk = length l * m ->
  exists res, extract_row junk a sel = Ok res /\ is_dense res (length l) m (fun r c => x (ps !!! r) c).
Proof. intros Ha Hc Hs. apply extract_row_ok; [done|done|by apply reads_raw]. Qed.
Theorem C43_extract_cols {V} junk (a : dmat V) sel n m x l ps : is_dense a n m x -> column sel l -> m_skip sel = 1 \/ length l <= 1 -> (Z.of_nat m < 2 ^ 63)%Z -> int64s l ->
  Forall2 (fun v p => sel_pos m v = Some p) l ps -> length junk = n * length l ->
  exists res, extract_col junk a sel = Ok res /\ is_dense res n (length l) (fun r c => x r (ps !!! c)).
Proof. intros Ha Hc Hs. apply extract_col_ok; [done|done|by apply reads_raw]. Qed.
(** An index that denotes no position is reported; nothing is read outside the argument. *)
Theorem C43_rejects {V} junk (a : dmat V) sel n m x l : is_dense a n m x -> column sel l -> m_skip sel = 1 \/ length l <= 1 -> (Z.of_nat n < 2 ^ 63)%Z -> (Z.of_nat m < 2 ^ 63)%Z -> int64s l ->
  (Exists (fun v => sel_pos n v = None) l -> length junk = length l * m -> extract_row junk a sel = Throw) /\
  (Exists (fun v => sel_pos m v = None) l -> 0 < n -> length junk = n * length l -> extract_col junk a sel = Throw).
Proof.
  intros Ha Hc Hs Hn Hm H64. split.
  - intros Hb Hj. by apply (extract_row_bad _ _ _ _ n m x l Ha Hc (reads_raw _ _ Hc Hs)).
  - intros Hb H0 Hj. by apply (extract_col_bad _ _ _ _ n m x l Ha Hc (reads_raw _ _ Hc Hs)).
Qed.
(** The kernels for the abstract Matrix class do this for a selection with any stride. *)
Theorem C43_any_stride {V} junk (a : dmat V) sel n m x l ps : is_dense a n m x -> column sel l -> (Z.of_nat n < 2 ^ 63)%Z -> int64s l ->
  Forall2 (fun v p => sel_pos n v = Some p) l ps -> length junk = length l * m ->
  exists res, extract_row_with sel_get junk a sel = Ok res /\ is_dense res (length l) m (fun r c => x (ps !!! r) c).
Proof. intros Ha Hc. apply extract_row_ok; [done|done|by apply reads_get]. Qed.

(** The dense kernels do not: the selection is the first column of [[0, 9], [2, 9]]; the index 9 is read. *)
Definition ex_strided : dmat Z := mkDM [0; 9; 2; 9]%Z 0 2 1 2.
Definition ex_arg : dmat nat := mkDM [10; 11; 20; 21; 30; 31] 0 3 2 2.
Lemma ex_strided_col : column ex_strided [0; 2]%Z.
Proof. split; [done|]. split; [done|]. split; [cbn; lia|]. split; [right; cbn; lia|]. intros r c Hr Hc. destruct r as [|[|]]; destruct c; cbn in *; try lia; done. Qed.
Definition ex_x (r c : nat) : nat := 10 * (r + 1) + c.
Lemma ex_arg_dense : is_dense ex_arg 3 2 ex_x.
Proof. split; [done|]. split; [done|]. split; [cbn; lia|]. split; [right; cbn; lia|]. intros r c Hr Hc. destruct r as [|[|[|]]]; destruct c as [|[|]]; cbn in *; try lia; done. Qed.
Theorem C43_strided_refuted : exists (junk : list nat) a sel n m x l ps, is_dense a n m x /\ column sel l /\ (Z.of_nat n < 2 ^ 63)%Z /\ int64s l /\
  Forall2 (fun v p => sel_pos n v = Some p) l ps /\ length junk = length l * m /\ extract_row junk a sel = Throw.
Proof.
  exists [0; 0; 0; 0], ex_arg, ex_strided, 3, 2, ex_x, [0; 2]%Z, [0; 2]. split; [exact ex_arg_dense|]. split; [exact ex_strided_col|]. split; [lia|].
  split; [repeat constructor; lia|]. split; [repeat constructor|]. split; done.
Qed.

Example C43_ex : exists ps, Forall2 (fun v p => sel_pos 3 v = Some p) [2; -1; 0; -3]%Z ps /\ ps = [2; 2; 0; 0].
Proof. eexists. split; [repeat constructor|done]. Qed.
Example C43_ex_run : extract_row (replicate 4 0) ex_arg (mkDM [-1; 0]%Z 0 2 1 1) = Ok (mkDM [30; 31; 10; 11] 0 2 2 2).
Proof. done. Qed.
(** With no rows, the column kernel does not look at the indexes: an index outside the matrix is accepted. *)
Theorem C43_cols_unchecked_refuted : exists (junk : list nat) a sel n m x l, is_dense a n m x /\ column sel l /\ m_skip sel = 1 /\
  Exists (fun v => sel_pos m v = None) l /\ length junk = n * length l /\ exists res, extract_col junk a sel = Ok res.
Proof.
  exists [], (mkDM [] 0 0 2 2), (mkDM [7]%Z 0 1 1 1), 0, 2, (fun _ _ => 0), [7]%Z. split; [split; [done|]; split; [done|]; split; [done|]; split; [by left|]; intros; lia|].
  split; [by apply (column_mk [7]%Z)|]. split; [done|]. split; [by apply Exists_cons; left|]. split; [done|]. by eexists.
Qed.

(** * C44 *)
Definition bits (l : list Z) : Prop := Forall (fun v => v = 0 \/ v = 1)%Z l.
Definition kept_to (l : list Z) (k : nat) : list nat := filter (fun i => l !!! i <> 0%Z) (seq 0 k).
Lemma kept_to_S l k : kept_to l (S k) = kept_to l k ++ (if decide (l !!! k <> 0%Z) then [k] else []).
Proof. unfold kept_to. rewrite seq_S, filter_app, filter_cons, filter_nil. cbn [plus]. done. Qed.
Lemma kept_to_len l k : length (kept_to l k) <= k.
Proof. induction k as [|k IH]; [done|]. rewrite kept_to_S, app_length. case_decide; cbn [length]; lia. Qed.
Lemma kept_to_mono l k k' : k <= k' -> length (kept_to l k) <= length (kept_to l k').
Proof. intros H. induction H as [|k' _ IH]; [done|]. rewrite kept_to_S, app_length. lia. Qed.
Lemma kept_to_lt l k i : i < length (kept_to l k) -> kept_to l k !!! i < k.
Proof.
  intros Hi. destruct (lookup_lt_is_Some_2 _ _ Hi) as [p Hp]. rewrite (list_lookup_total_correct _ _ _ Hp). apply elem_of_list_lookup_2 in Hp. unfold kept_to in Hp.
  apply elem_of_list_filter in Hp as [_ Hp]. apply elem_of_seq in Hp. lia.
Qed.
Lemma count_sel_spec sel l : column sel l -> bits l -> (Z.of_nat (length l) < 2 ^ 64)%Z -> count_sel sel (length l) = Ok (length (kept l)).
Proof.
  intros Hc Hb Hl. unfold count_sel.
  match goal with |- context [for_up 0 (length l) ?f ?s0] => destruct (for_up_inv (fun k z => z = Z.of_nat (length (kept_to l k))) 0 (length l) f s0) as (z & E & ->) end; [lia|done| |].
  - intros k z Hk ->. rewrite (column_at sel l) by (done || lia). cbn [obind]. eexists. split; [done|]. cbn [plus]. rewrite kept_to_S, app_length.
    pose proof (kept_to_len l k). unfold bits in Hb. destruct (lookup_lt_is_Some_2 l k ltac:(lia)) as [v Hv]. rewrite (list_lookup_total_correct _ _ _ Hv).
    destruct (Forall_lookup_1 _ _ _ _ Hb Hv) as [-> | ->]; cbn [decide]; [rewrite decide_False by (intros E; by apply E)|rewrite decide_True by done]; cbn [length]; rewrite Z.mod_small; lia.
  - rewrite E. cbn [obind]. f_equal. by rewrite Nat2Z.id.
Qed.

Theorem C44_filter_rows {V} (junk : nat -> list V) (a : dmat V) sel n m x l : is_dense a n m x -> column sel l -> bits l -> length l = n -> (Z.of_nat n < 2 ^ 64)%Z -> (forall k, length (junk k) = k) ->
  exists res, filter_row junk a sel = Ok res /\ is_dense res (length (kept l)) m (fun r c => x (kept l !!! r) c).
Proof.
  intros Ha Hc Hb Hl Hn Hj. pose proof Ha as (Ra & Ca & Hsk & Hlen & Hx). pose proof Hc as (Rs & Cs & _). unfold filter_row. rewrite Rs, Cs, Ra, Ca. rewrite decide_False by lia. rewrite decide_False by lia.
  subst n. rewrite count_sel_spec by done. cbn [obind]. set (N := length (kept l)).
  match goal with |- context [for_up 0 (length l) ?f ?s0] =>
    destruct (for_up_inv (fun k (s : list V * nat) => length (fst s) = N * m /\ snd s = length (kept_to l k) /\ forall i c, i < snd s -> c < m -> fst s !! (i * m + c) = Some (x (kept_to l k !!! i) c)) 0 (length l) f s0) as ([b k] & E & Hlb & Hk & Hcells) end.
  - lia.
  - cbn [fst snd]. split; [apply Hj|]. split; [done|]. intros; lia.
  - intros r [b k] Hr (Hlb & Hk & Hcells). cbn [fst snd] in *. subst k. rewrite (column_at sel l) by (done || lia). cbn [obind plus]. rewrite kept_to_S. case_decide as Hd.
    + assert (Hlt : length (kept_to l r) < N).
      { pose proof (kept_to_mono l (S r) (length l) ltac:(lia)) as Hm. rewrite kept_to_S, decide_True, app_length in Hm by done. unfold N, kept. fold (kept_to l (length l)). cbn [length] in Hm. lia. }
      destruct (copy_range_spec b (length (kept_to l r) * m) (m_buf a) (m_off a + r * m_skip a) m) as (b' & -> & Hlb' & Hin & Hout).
      * rewrite Hlb. nia.
      * destruct Hlen as [?|Hlen]; [lia|]. nia.
      * cbn [obind]. eexists. split; [done|]. cbn [fst snd]. split; [congruence|]. split; [rewrite app_length; cbn [length]; lia|]. intros i c Hi Hcm.
        destruct (decide (i = length (kept_to l r))) as [->|Hne].
        -- rewrite Hin by done. rewrite lookup_total_app_r by lia. rewrite Nat.sub_diag. cbn. apply Hx; lia.
        -- rewrite Hout by nia. rewrite lookup_total_app_l by lia. apply Hcells; [lia|done].
    + eexists. split; [done|]. cbn [fst snd]. rewrite app_nil_r. split; [done|]. split; [done|]. exact Hcells.
  - rewrite E. cbn [obind fst snd] in *. eexists. split; [done|]. apply tabulated_is_dense. split; [done|]. intros i c Hi Hcm. apply Hcells; [|done]. rewrite Hk. exact Hi.
Qed.

Theorem C44_filter_cols {V} (junk : nat -> list V) (a : dmat V) sel n m x l : is_dense a n m x -> column sel l -> bits l -> length l = m -> (Z.of_nat m < 2 ^ 64)%Z -> (forall k, length (junk k) = k) ->
  exists res, filter_col junk a sel = Ok res /\ is_dense res n (length (kept l)) (fun r c => x r (kept l !!! c)).
Proof.
  intros Ha Hc Hb Hl Hn Hj. pose proof Ha as (Ra & Ca & _). pose proof Hc as (Rs & Cs & _). unfold filter_col. rewrite Rs, Cs, Ra, Ca. rewrite decide_False by lia. rewrite decide_False by lia.
  subst m. rewrite count_sel_spec by done. cbn [obind].
  match goal with |- context [for_up 0 (length l) ?f ?s0] => destruct (for_up_inv (fun k ps => ps = kept_to l k) 0 (length l) f s0) as (ps & E & ->) end; [lia|done| |].
  { intros k ps Hk ->. rewrite (column_at sel l) by (done || lia). cbn [obind plus]. eexists. split; [done|]. rewrite kept_to_S. case_decide; [done|by rewrite app_nil_r]. }
  rewrite E. cbn [obind]. change (kept_to l (length l)) with (kept l) in *.
  match goal with |- context [for2 n (length (kept l)) ?f ?s0] => destruct (for2_tabulate n (length (kept l)) f (fun r c => x r (kept l !!! c)) s0) as (b & E' & Hb') end.
  - apply Hj.
  - intros r c b Hr Hcc _. destruct (lookup_lt_is_Some_2 _ _ Hcc) as [p Hp]. rewrite (rd_Ok _ _ _ Hp). cbn [obind]. rewrite (list_lookup_total_correct _ _ _ Hp).
    pose proof (kept_to_lt l (length l) c Hcc) as Hlt. change (kept_to l (length l)) with (kept l) in Hlt. rewrite (list_lookup_total_correct _ _ _ Hp) in Hlt.
    pose proof (dm_at_Ok a n (length l) x r p Ha Hr Hlt) as Hx. unfold dm_at in Hx. rewrite Hx. done.
  - rewrite E'. cbn [obind]. eexists. split; [done|]. by apply tabulated_is_dense.
Qed.
(** A selection of the wrong shape is reported. *)
Theorem C44_rejects {V} (junk : nat -> list V) (a : dmat V) sel : (m_rows sel <> m_rows a \/ m_cols sel <> 1 -> filter_row junk a sel = Throw) /\
  (m_rows sel <> m_cols a \/ m_cols sel <> 1 -> filter_col junk a sel = Throw).
Proof.
  unfold filter_row, filter_col. split; intros H.
  - destruct (decide (m_rows sel <> m_rows a)); [done|]. rewrite decide_True by tauto. done.
  - destruct (decide (m_rows sel <> m_cols a)); [done|]. rewrite decide_True by tauto. done.
Qed.
(** Entries other than 0 and 1: the number of rows of the result is their sum. With 2, the result has a row that nobody wrote;
    with -1, rows are written outside the result. *)
Theorem C44_not_bits_refuted :
  (exists res, filter_row (fun k => replicate k 99) ex_arg (mkDM [2; 0; 0]%Z 0 3 1 1) = Ok res /\ m_rows res = 2 /\ dm_at res 1 0 = Ok 99) /\
  filter_row (fun k => replicate k 99) ex_arg (mkDM [1; -1; 0]%Z 0 3 1 1) = UB.
Proof. split; [|done]. eexists. split; [done|]. done. Qed.
Example C44_ex : kept [0; 1; 1; 0; 1]%Z = [1; 2; 4] /\ bits [0; 1; 1; 0; 1]%Z.
Proof. split; [done|]. repeat (constructor; [lia|]). constructor. Qed.
Example C44_ex_run : filter_row (fun k => replicate k 0) ex_arg (mkDM [1; 0; 1]%Z 0 3 1 1) = Ok (mkDM [10; 11; 30; 31] 0 2 2 2) /\
  filter_col (fun k => replicate k 0) ex_arg (mkDM [0; 1]%Z 0 2 1 1) = Ok (mkDM [11; 21; 31] 0 3 1 1).
Proof. done. Qed.

(** * C45: [src] holds [n] elements of [e] bytes each; [slack] bytes of the same allocation follow it. *)
Theorem C45_extract {B} e n (src dst : list B) sel l ps : 1 <= e <= 8 -> n * e + (8 - e) <= length src -> column sel l -> m_skip sel = 1 \/ length l <= 1 -> (Z.of_nat n < 2 ^ 63)%Z -> int64s l ->
  Forall2 (fun v p => sel_pos n v = Some p) l ps -> length dst = (length l + 7) * e ->
  exists b, extract_frame_col e n src dst sel = Ok b /\ length b = length dst /\ forall r t, r < length l -> t < e -> b !! (r * e + t) = src !! (ps !!! r * e + t).
Proof.
  intros He Hsrc Hc Hs Hn H64 Hps Hdst. pose proof (reads_raw _ _ Hc Hs) as Hat. pose proof Hc as (Rs & _). unfold extract_frame_col. rewrite Rs.
  match goal with |- context [for_up 0 (length l) ?f ?s0] =>
    destruct (for_up_inv (fun k (b : list B) => length b = length dst /\ forall r t, r < k -> t < e -> b !! (r * e + t) = src !! (ps !!! r * e + t)) 0 (length l) f s0) as (b & E & Hlb & Hb) end.
  - lia.
  - split; [done|]. intros; lia.
  - intros r b Hr (Hlb & Hb). rewrite Hat by lia. cbn [obind]. rewrite sel_index_spec; [|done|by apply int64s_at; [|lia]]. pose proof (Forall2_at _ _ _ r Hps ltac:(lia)) as Hp. cbn beta in Hp. rewrite Hp. cbn [obind].
    pose proof (sel_pos_lt _ _ _ Hp) as Hlt. destruct (copy_range_spec b (r * e) src (ps !!! r * e) 8) as (b' & -> & Hlb' & Hin & Hout); [nia|nia|].
    eexists. split; [done|]. split; [congruence|]. intros r' t Hr' Ht. destruct (decide (r' = r)) as [->|].
    + apply Hin. lia.
    + rewrite Hout by nia. apply Hb; lia.
  - rewrite E. eexists. split; [done|]. auto.
Qed.
Theorem C45_filter {B} e n (src dst : list B) sel l : 1 <= e <= 8 -> n * e + (8 - e) <= length src -> column sel l -> m_skip sel = 1 \/ length l <= 1 -> length l = n -> length dst = (n + 7) * e ->
  exists b, filter_frame_col e n src dst sel = Ok (b, length (kept l)) /\ length b = length dst /\
    forall r t, r < length (kept l) -> t < e -> b !! (r * e + t) = src !! (kept l !!! r * e + t).
Proof.
  intros He Hsrc Hc Hs Hl Hdst. pose proof (reads_raw _ _ Hc Hs) as Hat. unfold filter_frame_col. subst n.
  match goal with |- context [for_up 0 (length l) ?f ?s0] =>
    destruct (for_up_inv (fun k (s : list B * nat) => length (fst s) = length dst /\ snd s = length (kept_to l k) /\ forall r t, r < snd s -> t < e -> fst s !! (r * e + t) = src !! (kept_to l k !!! r * e + t)) 0 (length l) f s0) as ([b k] & E & Hlb & Hk & Hb) end.
  - lia.
  - split; [done|]. split; [done|]. cbn. intros; lia.
  - intros r [b k] Hr (Hlb & Hk & Hb). cbn [fst snd] in *. subst k. rewrite Hat by lia. cbn [obind plus]. rewrite kept_to_S. pose proof (kept_to_len l r) as Hkl. case_decide as Hd.
    + destruct (copy_range_spec b (length (kept_to l r) * e) src (r * e) 8) as (b' & -> & Hlb' & Hin & Hout); [nia|nia|]. cbn [obind]. eexists. split; [done|]. cbn [fst snd].
      split; [congruence|]. split; [rewrite app_length; cbn [length]; lia|]. intros i t Hi Ht. destruct (decide (i = length (kept_to l r))) as [->|].
      * rewrite Hin by lia. rewrite lookup_total_app_r by lia. rewrite Nat.sub_diag. done.
      * rewrite Hout by nia. rewrite lookup_total_app_l by lia. apply Hb; [lia|done].
    + eexists. split; [done|]. cbn [fst snd]. rewrite app_nil_r. split; [done|]. split; [done|]. exact Hb.
  - cbn [fst snd] in *. exists b. change (kept_to l (length l)) with (kept l) in *. rewrite E, Hk. split; [done|]. split; [done|]. intros r t Hr. apply Hb. lia.
Qed.
(** Columns of narrower types are allocated without slack: taking the last row then reads outside the column. *)
Theorem C45_slack_refuted : exists e n (src dst : list nat) sel l ps, 1 <= e <= 8 /\ length src = n * e /\ column sel l /\ m_skip sel = 1 /\
  Forall2 (fun v p => sel_pos n v = Some p) l ps /\ length dst = (length l + 7) * e /\ extract_frame_col e n src dst sel = UB /\
  exists bs, column (mkDM bs 0 n 1 1) bs /\ bits bs /\ filter_frame_col e n src (replicate ((n + 7) * e) 0) (mkDM bs 0 n 1 1) = UB.
Proof.
  exists 4, 2, [1; 2; 3; 4; 5; 6; 7; 8], (replicate 32 0), (mkDM [1]%Z 0 1 1 1), [1]%Z, [1]. split; [lia|]. split; [done|]. split; [by apply (column_mk [1]%Z)|]. split; [done|].
  split; [repeat constructor|]. split; [done|]. split; [done|]. exists [0; 1]%Z. split; [by apply (column_mk [0; 1]%Z)|]. split; [repeat (constructor; [lia|]); constructor|done].
Qed.
Example C45_ex : extract_frame_col 4 2 [1; 2; 3; 4; 5; 6; 7; 8; 0; 0; 0; 0] (replicate 36 0) (mkDM [1; -2]%Z 0 2 1 1) =
  Ok ([5; 6; 7; 8; 1; 2; 3; 4; 5; 6; 7; 8] ++ replicate 24 0).
Proof. done. Qed.

Print Assumptions C43_extract_rows. Print Assumptions C43_extract_cols. Print Assumptions C43_rejects. Print Assumptions C44_filter_rows. Print Assumptions C44_filter_cols. Print Assumptions C45_extract. Print Assumptions C45_filter.
