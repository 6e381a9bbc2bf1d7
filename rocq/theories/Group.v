(** C55: grouping the rows of a frame and aggregating columns per group. *)
From stdpp Require Import base numbers sorting list list_numbers.
From Coq Require Import ZArith Lia.
From Verif Require Import CppBase Mem BitmapModel Bitmap ExtractModel Extract OrderModel OrderSpec OrderProofs Order GroupModel.
Local Open Scope nat_scope.

(** * Specification *)
(** The groups of the rows 0, ..., n-1: every row is in exactly one group, groups are not empty, the rows of a group have the same keys and are in the order
    of the input, and the groups are in the (strict) order of their keys. *)
Definition grouping (n : nat) (ks : list skey) (gs : list (list nat)) : Prop :=
  concat gs ≡ₚ seq 0 n /\ Forall (fun G => G <> []) gs /\
  Forall (fun G => StronglySorted lt G /\ forall i j, i ∈ G -> j ∈ G -> lex_same ks i j) gs /\
  StronglySorted (fun G H => forall i j, i ∈ G -> j ∈ H -> lex_less ks i j) gs.
(** [ws] are the aggregates of the groups *)
Definition aggregates {V W} (agg : list V -> outcome W) (x : nat -> V) (gs : list (list nat)) (ws : list W) : Prop :=
  Forall2 (fun G w => agg (map x G) = Ok w) gs ws.

(** * One column *)
Section col.
  Context {V W : Type} (agg : list V -> outcome W) (a : dmat V) (x : nat -> V).
  Context (Hoff : m_off a = 0) (Hbuf : forall r, r < m_rows a -> m_buf a !! r = Some (x r)) (Hlen : m_rows a <= length (m_buf a)).
  Lemma between_ok f l : f <= l <= m_rows a -> between a f l = Ok (map x (seq f (l - f))).
  Proof.
    intros H. unfold between. rewrite Hoff. rewrite decide_True by lia. f_equal. cbn [plus]. apply list_eq. intros i. change (map x ?s) with (x <$> s). rewrite list_lookup_fmap.
    destruct (decide (i < l - f)) as [Hi|Hi].
    - rewrite lookup_take by done. rewrite lookup_drop, lookup_seq_lt by done. apply Hbuf. lia.
    - rewrite lookup_take_ge by lia. by rewrite lookup_seq_ge by lia.
  Qed.
  Lemma agg_cell_ok f l w ws j js : f <= l <= m_rows a -> agg (map x (seq f (l - f))) = Ok w -> agg_cell agg a f l (length ws, ws ++ j :: js) = Ok (length (ws ++ [w]), (ws ++ [w]) ++ js).
  Proof.
    intros H Ha. unfold agg_cell. rewrite between_ok by done. cbn [obind]. rewrite Ha. cbn [obind fst snd]. rewrite wr_Ok by (rewrite app_length; cbn; lia). cbn [obind].
    rewrite app_length. cbn [length]. do 2 f_equal. rewrite insert_app_r_alt by lia. rewrite Nat.sub_diag. cbn. by rewrite <- app_assoc.
  Qed.
  (** The part of the code that handles the rows from [off] on *)
  Definition from (off : nat) (gs : list group) (st : nat * list W) : outcome (nat * list W) :=
    match gs with
    | [] => singles agg a off (m_rows a) st
    | g :: _ => let* st := singles agg a off (fst g) st in let* st := agg_groups agg a gs st in singles agg a (match last gs with Some h => snd h | None => 0 end) (m_rows a) st
    end.
  Lemma singles_nil lo st : singles agg a lo lo st = Ok st.
  Proof. unfold singles, for_up. by rewrite Nat.sub_diag. Qed.
  Lemma singles_S lo hi st : lo < hi -> singles agg a lo hi st = (let* st := agg_cell agg a lo (lo + 1) st in singles agg a (lo + 1) hi st).
  Proof. intros H. unfold singles, for_up. replace (hi - lo) with (S (hi - (lo + 1))) by lia. cbn [forn]. by replace (S lo) with (lo + 1) by lia. Qed.
  Lemma gpos_front off bs g gs : gpos off bs = g :: gs -> off <= fst g.
  Proof. intros E. destruct (gpos_sorted bs off) as [_ H]. rewrite E in H. by apply Forall_cons in H as [H _]. Qed.
  Lemma from_next off gs st : (forall g gs', gs = g :: gs' -> off < fst g) -> off < m_rows a -> from off gs st = (let* st := agg_cell agg a off (off + 1) st in from (off + 1) gs st).
  Proof.
    intros H Hn. destruct gs as [|g gs]; cbn [from].
    - by apply singles_S.
    - rewrite singles_S by (by eapply H). by destruct (agg_cell agg a off (off + 1) st).
  Qed.
  Lemma from_group off e gs st : from off ((off, e) :: gs) st = (let* st := agg_cell agg a off e st in from e gs st).
  Proof.
    cbn [from fst]. rewrite singles_nil. cbn [obind agg_groups fst snd]. destruct (agg_cell agg a off e st) as [st1| |]; cbn [obind]; [|done|done].
    destruct gs as [|h gs].
    - rewrite singles_nil. done.
    - cbn [from]. rewrite last_cons_cons. destruct (singles agg a e (fst h) st1); done.
  Qed.
  Lemma from_ok bs : forall off ws js us, off + length (concat bs) = m_rows a -> Forall (fun B => B <> []) bs -> length js = length bs ->
    (forall off' bs1 B bs2, bs = bs1 ++ B :: bs2 -> off' = off + length (concat bs1) -> exists w, us !! length bs1 = Some w /\ agg (map x (seq off' (length B))) = Ok w) -> length us = length bs ->
    from off (gpos off bs) (length ws, ws ++ js) = Ok (length (ws ++ us), ws ++ us).
  Proof.
    induction bs as [|B bs IH]; intros off ws js us Hn Hne Hl Hu Hlu.
    - destruct js; [|done]. destruct us; [|done]. cbn in Hn. cbn [gpos from]. replace (m_rows a) with off by lia. rewrite singles_nil, !app_nil_r. done.
    - destruct js as [|j js]; [done|]. destruct us as [|u us]; [done|]. apply Forall_cons in Hne as [HB Hne]. cbn [concat] in Hn. rewrite app_length in Hn. cbn in Hl, Hlu.
      destruct (Hu off [] B bs) as (w & Ew & Hagg); [done|cbn; lia|]. cbn in Ew. injection Ew as <-.
      assert (0 < length B) as HB0 by (destruct B; [done|cbn; lia]).
      assert (from (off + length B) (gpos (off + length B) bs) (length (ws ++ [u]), (ws ++ [u]) ++ js) = Ok (length (ws ++ u :: us), ws ++ u :: us)) as HI.
      { rewrite (IH (off + length B) (ws ++ [u]) js us); [by rewrite <- app_assoc|lia|done|lia| |lia]. intros off' bs1 B' bs2 -> ->.
        destruct (Hu (off + length (concat (B :: bs1))) (B :: bs1) B' bs2) as (w & E & H); [done|done|]. exists w. split; [exact E|]. rewrite <- H. cbn [concat]. rewrite app_length. do 3 f_equal. lia. }
      cbn [gpos]. destruct (decide (2 <= length B)) as [H2|H2]; cbn [app].
      + rewrite from_group. rewrite (agg_cell_ok off (off + length B) u ws j js); [exact HI|lia|]. by replace (off + length B - off) with (length B) by lia.
      + assert (length B = 1) as H1 by lia. rewrite H1 in *. rewrite from_next; [|intros g gs' E; apply gpos_front in E; lia|lia].
        rewrite (agg_cell_ok off (off + 1) u ws j js); [exact HI|lia|]. by replace (off + 1 - off) with 1 by lia.
  Qed.
  Lemma group_agg_ok bs us junk : length (concat bs) = m_rows a -> Forall (fun B => B <> []) bs -> length junk = length bs -> length us = length bs ->
    (forall bs1 B bs2, bs = bs1 ++ B :: bs2 -> exists w, us !! length bs1 = Some w /\ agg (map x (seq (length (concat bs1)) (length B))) = Ok w) ->
    group_agg agg a (gpos 0 bs) junk = Ok us.
  Proof.
    intros Hn Hne Hl Hlu Hu. change (group_agg agg a (gpos 0 bs) junk) with (let* st := from 0 (gpos 0 bs) (length (@nil W), [] ++ junk) in Ok (snd st)).
    rewrite (from_ok bs 0 [] junk us); [done|lia|done|done| |done]. intros off' bs1 B bs2 E ->. by apply Hu with bs2.
  Qed.
End col.
Lemma map_block {V} (x : nat -> V) bs1 B bs2 : map (fun r => x (concat (bs1 ++ B :: bs2) !!! r)) (seq (length (concat bs1)) (length B)) = map x B.
Proof.
  apply list_eq. intros i. change (map ?f ?l) with (f <$> l). rewrite !list_lookup_fmap. destruct (decide (i < length B)) as [Hi|Hi].
  - rewrite lookup_seq_lt by done. cbn. destruct (lookup_lt_is_Some_2 B i Hi) as (b & Eb). rewrite Eb. cbn. do 2 f_equal. rewrite concat_app. cbn [concat]. rewrite lookup_total_app_r by lia.
    rewrite lookup_total_app_l by lia. replace (length (concat bs1) + i - length (concat bs1)) with i by lia. by apply list_lookup_total_correct.
  - rewrite lookup_seq_ge by lia. by rewrite lookup_ge_None_2 by lia.
Qed.
Lemma extract_column {V} (a : dmat V) n x junk p : is_dense a n 1 (fun r _ => x r) -> (Z.of_nat n < 2 ^ 63)%Z -> Forall (fun i => i < n) p -> length junk = length p ->
  exists res, extract_row junk a (idx_column p) = Ok res /\ m_off res = 0 /\ m_rows res = length p /\ length p <= length (m_buf res) /\ forall r, r < length p -> m_buf res !! r = Some (x (p !!! r)).
Proof.
  intros Ha Hn Hp Hj. destruct (extract_idx a n 1 (fun r _ => x r) junk p Ha Hn Hp ltac:(lia)) as (res & E & R1 & R2 & R3 & R4 & R5). exists res. split; [done|].
  assert (m_off res = 0 /\ m_skip res = 1) as [H0 H1].
  { unfold extract_row, extract_row_with in E. destruct (decide _); [done|]. destruct (for_up 0 _ _ junk) as [b| |]; cbn in E; [|done|done]. injection E as <-. cbn. split; [done|]. by destruct Ha as (_ & -> & _). }
  split; [done|]. split; [done|]. rewrite H0, H1 in *. split; [lia|]. intros r Hr. specialize (R5 r 0 Hr ltac:(lia)). by replace (0 + r * 1 + 0) with r in R5 by lia.
Qed.

(** * The index *)
Lemma in_groups_shift gs : forall k, foldl (fun s (g : group) => s + (snd g - fst g)) k gs = k + foldl (fun s (g : group) => s + (snd g - fst g)) 0 gs.
Proof. induction gs as [|g gs IH]; intros k; cbn [foldl]; [lia|]. rewrite IH, (IH (0 + _)). lia. Qed.
Lemma count_groups bs : forall off, Forall (fun B => B <> []) bs -> length (concat bs) + length (gpos off bs) = length bs + foldl (fun s (g : group) => s + (snd g - fst g)) 0 (gpos off bs).
Proof.
  induction bs as [|B bs IH]; intros off HF; [done|]. apply Forall_cons in HF as [HB HF]. cbn [concat gpos length]. rewrite app_length. specialize (IH (off + length B) HF). destruct (decide (2 <= length B)) as [H2|H2]; cbn [app length foldl fst snd].
  - rewrite in_groups_shift. lia.
  - destruct B as [|b [|]]; cbn in *; [done|lia|lia].
Qed.
Lemma count_groups_le bs off : Forall (fun B => B <> []) bs -> length (gpos off bs) <= foldl (fun s (g : group) => s + (snd g - fst g)) 0 (gpos off bs) /\ length bs <= length (concat bs).
Proof.
  intros HF. pose proof (count_groups bs off HF). assert (length bs <= length (concat bs)); [|lia].
  clear -HF. induction HF as [|B bs HB _ IH]; [done|]. cbn [concat]. rewrite app_length. destruct B; [done|cbn in *; lia].
Qed.
Lemma directions_ok cap k : k <= cap -> exists r, directions cap k = Ok (replicate k true ++ r).
Proof.
  intros Hk. unfold directions. destruct (for_up_inv (fun i b => length b = cap /\ forall j, j < i -> b !! j = Some true) 0 k (fun i b => wr b i true) (replicate cap false)) as (b & -> & Hl & Hb); [lia| | |].
  - split; [apply replicate_length|lia].
  - intros i b Hi [Hl Hb]. rewrite wr_Ok by lia. eexists. split; [done|]. split; [by rewrite insert_length|]. intros j Hj. destruct (decide (j = i)) as [->|Hne]; [apply list_lookup_insert; lia|]. rewrite list_lookup_insert_ne by done. apply Hb. lia.
  - exists (drop k b). f_equal. rewrite <- (take_drop k b) at 1. f_equal. apply list_eq. intros i. destruct (decide (i < k)) as [Hi|Hi]; [rewrite lookup_take, Hb, lookup_replicate_2 by done; done|]. rewrite !lookup_ge_None_2; [done|rewrite replicate_length; lia|rewrite take_length; lia].
Qed.
Lemma directions_out cap k : cap < k -> directions cap k = UB.
Proof.
  intros Hk. unfold directions, for_up. rewrite Nat.sub_0_r. replace k with (cap + S (k - cap - 1)) by lia. rewrite forn_app.
  destruct (for_up_inv (fun i b => length b = cap) 0 cap (fun i b => wr b i true) (replicate cap false)) as (b & E & Hl); [lia|apply replicate_length| |].
  - intros i b Hi Hl. rewrite wr_Ok by lia. eexists. split; [done|]. by rewrite insert_length.
  - unfold for_up in E. rewrite Nat.sub_0_r in E. rewrite E. cbn [obind forn]. unfold wr. rewrite decide_False by lia. done.
Qed.
Lemma zip_asc cs r : zip_with set_asc cs (replicate (length cs) true ++ r) = map (fun k => set_asc k true) cs.
Proof. induction cs as [|c cs IH]; cbn; [done|]. by rewrite IH. Qed.
Lemma good_grouping n ks bs : concat bs ≡ₚ seq 0 n -> good ks bs -> Forall (fun B => B <> []) bs -> grouping n ks bs.
Proof. intros H1 [H2 H3] H4. done. Qed.
Lemma group_index_ok fuel n cs cap ss : (Z.of_nat n < 2 ^ 63)%Z -> n <= fuel -> cs <> [] -> length cs <= cap -> Forall2 (key_for n) (map (fun k => set_asc k true) cs) ss ->
  exists gs, group_index fuel n cs cap = Ok (Some (concat gs, gpos 0 gs, length gs)) /\ grouping n ss gs.
Proof.
  intros Hn Hf Hc Hcap HF. destruct (order_idx_blocks fuel n _ ss Hn Hf HF) as (bs & E & Hp & Hg & Hne); [by destruct cs|]. exists bs. split; [|by apply good_grouping].
  unfold group_index. destruct (directions_ok cap (length cs) Hcap) as (r & ->). cbn [obind]. rewrite zip_asc. destruct cs as [|c cs]; [done|]. rewrite E. cbn [obind fst snd].
  do 4 f_equal. pose proof (count_groups bs 0 Hne) as HC. pose proof (count_groups_le bs 0 Hne) as [HC1 HC2]. assert (length (concat bs) = n) as Hl by (by rewrite Hp, seq_length).
  match goal with |- context [foldl ?f 0 ?l] => set (q := foldl f 0 l) in *; change (foldl _ 0 (gpos 0 bs)) with q in HC, HC1 end. clearbody q. change (2 ^ 64)%Z with 18446744073709551616%Z. change (2 ^ 63)%Z with 9223372036854775808%Z in Hn. unfold group in *. rewrite Z.mod_small by lia. lia.
Qed.
Lemma grouping_lt n ks gs : grouping n ks gs -> length (concat gs) = n /\ Forall (fun i => i < n) (concat gs).
Proof.
  intros (Hp & _). split; [by rewrite Hp, seq_length|]. apply Forall_forall. intros i Hi. rewrite Hp in Hi. apply elem_of_seq in Hi. lia.
Qed.
Lemma group_column_ok {V W} (agg : list V -> outcome W) junk junk' a n ks gs x ws : (Z.of_nat n < 2 ^ 63)%Z -> grouping n ks gs -> is_dense a n 1 (fun r _ => x r) ->
  (forall q, length (junk q) = q) -> (forall q, length (junk' q) = q) -> aggregates agg x gs ws -> group_column agg junk junk' a (concat gs, gpos 0 gs, length gs) = Ok ws.
Proof.
  intros Hn Hg Ha Hj Hj' Hagg. destruct (grouping_lt _ _ _ Hg) as [Hl Hlt]. unfold group_column. destruct (extract_column a n x (junk (length (concat gs))) (concat gs) Ha Hn Hlt (Hj _)) as (res & -> & R1 & R2 & R3 & R4). cbn [obind].
  rewrite <- R2 in R3, R4. apply (group_agg_ok agg res (fun r => x (concat gs !!! r))); [done|done|done|by rewrite R2|by destruct Hg as (_ & ? & _)|apply Hj'|symmetry; by eapply Forall2_length|].
  intros bs1 B bs2 ->. rewrite map_block. destruct (Forall2_lookup_l _ _ _ (length bs1) B Hagg) as (w & Ew & Hw); [by rewrite lookup_app_r, Nat.sub_diag by lia|]. eauto.
Qed.

(** * The theorems *)
(** The result has one row per group, in the order of the keys; every column of the result holds the aggregates of the groups (the key columns with [agg_key]).
    [cap] is the number of elements of the array of directions; it is the number of keys, if these are given through "*". *)
Theorem C55_group fuel n cs cap ss : (Z.of_nat n < 2 ^ 63)%Z -> n <= fuel -> cs <> [] -> length cs <= cap -> Forall2 (key_for n) (map (fun k => set_asc k true) cs) ss ->
  exists gs idx, grouping n ss gs /\ group_index fuel n cs cap = Ok (Some idx) /\ snd idx = length gs /\
    forall V W (agg : list V -> outcome W) junk junk' a x ws, is_dense a n 1 (fun r _ => x r) -> (forall q, length (junk q) = q) -> (forall q, length (junk' q) = q) ->
      aggregates agg x gs ws -> group_column agg junk junk' a idx = Ok ws.
Proof.
  intros Hn Hf Hc Hcap HF. destruct (group_index_ok fuel n cs cap ss Hn Hf Hc Hcap HF) as (gs & E & Hg). exists gs, (concat gs, gpos 0 gs, length gs). split; [done|]. split; [done|]. split; [done|].
  intros V W agg junk junk' a x ws Ha Hj Hj' Hagg. by eapply group_column_ok.
Qed.
(** The groups are determined by the keys of the rows. *)
Theorem C55_unique n ks gs hs : weak_keys ks -> grouping n ks gs -> grouping n ks hs -> gs = hs.
Proof.
  intros Hw Hg Hh. assert (concat gs = concat hs) as E.
  { destruct Hg as (G1 & _ & G2 & G3). destruct Hh as (H1 & _ & H2 & H3). apply (C31_unique n ks); [done| |]; (split; [done|apply good_sorted; done]). }
  destruct Hg as (_ & G1 & G2 & G3). destruct Hh as (_ & H1 & H2 & H3). revert hs E H1 H2 H3. induction gs as [|B gs IH]; intros hs E H1 H2 H3.
  - destruct hs as [|C hs]; [done|]. apply Forall_cons in H1 as [H1 _]. cbn in E. by destruct C.
  - destruct hs as [|C hs]; [apply Forall_cons in G1 as [G1 _]; cbn in E; by destruct B|].
    apply Forall_cons in G1 as [GB G1]. apply Forall_cons in G2 as [[_ GS] G2]. apply StronglySorted_inv in G3 as [G3 GL]. apply Forall_cons in H1 as [HC H1]. apply Forall_cons in H2 as [[_ HS] H2]. apply StronglySorted_inv in H3 as [H3 HL].
    cbn [concat] in E. assert (length B = length C) as HBC.
    { assert (forall (B C : list nat) gs hs, B <> [] -> B ++ concat gs = C ++ concat hs -> length B < length C -> (forall i j, i ∈ C -> j ∈ C -> lex_same ks i j) -> Forall (fun H => forall i j, i ∈ B -> j ∈ H -> lex_less ks i j) gs -> False) as Hno.
      { clear -Hw. intros B C gs hs HB E Hl HS HL. destruct B as [|b B]; [done|]. assert (C !! length (b :: B) = concat gs !! 0) as El.
        { transitivity ((C ++ concat hs) !! length (b :: B)); [by rewrite lookup_app_l by done|]. rewrite <- E. rewrite lookup_app_r by done. by rewrite Nat.sub_diag. }
        destruct (lookup_lt_is_Some_2 C _ Hl) as (c & Ec). rewrite Ec in El. assert (c ∈ concat gs) as Hc by (symmetry in El; by eapply elem_of_list_lookup_2). apply elem_concat in Hc as (H & HH & Hc).
        rewrite Forall_forall in HL. pose proof (HL H HH b c ltac:(left) Hc) as Hless. apply (lex_less_not_same ks _ _ Hw Hless). apply HS; [|by eapply elem_of_list_lookup_2].
        destruct C as [|c0 C]; [cbn in Hl; lia|]. cbn in E. injection E as -> _. left. }
      destruct (Nat.lt_trichotomy (length B) (length C)) as [Hlt|[He|Hgt]]; [exfalso; by eapply (Hno B C)|done|exfalso; by eapply (Hno C B)]. }
    apply app_inj_1 in E as [-> E]; [|done]. f_equal. by apply IH.
Qed.
(** Without keys: one row with the aggregate of all rows. *)
Theorem C55_no_keys fuel n : (Z.of_nat n < 2 ^ 63)%Z ->
  exists idx, group_index fuel n [] 0 = Ok (Some idx) /\ snd idx = 1 /\
    forall V W (agg : list V -> outcome W) junk junk' a x, is_dense a n 1 (fun r _ => x r) -> (forall q, length (junk q) = q) -> (forall q, length (junk' q) = q) ->
      group_column agg junk junk' a idx = (let* w := agg (map x (seq 0 n)) in Ok [w]).
Proof.
  intros Hn. eexists. split; [reflexivity|]. cbn [fst snd foldl length]. split.
  - replace (Z.of_nat n - (Z.of_nat (0 + (n - 0)) - Z.of_nat 1))%Z with 1%Z by lia. done.
  - intros V W agg junk junk' a x Ha Hj Hj'. unfold group_column. replace (Z.to_nat _) with 1 by (replace (Z.of_nat n - (Z.of_nat (0 + (n - 0)) - Z.of_nat 1))%Z with 1%Z by lia; done).
    destruct (extract_column a n x (junk (length (seq 0 n))) (seq 0 n) Ha Hn) as (res & -> & R1 & R2 & R3 & R4); [apply Forall_forall; intros i Hi; apply elem_of_seq in Hi; lia|apply Hj|]. cbn [obind].
    rewrite seq_length in R2, R3, R4. rewrite <- R2 in R3. assert (forall r, r < m_rows res -> m_buf res !! r = Some (x (seq 0 n !!! r))) as R5 by (rewrite R2; exact R4).
    unfold group_agg. cbn [fst]. rewrite singles_nil. cbn [obind agg_groups fst snd]. unfold agg_cell. rewrite (between_ok res (fun r => x (seq 0 n !!! r)) R1 R5 R3 0 n) by lia. cbn [obind].
    assert (map (fun r => x (seq 0 n !!! r)) (seq 0 (n - 0)) = map x (seq 0 n)) as ->.
    { rewrite Nat.sub_0_r. apply map_ext_in. intros r Hr%elem_of_list_In%elem_of_seq. f_equal. apply list_lookup_total_correct. rewrite lookup_seq_lt by lia. done. }
    destruct (agg (map x (seq 0 n))) as [w| |]; cbn [obind]; [|done|done]. specialize (Hj' 1). destruct (junk' 1) as [|j [|]]; try done. cbn. rewrite wr_Ok by (cbn; lia). cbn [obind]. rewrite singles_nil. cbn. rewrite R2, singles_nil. done.
Qed.
(** What the aggregates are *)
Theorem C55_min {V} (lt : V -> V -> bool) (l : list V) : weak_order lt -> l <> [] -> exists m, agg_min lt l = Ok m /\ m ∈ l /\ forall y, y ∈ l -> lt y m = false.
Proof.
  intros (Hi & Ht & Hn) Hl. destruct l as [|v l]; [done|]. cbn [agg_min]. eexists. split; [done|]. clear Hl.
  assert (forall l m S, m ∈ S -> (forall y, y ∈ S -> lt y m = false) -> let r := fold_left (fun m y => if lt y m then y else m) l m in r ∈ S ++ l /\ forall y, y ∈ S ++ l -> lt y r = false) as H.
  { clear v l. induction l as [|v l IH]; intros m S Hm HS; cbn [fold_left]; [by rewrite app_nil_r|]. replace (S ++ v :: l) with ((S ++ [v]) ++ l) by (by rewrite <- app_assoc). destruct (lt v m) eqn:E.
    - apply IH; [apply elem_of_app; right; by left|]. intros y [Hy|Hy%elem_of_list_singleton]%elem_of_app; [|subst; apply Hi]. specialize (HS y Hy). destruct (lt y v) eqn:E2; [|done]. rewrite (Ht y v m) in HS by done. done.
    - apply IH; [apply elem_of_app; by left|]. intros y [Hy|Hy%elem_of_list_singleton]%elem_of_app; [by apply HS|by subst]. }
  specialize (H l v [v] ltac:(left)). apply H. intros y Hy%elem_of_list_singleton. subst. apply Hi.
Qed.
Theorem C55_max {V} (lt : V -> V -> bool) (l : list V) : weak_order lt -> l <> [] -> exists m, agg_max lt l = Ok m /\ m ∈ l /\ forall y, y ∈ l -> lt m y = false.
Proof.
  intros (Hi & Ht & Hn) Hl. destruct (C55_min (fun a b => lt b a) l) as (m & E & H1 & H2); [|done|exists m; split; [|done]; by destruct l].
  split; [done|]. split; [eauto|]. intros a b c H. destruct (Hn c b a H); auto.
Qed.
(** All rows of a group have the same key, so the key shown for the group is the key of each of its rows *)
Theorem C55_key n ks gs k (G : list nat) i j : grouping n ks gs -> k ∈ ks -> G ∈ gs -> agg_key G = Ok i -> j ∈ G -> same_by k i j.
Proof.
  intros (_ & _ & H & _) Hk HG Hi Hj. rewrite Forall_forall in H. destruct (H G HG) as [_ HS]. destruct G as [|i' G]; [done|]. injection Hi as ->. specialize (HS i j ltac:(left) Hj). unfold lex_same in HS. rewrite Forall_forall in HS. by apply HS.
Qed.

(** * What fails *)
(** Keys given by name: no column is found through "*", the array of directions has no elements, but one is written per key. *)
Theorem C55_keys_refuted fuel n cs : cs <> [] -> group_index fuel n cs 0 = UB.
Proof. intros Hc. unfold group_index. rewrite directions_out; [done|]. destruct cs; [done|cbn; lia]. Qed.
(** No rows, no keys: the smallest and the largest element do not exist, but are dereferenced. *)
Theorem C55_empty_refuted {V} fuel (lt : V -> V -> bool) junk junk' a x : is_dense a 0 1 (fun r _ => x r) -> (forall q, length (junk q) = q) -> (forall q, length (junk' q) = q) ->
  exists idx, group_index fuel 0 [] 0 = Ok (Some idx) /\ group_column (agg_min lt) junk junk' a idx = UB /\ group_column (agg_max lt) junk junk' a idx = UB.
Proof.
  intros Ha Hj Hj'. destruct (C55_no_keys fuel 0 ltac:(lia)) as (idx & E & _ & H). exists idx. split; [done|]. by rewrite !(H _ _ _ _ _ a x) by done.
Qed.

(** * Concrete cases *)
(** Six rows with the key 2, 1, 2, 3, 1, 2 and the values 10, ..., 60 *)
Definition ex_key : dmat nat := mkDM [2; 1; 2; 3; 1; 2] 0 6 1 1.
Definition ex_val : dmat nat := mkDM [10; 20; 30; 40; 50; 60] 0 6 1 1.
Definition ex_keys : list key := [mkKey nat Nat.ltb (fun v w => negb (v =? w)) ex_key 0 false (fun q => replicate q 0)].
Definition ex_skeys : list skey := [mkSKey nat Nat.ltb (fun r => m_buf ex_key !!! r) true].
Lemma ex_dense (b : list nat) : length b = 6 -> is_dense (mkDM b 0 6 1 1) 6 1 (fun r _ => b !!! r).
Proof.
  intros Hl. apply tabulated_is_dense. split; [lia|]. intros r c Hr Hc. replace (r * 1 + c) with r by lia. apply list_lookup_lookup_total_lt. lia.
Qed.
Theorem C55_ex_hyp : Forall2 (key_for 6) (map (fun k => set_asc k true) ex_keys) ex_skeys.
Proof.
  constructor; [|constructor]. eexists _, _, _, _, _, _. split; [reflexivity|]. split; [exact (ex_dense [2; 1; 2; 3; 1; 2] eq_refl)|]. split; [cbn; lia|]. split; [done|]. split; [apply C31_ex_weak|]. split; [apply C31_ex_weak|]. intros q. apply replicate_length.
Qed.
Theorem C55_ex : exists idx, group_index 6 6 ex_keys 1 = Ok (Some idx) /\ snd idx = 3 /\
  group_column agg_key (fun q => replicate q 0) (fun q => replicate q 0) ex_key idx = Ok [1; 2; 3] /\
  group_column (agg_sum 0 Nat.add) (fun q => replicate q 0) (fun q => replicate q 0) ex_val idx = Ok [70; 100; 40] /\
  group_column (agg_count (fun n => n)) (fun q => replicate q 0) (fun q => replicate q 0) ex_val idx = Ok [2; 3; 1] /\
  group_column (agg_max Nat.ltb) (fun q => replicate q 0) (fun q => replicate q 0) ex_val idx = Ok [50; 60; 40].
Proof. eexists. split; [vm_compute; reflexivity|]. by vm_compute. Qed.
Theorem C55_ex_groups : grouping 6 ex_skeys [[1; 4]; [0; 2; 5]; [3]] /\ aggregates (agg_sum 0 Nat.add) (fun r => m_buf ex_val !!! r) [[1; 4]; [0; 2; 5]; [3]] [70; 100; 40].
Proof.
  split; [|repeat constructor]. split; [|split; [repeat constructor; done|split]].
  - cbn. apply NoDup_Permutation; [by apply (bool_decide_unpack _)|by apply (bool_decide_unpack _)|]. intros i. rewrite !elem_of_cons, elem_of_nil. lia.
  - assert (forall i j, m_buf ex_key !!! i = m_buf ex_key !!! j -> lex_same ex_skeys i j) as Hs.
    { intros i j E. constructor; [|constructor]. unfold same_by, ex_skeys. cbn [s_lt s_val]. rewrite E. by rewrite Nat.ltb_irrefl. }
    repeat (apply Forall_cons; split); [| | |by apply Forall_nil]; (split; [repeat constructor; lia|]); intros i j Hi Hj; apply Hs; rewrite !elem_of_cons, elem_of_nil in Hi, Hj; destruct_or?; subst; done.
  - assert (forall i j, m_buf ex_key !!! i < m_buf ex_key !!! j -> lex_less ex_skeys i j) as Hs.
    { intros i j E. left. unfold less_by. cbn [s_lt s_val s_asc]. by apply Nat.ltb_lt. }
    repeat (apply SSorted_cons; [|repeat (apply Forall_cons; split); try by apply Forall_nil]); [apply SSorted_nil|..]; intros i j Hi Hj; apply Hs;
      repeat (apply elem_of_cons in Hi as [-> | Hi]); try (by apply elem_of_nil in Hi); repeat (apply elem_of_cons in Hj as [-> | Hj]); try (by apply elem_of_nil in Hj); cbn; lia.
Qed.
Print Assumptions C55_group. Print Assumptions C55_unique. Print Assumptions C55_no_keys. Print Assumptions C55_min. Print Assumptions C55_max. Print Assumptions C55_key. Print Assumptions C55_keys_refuted. Print Assumptions C55_empty_refuted.
