(** Lemmas on the columnar kernels. *)
From stdpp Require Import base numbers sorting list list_numbers.
From Coq Require Import ZArith Lia.
From Verif Require Import CppBase Mem BitmapModel Bitmap OrderModel JoinModel ColumnarModel.
Local Open Scope nat_scope.

Definition sized {V} (junk : nat -> list V) : Prop := forall n, length (junk n) = n.

(** * Collecting the rows that pass a test *)
Lemma filter_seq_S (P : nat -> Prop) `{forall r, Decision (P r)} n : filter P (seq 0 (S n)) = filter P (seq 0 n) ++ (if decide (P n) then [n] else []).
Proof. rewrite seq_S, filter_app, filter_cons, filter_nil. done. Qed.
Lemma filter_seq_le (P : nat -> Prop) `{forall r, Decision (P r)} n : length (filter P (seq 0 n)) <= n.
Proof. etransitivity; [apply filter_length|]. by rewrite seq_length. Qed.
Lemma filter_seq_mono (P : nat -> Prop) `{forall r, Decision (P r)} m n : m <= n -> length (filter P (seq 0 m)) <= length (filter P (seq 0 n)).
Proof. intros Hm. replace n with (m + (n - m)) by lia. rewrite seq_app, filter_app, app_length. lia. Qed.

Lemma collect_ok (P : nat -> Prop) `{forall r, Decision (P r)} (n : nat) (f : nat -> list Z * nat -> outcome (list Z * nat)) jk :
  (forall r s, r < n -> f r s = if decide (P r) then let* b := wr (fst s) (snd s) (Z.of_nat r) in Ok (b, snd s + 1) else Ok s) ->
  length (filter P (seq 0 n)) <= length jk ->
  exists s, for_up 0 n f (jk, 0) = Ok s /\ take (snd s) (fst s) = Z.of_nat <$> filter P (seq 0 n).
Proof.
  intros Hf Hlen. destruct (for_up_inv (fun k (s : list Z * nat) => length (fst s) = length jk /\ snd s = length (filter P (seq 0 k)) /\ take (snd s) (fst s) = Z.of_nat <$> filter P (seq 0 k)) 0 n f (jk, 0)) as (s & E & Hl & Hs & Ht).
  - lia.
  - done.
  - intros k [b c] Hk (Hl & Hs & Ht). cbn [fst snd] in *. rewrite Hf by lia. replace (1 + k) with (S k) by lia. rewrite filter_seq_S. pose proof (filter_seq_mono P (S k) n ltac:(lia)) as Hm. rewrite filter_seq_S in Hm. destruct (decide (P k)) as [Hp|Hp].
    + rewrite app_length in Hm. cbn [length] in Hm. rewrite wr_Ok by (cbn; lia). cbn [obind fst snd]. eexists. split; [done|]. cbn [fst snd]. rewrite insert_length. split; [done|]. split; [rewrite app_length; cbn; lia|].
      rewrite Nat.add_1_r. rewrite (take_S_r _ _ (Z.of_nat k)) by (apply list_lookup_insert; lia). rewrite take_insert by lia. rewrite Ht, fmap_app. done.
    + eexists. split; [done|]. cbn [fst snd]. rewrite app_nil_r. done.
  - exists s. done.
Qed.
(** ... which leaves the array if it is too small *)
Lemma collect_out (P : nat -> Prop) `{forall r, Decision (P r)} (n : nat) (f : nat -> list Z * nat -> outcome (list Z * nat)) jk :
  (forall r s, r < n -> f r s = if decide (P r) then let* b := wr (fst s) (snd s) (Z.of_nat r) in Ok (b, snd s + 1) else Ok s) ->
  length jk < length (filter P (seq 0 n)) -> for_up 0 n f (jk, 0) = UB.
Proof.
  intros Hf. induction n as [|n IH]; intros Hlen; [cbn in Hlen; lia|]. unfold for_up. rewrite Nat.sub_0_r. replace (S n) with (n + 1) by lia. rewrite forn_app. fold (for_up 0 n f (jk, 0)).
  replace (forn n 0 f (jk, 0)) with (for_up 0 n f (jk, 0)) by (unfold for_up; by rewrite Nat.sub_0_r).
  destruct (decide (length jk < length (filter P (seq 0 n)))) as [Hlt|Hge].
  - rewrite IH; [done|intros; apply Hf; lia|done].
  - destruct (for_up_inv (fun k (s : list Z * nat) => length (fst s) = length jk /\ snd s = length (filter P (seq 0 k))) 0 n f (jk, 0)) as (s & E & Hl & Hs); [lia|done| |].
    + intros k [b c] Hk (Hl & Hs). cbn [fst snd] in *. rewrite Hf by lia. replace (1 + k) with (S k) by lia. rewrite filter_seq_S. pose proof (filter_seq_mono P (S k) n ltac:(lia)) as Hm. rewrite filter_seq_S in Hm. destruct (decide (P k)) as [Hp|Hp].
      * rewrite app_length in Hm. cbn [length] in Hm. rewrite wr_Ok by (cbn; lia). cbn [obind fst snd]. eexists. split; [done|]. cbn [fst snd]. rewrite insert_length. split; [done|]. rewrite app_length; cbn; lia.
      * eexists. split; [done|]. cbn [fst snd]. rewrite app_nil_r. done.
    + rewrite E. cbn [obind forn]. rewrite filter_seq_S in Hlen. rewrite Hf by lia. destruct (decide (P (0 + n))) as [Hp|Hp]; cbn [plus] in Hp.
      * rewrite decide_True in Hlen by done. rewrite app_length in Hlen. cbn [length] in Hlen. unfold wr. destruct (decide _); [lia|done].
      * rewrite decide_False in Hlen by done. rewrite app_nil_r in Hlen. lia.
Qed.

(** * Positions as integers *)
Lemma to_size_nat k n : k < n -> (Z.of_nat n < 2 ^ 64)%Z -> to_size (Z.of_nat k) = k.
Proof. intros Hk Hn. apply to_size_id. lia. Qed.

Section Project.
  Context {V : Type} (jv : nat -> list V) (Hjv : sized jv).
  Lemma project_ok (lhs : list V) (qs : list nat) : (Z.of_nat (length lhs) < 2 ^ 64)%Z -> Forall (fun q => q < length lhs) qs ->
    exists res, col_project jv lhs (Z.of_nat <$> qs) = Ok res /\ length res = length qs /\ forall i q, qs !! i = Some q -> res !! i = lhs !! q.
  Proof.
    intros Hn Hq. unfold col_project. rewrite fmap_length. rewrite Forall_lookup in Hq.
    match goal with |- context [for_up 0 ?m ?f ?s0] =>
      destruct (for_up_inv (fun k (b : list V) => length b = length qs /\ forall i q, i < k -> qs !! i = Some q -> b !! i = lhs !! q) 0 m f s0) as (b & E & Hl & Hb) end.
    - lia.
    - split; [apply Hjv|]. intros i q Hi. lia.
    - intros k b Hk [Hl Hb]. destruct (lookup_lt_is_Some_2 qs k) as [q Eq]; [lia|]. rewrite (rd_Ok _ _ (Z.of_nat q)) by (rewrite list_lookup_fmap, Eq; done). cbn [obind]. specialize (Hq _ _ Eq).
      rewrite decide_False by lia. rewrite (to_size_nat q (length lhs)) by done. rewrite decide_False by lia. destruct (lookup_lt_is_Some_2 lhs q Hq) as [v Ev]. rewrite (rd_Ok _ _ _ Ev). cbn [obind]. rewrite wr_Ok by lia. eexists. split; [done|].
      rewrite insert_length. split; [done|]. intros i q' Hi Eq'. destruct (decide (i = k)) as [->|Hne].
      + rewrite list_lookup_insert by lia. congruence.
      + rewrite list_lookup_insert_ne by done. apply Hb; [lia|done].
    - exists b. split; [done|]. split; [done|]. intros i q Ei. apply Hb; [|done]. by apply lookup_lt_Some in Ei.
  Qed.
  Lemma project_throws (lhs : list V) (ps : list Z) : (Z.of_nat (length lhs) < 2 ^ 63)%Z -> Forall (fun p => - 2 ^ 63 <= p < 2 ^ 63)%Z ps -> ~ Forall (fun p => 0 <= p < Z.of_nat (length lhs))%Z ps -> col_project jv lhs ps = Throw.
  Proof.
    intros Hn Hr Hp. apply not_Forall_Exists in Hp; [|intros ?; apply _]. apply Exists_exists in Hp as (p & Hin & Hbad). unfold compose in Hbad. cbn beta in Hbad. apply elem_of_list_lookup in Hin as (k & Ek). rewrite Forall_lookup in Hr.
    assert (Hlt : k < length ps) by (by apply lookup_lt_Some in Ek).
    unfold col_project. assert (Hg : forall m s, length s = length ps -> forall i, i + m = length ps -> i <= k ->
       forn m i (fun r b => let* p := rd ps r in if decide (p < 0)%Z then Throw else if decide (length lhs <= to_size p) then Throw else let* v := rd lhs (to_size p) in wr b r v) s = Throw).
    { induction m as [|m IH]; intros s Hs i Hi Hle; [lia|]. cbn [forn]. destruct (lookup_lt_is_Some_2 ps i) as [q Eq]; [lia|]. rewrite (rd_Ok _ _ _ Eq). cbn [obind]. destruct (decide (q < 0)%Z); [done|]. specialize (Hr _ _ Eq).
      assert (Ets : to_size q = Z.to_nat q) by (unfold to_size; rewrite Z.mod_small by lia; done). rewrite Ets. destruct (decide (length lhs <= Z.to_nat q)); [done|].
      destruct (decide (i = k)) as [->|Hne]; [exfalso; rewrite Ek in Eq; injection Eq as ->; lia|].
      destruct (lookup_lt_is_Some_2 lhs (Z.to_nat q)) as [v Ev]; [lia|]. rewrite (rd_Ok _ _ _ Ev). cbn [obind]. rewrite wr_Ok by lia. cbn [obind]. apply IH; [by rewrite insert_length|lia|lia]. }
    unfold for_up. apply Hg; [apply Hjv|lia|lia].
  Qed.
End Project.

(** * Sets of positions *)
Lemma filter_same {A} (P Q : A -> Prop) `{forall x, Decision (P x)} `{forall x, Decision (Q x)} (l : list A) : (forall x, x ∈ l -> P x <-> Q x) -> filter P l = filter Q l.
Proof.
  induction l as [|x l IH]; intros Hl; [done|]. rewrite !filter_cons. rewrite IH by (intros y Hy; apply Hl; by right). specialize (Hl x ltac:(left)). destruct (decide (P x)), (decide (Q x)); tauto.
Qed.
Lemma filter_empty_list {A} (P : A -> Prop) `{forall x, Decision (P x)} (l : list A) : (forall x, x ∈ l -> ~ P x) -> filter P l = [].
Proof. induction l as [|x l IH]; intros Hl; [done|]. rewrite filter_cons_False by (apply Hl; left). apply IH. intros y Hy. apply Hl. by right. Qed.
Lemma drop_cons {A} (l : list A) i x : l !! i = Some x -> drop i l = x :: drop (S i) l.
Proof. intros H. by apply drop_S. Qed.
Lemma sorted_drop (l : list Z) i : StronglySorted Z.lt l -> StronglySorted Z.lt (drop i l).
Proof. revert i. induction l as [|x l IH]; intros [|i] H; cbn; [done|done|done|]. apply StronglySorted_inv in H as [H _]. by apply IH. Qed.
Lemma sorted_head (l : list Z) i x y : StronglySorted Z.lt l -> l !! i = Some x -> y ∈ drop (S i) l -> (x < y)%Z.
Proof.
  intros H E Hy. apply (sorted_drop _ i) in H. rewrite (drop_cons _ _ _ E) in H. apply StronglySorted_inv in H as [_ H]. rewrite Forall_forall in H. by apply H.
Qed.

Lemma intersect_loop_ok (lhs rhs : list Z) : StronglySorted Z.lt lhs -> StronglySorted Z.lt rhs -> forall fuel i j k b,
  i <= length lhs -> j <= length rhs -> (length lhs - i) + (length rhs - j) <= fuel -> k <= i -> k <= j -> length lhs `min` length rhs <= length b ->
  exists b' k', intersect_loop fuel lhs rhs i j k b = Ok (Some (b', k')) /\ take k' b' = take k b ++ filter (fun x => x ∈ drop j rhs) (drop i lhs).
Proof.
  intros Sl Sr. induction fuel as [|fuel IH]; intros i j k b Hi Hj Hf Hki Hkj Hb; cbn [intersect_loop].
  - rewrite decide_False by lia. exists b, k. split; [done|]. rewrite (drop_ge lhs) by lia. by rewrite filter_nil, app_nil_r.
  - case_decide as Hc.
    + destruct Hc as [Hil Hjl]. destruct (lookup_lt_is_Some_2 lhs i Hil) as [x Ex]. destruct (lookup_lt_is_Some_2 rhs j Hjl) as [y Ey]. rewrite (rd_Ok _ _ _ Ex), (rd_Ok _ _ _ Ey). cbn [obind].
      case_decide as Hxy; [|case_decide as Hyx].
      * rewrite Nat.add_1_r. destruct (IH (S i) j k b) as (b' & k' & E & Ht); [lia..|]. exists b', k'. split; [done|]. rewrite Ht. f_equal. rewrite (drop_cons lhs i x Ex). rewrite filter_cons_False; [done|].
        rewrite (drop_cons rhs j y Ey). intros [->|Hin]%elem_of_cons; [lia|]. pose proof (sorted_head rhs j y x Sr Ey Hin). lia.
      * rewrite Nat.add_1_r. destruct (IH i (S j) k b) as (b' & k' & E & Ht); [lia..|]. exists b', k'. split; [done|]. rewrite Ht. f_equal. rewrite (drop_cons rhs j y Ey).
        apply filter_same. intros z Hz. rewrite elem_of_cons. split; [by right|]. intros [->|?]; [|done]. exfalso. rewrite (drop_cons lhs i x Ex) in Hz. apply elem_of_cons in Hz as [->|Hz]; [lia|]. pose proof (sorted_head lhs i x y Sl Ex Hz). lia.
      * assert (y = x) as -> by lia. rewrite wr_Ok by lia. cbn [obind]. rewrite !Nat.add_1_r. destruct (IH (S i) (S j) (S k) (<[k:=x]> b)) as (b' & k' & E & Ht); [lia|lia|lia|lia|lia|by rewrite insert_length|]. exists b', k'. split; [done|].
        rewrite Ht. rewrite (take_S_r _ _ x) by (apply list_lookup_insert; lia). rewrite take_insert by lia. rewrite <- app_assoc. f_equal. rewrite (drop_cons lhs i x Ex), (drop_cons rhs j x Ey). rewrite filter_cons_True by left. cbn [app]. f_equal.
        apply filter_same. intros z Hz. rewrite elem_of_cons. split; [by right|]. intros [->|?]; [|done]. pose proof (sorted_head lhs i x x Sl Ex Hz). lia.
    + exists b, k. split; [done|]. destruct (decide (i < length lhs)) as [Hil|Hil].
      * rewrite (drop_ge rhs) by lia. rewrite filter_empty_list; [by rewrite app_nil_r|]. intros z _ Hz. by apply elem_of_nil in Hz.
      * rewrite (drop_ge lhs) by lia. by rewrite filter_nil, app_nil_r.
Qed.

Lemma intersect_ok junk fuel lhs rhs : sized junk -> StronglySorted Z.lt lhs -> StronglySorted Z.lt rhs -> length lhs + length rhs <= fuel ->
  col_intersect junk fuel lhs rhs = Ok (Some (filter (fun x => x ∈ rhs) lhs)).
Proof.
  intros Hj Sl Sr Hf. unfold col_intersect. destruct (intersect_loop_ok lhs rhs Sl Sr fuel 0 0 0 (junk (length lhs `min` length rhs))) as (b & k & -> & Ht); [lia..|by rewrite Hj|]. cbn [obind fst snd]. rewrite Ht. done.
Qed.

(** Two strictly increasing lists with the same elements are equal. *)
Lemma sorted_eq (l m : list Z) : StronglySorted Z.lt l -> StronglySorted Z.lt m -> (forall x, x ∈ l <-> x ∈ m) -> l = m.
Proof.
  revert m. induction l as [|x l IH]; intros [|y m] Hl Hm H.
  - done.
  - exfalso. assert (y ∈ @nil Z) as Hn by (apply H; left). by apply elem_of_nil in Hn.
  - exfalso. assert (x ∈ @nil Z) as Hn by (apply H; left). by apply elem_of_nil in Hn.
  - apply StronglySorted_inv in Hl as [Sl Fl]. apply StronglySorted_inv in Hm as [Sm Fm]. rewrite Forall_forall in Fl, Fm.
    assert (x = y) as ->.
    { assert (Hx : x ∈ y :: m) by (apply H; left). assert (Hy : y ∈ x :: l) by (apply H; left). apply elem_of_cons in Hx as [->|Hx]; [done|]. apply elem_of_cons in Hy as [->|Hy]; [done|]. specialize (Fl _ Hy). specialize (Fm _ Hx). lia. }
    f_equal. apply IH; [done|done|]. intros z. specialize (H z). rewrite !elem_of_cons in H. split; intros Hz.
    + destruct H as [H _]. destruct H as [->|?]; [by right| |done]. specialize (Fl _ Hz). lia.
    + destruct H as [_ H]. destruct H as [->|?]; [by right| |done]. specialize (Fm _ Hz). lia.
Qed.

Lemma sorted_snoc (l : list Z) x : StronglySorted Z.lt l -> (forall y, y ∈ l -> (y < x)%Z) -> StronglySorted Z.lt (l ++ [x]).
Proof.
  induction l as [|y l IH]; intros H Hx; cbn [app]; [constructor; [constructor|constructor]|]. apply StronglySorted_inv in H as [H F]. constructor.
  - apply IH; [done|]. intros z Hz. apply Hx. by right.
  - apply Forall_app. split; [done|]. apply Forall_singleton. apply Hx. left.
Qed.

(** The result so far: strictly increasing, the elements are those passed over, and smaller than those to come. *)
Definition merged (lhs rhs : list Z) (i j : nat) (acc : list Z) : Prop :=
  StronglySorted Z.lt acc /\ (forall x, x ∈ acc <-> x ∈ take i lhs \/ x ∈ take j rhs) /\ (forall x y, x ∈ acc -> y ∈ drop i lhs \/ y ∈ drop j rhs -> (x < y)%Z) /\ length acc <= i + j.
Lemma merged_left lhs rhs i j acc x : StronglySorted Z.lt lhs -> merged lhs rhs i j acc -> lhs !! i = Some x -> (forall y, y ∈ drop j rhs -> (x < y)%Z) -> merged lhs rhs (S i) j (acc ++ [x]).
Proof.
  intros Sl (Ss & Hin & Hlt & Hlen) Ex Hy. split; [|split; [|split]].
  - apply sorted_snoc; [done|]. intros y Hyin. apply Hlt; [done|]. left. rewrite (drop_cons _ _ _ Ex). left.
  - intros z. rewrite elem_of_app, elem_of_list_singleton, Hin, (take_S_r _ _ _ Ex), elem_of_app, elem_of_list_singleton. tauto.
  - intros z y Hz Hyin. apply elem_of_app in Hz as [Hz| ->%elem_of_list_singleton].
    + apply Hlt; [done|]. destruct Hyin as [Hyin|Hyin]; [left|by right]. rewrite (drop_cons _ _ _ Ex). by right.
    + destruct Hyin as [Hyin|Hyin]; [|by apply Hy]. by apply (sorted_head lhs i).
  - rewrite app_length. cbn. lia.
Qed.
Lemma merged_right lhs rhs i j acc y : StronglySorted Z.lt rhs -> merged lhs rhs i j acc -> rhs !! j = Some y -> (forall x, x ∈ drop i lhs -> (y < x)%Z) -> merged lhs rhs i (S j) (acc ++ [y]).
Proof.
  intros Sr (Ss & Hin & Hlt & Hlen) Ey Hx. destruct (merged_left rhs lhs j i acc y Sr) as (M1 & M2 & M3 & M4); [|done|done|].
  - split; [done|]. split; [intros z; rewrite Hin; tauto|]. split; [intros z w Hz Hw; apply Hlt; [done|tauto]|lia].
  - split; [done|]. split; [intros z; rewrite M2; tauto|]. split; [intros z w Hz Hw; apply M3; [done|tauto]|lia].
Qed.
Lemma merged_both lhs rhs i j acc x : StronglySorted Z.lt lhs -> StronglySorted Z.lt rhs -> merged lhs rhs i j acc -> lhs !! i = Some x -> rhs !! j = Some x -> merged lhs rhs (S i) (S j) (acc ++ [x]).
Proof.
  intros Sl Sr (Ss & Hin & Hlt & Hlen) Ex Ey. split; [|split; [|split]].
  - apply sorted_snoc; [done|]. intros y Hyin. apply Hlt; [done|]. left. rewrite (drop_cons _ _ _ Ex). left.
  - intros z. rewrite elem_of_app, elem_of_list_singleton, Hin, (take_S_r _ _ _ Ex), (take_S_r _ _ _ Ey), !elem_of_app, !elem_of_list_singleton. tauto.
  - intros z y Hz Hyin. apply elem_of_app in Hz as [Hz| ->%elem_of_list_singleton].
    + apply Hlt; [done|]. destruct Hyin as [Hyin|Hyin]; [left; rewrite (drop_cons _ _ _ Ex)|right; rewrite (drop_cons _ _ _ Ey)]; by right.
    + destruct Hyin as [Hyin|Hyin]; [by apply (sorted_head lhs i)|by apply (sorted_head rhs j)].
  - rewrite app_length. cbn. lia.
Qed.
Lemma head_le (l : list Z) i x y : StronglySorted Z.lt l -> l !! i = Some x -> y ∈ drop i l -> (x <= y)%Z.
Proof. intros S E Hy. rewrite (drop_cons _ _ _ E) in Hy. apply elem_of_cons in Hy as [->|Hy]; [lia|]. pose proof (sorted_head l i x y S E Hy). lia. Qed.

Lemma merge_loop_ok (lhs rhs : list Z) : StronglySorted Z.lt lhs -> StronglySorted Z.lt rhs -> forall fuel i j b acc,
  i <= length lhs -> j <= length rhs -> (length lhs - i) + (length rhs - j) <= fuel -> length lhs + length rhs <= length b -> take (length acc) b = acc -> merged lhs rhs i j acc ->
  exists i' j' b' acc', merge_loop fuel lhs rhs i j (length acc) b = Ok (Some (i', j', length acc', b')) /\ i' <= length lhs /\ j' <= length rhs /\ (i' = length lhs \/ j' = length rhs) /\ length b' = length b /\ take (length acc') b' = acc' /\ merged lhs rhs i' j' acc'.
Proof.
  intros Sl Sr. induction fuel as [|fuel IH]; intros i j b acc Hi Hj Hf Hb Ht HM; cbn [merge_loop].
  - rewrite decide_False by lia. exists i, j, b, acc. split; [done|]. split; [done|]. split; [done|]. split; [lia|]. done.
  - case_decide as Hc.
    + destruct Hc as [Hil Hjl]. destruct (lookup_lt_is_Some_2 lhs i Hil) as [x Ex]. destruct (lookup_lt_is_Some_2 rhs j Hjl) as [y Ey]. rewrite (rd_Ok _ _ _ Ex), (rd_Ok _ _ _ Ey). cbn [obind]. pose proof HM as (_ & _ & _ & Hlen).
      assert (Hstep : forall v, take (length (acc ++ [v])) (<[length acc:=v]> b) = acc ++ [v]).
      { intros v. rewrite app_length. cbn [length]. rewrite Nat.add_1_r. rewrite (take_S_r _ _ v) by (apply list_lookup_insert; lia). rewrite take_insert by lia. by rewrite Ht. }
      assert (Hl1 : forall v, length acc + 1 = length (acc ++ [v])) by (intros v; by rewrite app_length).
      case_decide as Hxy; [|case_decide as Hyx].
      * rewrite wr_Ok by lia. cbn [obind]. rewrite (Hl1 x), (Nat.add_1_r i). destruct (IH (S i) j (<[length acc:=x]> b) (acc ++ [x])) as (i' & j' & b' & acc' & H); [lia|lia|lia|by rewrite insert_length|apply Hstep| |].
        { apply merged_left; [done|done|done|]. intros z Hz. pose proof (head_le rhs j y z Sr Ey Hz). lia. }
        exists i', j', b', acc'. by rewrite insert_length in H.
      * rewrite wr_Ok by lia. cbn [obind]. rewrite (Hl1 y), (Nat.add_1_r j). destruct (IH i (S j) (<[length acc:=y]> b) (acc ++ [y])) as (i' & j' & b' & acc' & H); [lia|lia|lia|by rewrite insert_length|apply Hstep| |].
        { apply merged_right; [done|done|done|]. intros z Hz. pose proof (head_le lhs i x z Sl Ex Hz). lia. }
        exists i', j', b', acc'. by rewrite insert_length in H.
      * assert (y = x) as -> by lia. rewrite wr_Ok by lia. cbn [obind]. rewrite (Hl1 x), (Nat.add_1_r i), (Nat.add_1_r j). destruct (IH (S i) (S j) (<[length acc:=x]> b) (acc ++ [x])) as (i' & j' & b' & acc' & H); [lia|lia|lia|by rewrite insert_length|apply Hstep| |].
        { by apply merged_both. }
        exists i', j', b', acc'. by rewrite insert_length in H.
    + exists i, j, b, acc. split; [done|]. split; [done|]. split; [done|]. split; [lia|]. done.
Qed.
Lemma copy_rest_ok (src b : list Z) i acc : i <= length src -> length acc + (length src - i) <= length b -> take (length acc) b = acc ->
  exists b', copy_rest src i (b, length acc) = Ok (b', length (acc ++ drop i src)) /\ length b' = length b /\ take (length (acc ++ drop i src)) b' = acc ++ drop i src.
Proof.
  intros Hi Hb Ht. unfold copy_rest.
  match goal with |- context [for_up i (length src) ?f ?s0] =>
    destruct (for_up_inv (fun k (s : list Z * nat) => length (fst s) = length b /\ snd s = length acc + (k - i) /\ take (snd s) (fst s) = acc ++ take (k - i) (drop i src)) i (length src) f s0) as ([b' k] & E & Hl & Hk & Ht') end.
  - lia.
  - cbn [fst snd]. rewrite Nat.sub_diag. cbn [take]. rewrite app_nil_r, Nat.add_0_r. done.
  - intros k [b' c] Hk (Hl & Hc & Ht'). cbn [fst snd] in *. destruct (lookup_lt_is_Some_2 src k) as [x Ex]; [lia|]. rewrite (rd_Ok _ _ _ Ex). cbn [obind]. rewrite wr_Ok by lia. cbn [obind]. eexists. split; [done|]. cbn [fst snd]. rewrite insert_length. split; [done|]. split; [lia|].
    rewrite Nat.add_1_r. rewrite (take_S_r _ _ x) by (apply list_lookup_insert; lia). rewrite take_insert by lia. rewrite Ht'. replace (1 + k - i) with (S (k - i)) by lia. rewrite (take_S_r (drop i src) (k - i) x) by (rewrite lookup_drop; by replace (i + (k - i)) with k by lia). by rewrite app_assoc.
  - cbn [fst snd] in *. exists b'. rewrite E. rewrite (take_ge (drop i src)) in Ht' by (rewrite drop_length; lia). assert (k = length (acc ++ drop i src)) as <- by (rewrite app_length, drop_length; lia). done.
Qed.
Lemma merge_ok junk fuel lhs rhs : sized junk -> StronglySorted Z.lt lhs -> StronglySorted Z.lt rhs -> length lhs + length rhs <= fuel ->
  exists res, col_merge junk fuel lhs rhs = Ok (Some res) /\ StronglySorted Z.lt res /\ forall x, x ∈ res <-> x ∈ lhs \/ x ∈ rhs.
Proof.
  intros Hj Sl Sr Hf. unfold col_merge. destruct (merge_loop_ok lhs rhs Sl Sr fuel 0 0 (junk (length lhs + length rhs)) []) as (i & j & b & acc & E & Hi & Hj' & Hend & Hlb & Ht & HM); [lia|lia|lia|by rewrite Hj|done| |].
  { split; [constructor|]. split; [intros x; rewrite !take_0; split; [by left|by intros [?|?]]|]. split; [intros x y Hx; by apply elem_of_nil in Hx|cbn; lia]. }
  cbn [length] in E. rewrite E. cbn [obind]. rewrite Hj in Hlb. pose proof HM as (HS & Hin & Hlt & Hlen).
  destruct (copy_rest_ok lhs b i acc) as (b1 & E1 & Hl1 & Ht1); [done|lia|done|]. rewrite E1. cbn [obind]. destruct (copy_rest_ok rhs b1 j (acc ++ drop i lhs)) as (b2 & E2 & Hl2 & Ht2); [done|rewrite app_length, drop_length; lia|done|]. rewrite E2. cbn [obind fst snd]. rewrite Ht2.
  eexists. split; [done|]. split.
  - assert (Happ : forall (a d : list Z), StronglySorted Z.lt a -> StronglySorted Z.lt d -> (forall x y, x ∈ a -> y ∈ d -> (x < y)%Z) -> StronglySorted Z.lt (a ++ d)).
    { clear. induction a as [|z a IH]; intros d Sa Sd H; [done|]. apply StronglySorted_inv in Sa as [Sa Fa]. cbn [app]. constructor; [apply IH; [done|done|intros x y Hx Hy; apply H; [by right|done]]|]. apply Forall_app. split; [done|]. apply Forall_forall. intros y Hy. apply H; [left|done]. }
    destruct Hend as [->| ->].
    + rewrite (drop_ge lhs) by lia. rewrite app_nil_r. apply Happ; [done|by apply sorted_drop|]. intros x y Hx Hy. apply Hlt; [done|by right].
    + rewrite (drop_ge rhs) by lia. rewrite app_nil_r. apply Happ; [done|by apply sorted_drop|]. intros x y Hx Hy. apply Hlt; [done|by left].
  - intros x. rewrite !elem_of_app, Hin. rewrite <- (take_drop i lhs) at 3. rewrite <- (take_drop j rhs) at 3. rewrite !elem_of_app. tauto.
Qed.
