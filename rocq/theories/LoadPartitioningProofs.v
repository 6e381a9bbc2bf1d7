From Coq Require Import NArith ZArith List Lia Permutation.
From Verif Require Import LoadPartitioningModel PartitionSpec.
Import ListNotations.
Local Open Scope N_scope.

Ltac Zify.zify_post_hook ::= Z.div_mod_to_equations.

Section P.
Variable ff : float_formulas.

Record lp_ok (s : lp) : Prop := {
  ok_sum : lp_scheduled s + lp_remaining s = lp_total s;
  ok_lt : lp_total s < two64;
  ok_w : 1 <= lp_workers s;
  ok_cp : 1 <= lp_chunkParam s
}.

Lemma lp_init_ok sch tasks chunk workers auto :
  tasks < two64 -> 1 <= workers -> (auto = true \/ 1 <= chunk) ->
  lp_ok (lp_init ff sch tasks chunk workers auto).
Proof.
  intros Ht Hw Hc. split; simpl; try lia.
  destruct auto; simpl.
  - destruct (N.ltb_spec (ff_auto ff tasks workers) 1); lia.
  - destruct Hc; [discriminate|lia].
Qed.

Lemma cdiv_some a b : 1 <= b -> cdiv a b = Some (a / b).
Proof. intros H. unfold cdiv. destruct (N.eqb_spec b 0); [lia|reflexivity]. Qed.

Lemma rawChunk_some s : 1 <= lp_workers s -> exists c, rawChunk ff s = Some c.
Proof.
  intros H. unfold rawChunk.
  destruct (lp_scheme s); rewrite ?cdiv_some by assumption; simpl; try (eexists; reflexivity).
  destruct (ff_plsDynamic ff _ _); eexists; reflexivity.
Qed.

(** One step: positive chunk, at least the parameter unless it is the rest, invariant kept. *)
Lemma getNextChunk_step s :
  lp_ok s -> hasNextChunk s = true ->
  exists c s', getNextChunk ff s = Some (c, s') /\ lp_ok s' /\ 0 < c <= lp_remaining s /\
    lp_remaining s' = lp_remaining s - c /\ lp_scheduled s' = lp_scheduled s + c /\ lp_total s' = lp_total s /\
    lp_chunkParam s' = lp_chunkParam s /\ lp_workers s' = lp_workers s /\
    (lp_chunkParam s <= c \/ c = lp_remaining s).
Proof.
  intros [Hs Hl Hw Hc] Hn. unfold hasNextChunk in Hn. apply N.ltb_lt in Hn.
  unfold getNextChunk. destruct (rawChunk_some s Hw) as [raw ->].
  set (c := N.min (N.max raw (lp_chunkParam s)) (lp_remaining s)).
  assert (0 < c <= lp_remaining s) by lia.
  assert (E1 : usub64 (lp_remaining s) c = lp_remaining s - c).
  { unfold usub64. destruct (N.leb_spec c (lp_remaining s)); lia. }
  assert (E2 : wrap64 (lp_scheduled s + c) = lp_scheduled s + c).
  { unfold wrap64. apply N.mod_small. lia. }
  eexists c, _. split; [reflexivity|]. simpl. rewrite E1, E2.
  repeat split; simpl; rewrite ?E1, ?E2; try lia.
Qed.

Lemma no_next s : lp_ok s -> hasNextChunk s = false -> lp_remaining s = 0.
Proof. intros [Hs Hl Hw Hc] Hn. unfold hasNextChunk in Hn. apply N.ltb_ge in Hn. lia. Qed.

Definition last_or_ge (p : N) (l : list N) : Prop :=
  forall i c, nth_error l i = Some c -> (S i < length l)%nat -> p <= c.

Lemma allChunks_spec s : lp_ok s ->
  exists l, (forall fuel, (N.to_nat (lp_remaining s) <= fuel)%nat -> allChunks ff fuel s = Done l) /\
            sumN l = lp_remaining s /\ Forall (fun c => 0 < c) l /\
            last_or_ge (lp_chunkParam s) l /\ (length l <= N.to_nat (lp_remaining s))%nat.
Proof.
  remember (N.to_nat (lp_remaining s)) as m eqn:Em. revert s Em.
  induction m as [m IH] using lt_wf_ind. intros s Em Hok.
  destruct (hasNextChunk s) eqn:Hn.
  - destruct (getNextChunk_step s Hok Hn) as (c & s' & Hg & Hok' & Hc & Hr & Hsch & Ht & Hcp & Hww & Hge).
    assert (Hlt : (N.to_nat (lp_remaining s') < m)%nat) by (rewrite Em, Hr; lia).
    destruct (IH _ Hlt s' eq_refl Hok') as (l & Hall & Hsum & Hpos & Hlast & Hlen).
    exists (c :: l). split; [|split; [|split; [|split]]].
    + intros fuel Hf. destruct fuel as [|fuel]; [lia|]. simpl. rewrite Hn, Hg.
      rewrite Hall by lia. reflexivity.
    + simpl. fold (sumN l). rewrite Hsum, Hr. lia.
    + constructor; [lia|assumption].
    + intros [|i] x Hx Hi; simpl in *.
      * injection Hx as <-. destruct Hge as [|Heq]; [lia|].
        exfalso. assert (lp_remaining s' = 0) by lia.
        destruct l; simpl in *; [lia|]. apply Forall_inv in Hpos. lia.
      * rewrite <- Hcp. eapply Hlast; [exact Hx|lia].
    + simpl. lia.
  - exists []. pose proof (no_next s Hok Hn) as H0. split; [|split; [|split; [|split]]].
    + intros fuel _. destruct fuel; simpl; rewrite Hn; reflexivity.
    + simpl. lia.
    + constructor.
    + intros i c Hi. destruct i; discriminate.
    + simpl. lia.
Qed.

Lemma createTasks_spec s st : lp_ok s -> st + lp_remaining s < two64 ->
  exists l, (forall fuel, (N.to_nat (lp_remaining s) <= fuel)%nat ->
               createTasks ff fuel s st st = Done (l, st + lp_remaining s)) /\
            consecutive st (st + lp_remaining s) l.
Proof.
  remember (N.to_nat (lp_remaining s)) as m eqn:Em. revert s st Em.
  induction m as [m IH] using lt_wf_ind. intros s st Em Hok Hst.
  destruct (hasNextChunk s) eqn:Hn.
  - destruct (getNextChunk_step s Hok Hn) as (c & s' & Hg & Hok' & Hc & Hr & Hsch & Ht & Hcp & Hww & Hge).
    assert (Hlt : (N.to_nat (lp_remaining s') < m)%nat) by (rewrite Em, Hr; lia).
    destruct (IH _ Hlt s' (st + c) eq_refl Hok' ltac:(lia)) as (l & Hall & Hcons).
    assert (Ew : wrap64 (st + c) = st + c) by (unfold wrap64; apply N.mod_small; lia).
    assert (Ee : st + c + lp_remaining s' = st + lp_remaining s) by lia.
    exists ((st, st + c) :: l). split.
    + intros fuel Hf. destruct fuel as [|fuel]; [lia|]. simpl. rewrite Hn, Hg, Ew.
      rewrite Hall by lia. rewrite Ee. reflexivity.
    + simpl. rewrite <- Ee. split; [reflexivity|]. split; [lia|]. exact Hcons.
  - exists []. pose proof (no_next s Hok Hn) as H0. rewrite H0, N.add_0_r. split.
    + intros fuel _. destruct fuel; simpl; rewrite Hn; reflexivity.
    + simpl. reflexivity.
Qed.

(** *** Consecutive ranges form an exact cover. *)
Lemma consecutive_le a b l : consecutive a b l -> a <= b.
Proof.
  revert a. induction l as [|rg r IH]; simpl; intros a H; [lia|].
  destruct H as (<- & H1 & H2). apply IH in H2. lia.
Qed.

Lemma consecutive_In a b l rg : consecutive a b l -> In rg l -> a <= fst rg /\ fst rg < snd rg /\ snd rg <= b.
Proof.
  revert a. induction l as [|x r IH]; simpl; intros a H HI; [contradiction|].
  destruct H as (<- & H1 & H2). destruct HI as [->|HI].
  - apply consecutive_le in H2. lia.
  - apply (IH _ H2) in HI. lia.
Qed.

Lemma consecutive_cover a b l : consecutive a b l ->
  forall r, a <= r < b -> exists i rg, nth_error l i = Some rg /\ covers rg r /\
     forall j rg', nth_error l j = Some rg' -> covers rg' r -> j = i.
Proof.
  revert a. induction l as [|x l IH]; simpl; intros a H r Hr; [lia|].
  destruct H as (<- & H1 & H2).
  destruct (N.lt_ge_cases r (snd x)) as [Hlt|Hge].
  - exists O, x. split; [reflexivity|]. split; [unfold covers; lia|].
    intros [|j] rg' Hj Hc; [reflexivity|]. exfalso. simpl in Hj. apply nth_error_In in Hj.
    apply (consecutive_In _ _ _ _ H2) in Hj. unfold covers in Hc. lia.
  - destruct (IH _ H2 r ltac:(lia)) as (i & rg & Hi & Hc & Hu).
    exists (S i), rg. split; [exact Hi|]. split; [exact Hc|].
    intros [|j] rg' Hj Hc'; simpl in Hj.
    + injection Hj as <-. unfold covers in Hc'. lia.
    + f_equal. eapply Hu; eassumption.
Qed.

Lemma consecutive_exact_cover total l : consecutive 0 total l -> exact_cover total l.
Proof.
  intros H. split.
  - intros r Hr. apply (consecutive_cover 0 total l H). lia.
  - intros rg HI. apply (consecutive_In _ _ _ _ H) in HI. lia.
Qed.

(** *** Queues *)
Lemma enq_spec {T} (qs : list (list T)) q t : (q < length qs)%nat ->
  exists qs', enq qs q t = Some qs' /\ length qs' = length qs /\ Permutation (concat qs') (t :: concat qs).
Proof.
  revert q. induction qs as [|x r IH]; simpl; intros q Hq; [lia|].
  destruct q as [|q]; simpl.
  - eexists. split; [reflexivity|]. simpl. split; [reflexivity|].
    rewrite <- app_assoc. simpl. symmetry. apply Permutation_middle.
  - destruct (IH q ltac:(lia)) as (qs' & E & L & P). rewrite E. simpl.
    eexists. split; [reflexivity|]. simpl. split; [lia|]. rewrite P. symmetry. apply Permutation_middle.
Qed.

Lemma roundRobin_spec s st itr nq qs : lp_ok s -> st + lp_remaining s < two64 -> nq = N.of_nat (length qs) ->
  (0 < length qs)%nat ->
  exists l qs', (forall fuel, (N.to_nat (lp_remaining s) <= fuel)%nat ->
               roundRobin ff fuel s st st itr nq qs = Done qs') /\ length qs' = length qs /\
            consecutive st (st + lp_remaining s) l /\ Permutation (concat qs') (l ++ concat qs).
Proof.
  remember (N.to_nat (lp_remaining s)) as m eqn:Em. revert s st itr qs Em.
  induction m as [m IH] using lt_wf_ind. intros s st itr qs Em Hok Hst Hnq Hlq.
  destruct (hasNextChunk s) eqn:Hn.
  - destruct (getNextChunk_step s Hok Hn) as (c & s' & Hg & Hok' & Hc & Hr & Hsch & Ht & Hcp & Hww & Hge).
    assert (Hlt : (N.to_nat (lp_remaining s') < m)%nat) by (rewrite Em, Hr; lia).
    assert (Ew : wrap64 (st + c) = st + c) by (unfold wrap64; apply N.mod_small; lia).
    assert (Htgt : (N.to_nat (itr mod nq) < length qs)%nat).
    { pose proof (N.mod_upper_bound itr nq ltac:(lia)). lia. }
    destruct (enq_spec qs _ (st, st + c) Htgt) as (qs1 & E1 & L1 & P1).
    destruct (IH _ Hlt s' (st + c) (itr + 1) qs1 eq_refl Hok' ltac:(lia) ltac:(lia) ltac:(lia))
      as (l & qs' & Hall & L2 & Hcons & P2).
    assert (Ee : st + c + lp_remaining s' = st + lp_remaining s) by lia.
    exists ((st, st + c) :: l), qs'. split; [|split; [|split]].
    + intros fuel Hf. destruct fuel as [|fuel]; [lia|]. simpl. rewrite Hn, Hg, Ew.
      destruct (N.eqb_spec nq 0); [lia|]. rewrite E1. apply Hall. lia.
    + lia.
    + simpl. rewrite <- Ee. split; [reflexivity|]. split; [lia|exact Hcons].
    + rewrite P2, P1. simpl. symmetry. apply Permutation_middle.
  - exists [], qs. pose proof (no_next s Hok Hn) as H0. rewrite H0, N.add_0_r. split; [|split; [|split]].
    + intros fuel _. destruct fuel; simpl; rewrite Hn; reflexivity.
    + reflexivity.
    + reflexivity.
    + reflexivity.
Qed.

Lemma consecutive_app a b c l1 l2 : consecutive a b l1 -> consecutive b c l2 -> consecutive a c (l1 ++ l2).
Proof.
  revert a. induction l1 as [|x r IH]; simpl; intros a H1 H2; [subst; exact H2|].
  destruct H1 as (? & ? & ?). auto.
Qed.

Lemma prePartLoop_spec sch oc cp thr sizes st total : 1 <= cp -> 1 <= thr ->
  st + sumN sizes < two64 -> (forall x, In x sizes -> x <= total) ->
  exists qs, (forall fuel, (N.to_nat total <= fuel)%nat ->
                prePartLoop ff fuel sch oc cp thr sizes st = Done qs) /\
             length qs = length sizes /\ consecutive st (st + sumN sizes) (concat qs).
Proof.
  intros Hcp Hthr. revert st. induction sizes as [|sz r IH]; intros st Hst Hle.
  - exists []. split; [intros; reflexivity|]. split; [reflexivity|]. simpl. lia.
  - simpl in Hst. fold (sumN r) in Hst.
    assert (Hok : lp_ok (lp_init ff sch sz cp thr false)) by (apply lp_init_ok; [lia|lia|right; lia]).
    destruct (createTasks_spec _ st Hok ltac:(simpl; lia)) as (l & Hall & Hcons). simpl in Hall, Hcons.
    destruct (IH (st + sz) ltac:(lia) ltac:(intros; apply Hle; right; assumption)) as (qs & Hq & L & Hc2).
    exists (l :: qs). split; [|split].
    + intros fuel Hf. simpl. rewrite Hall by (specialize (Hle sz (or_introl eq_refl)); lia).
      rewrite Hq by assumption. reflexivity.
    + simpl. lia.
    + simpl. fold (sumN r). rewrite N.add_assoc. eapply consecutive_app; eassumption.
Qed.

Lemma sumN_repeat x n : sumN (repeat x n) = x * N.of_nat n.
Proof. induction n; simpl; [lia|]. fold (sumN (repeat x n)). rewrite IHn. lia. Qed.

Lemma prePartitioned_spec sch len cp thr nq : 1 <= cp -> 1 <= thr -> (0 < nq)%nat -> len < two64 ->
  exists qs, (forall fuel, (N.to_nat len <= fuel)%nat -> prePartitioned ff fuel sch len cp thr nq = Done qs) /\
             length qs = nq /\ consecutive 0 len (concat qs).
Proof.
  intros Hcp Hthr Hnq Hlen. unfold prePartitioned.
  destruct (Nat.eqb_spec nq 0); [lia|].
  set (oc := len / N.of_nat nq). set (rem := len - oc * N.of_nat nq).
  assert (Hoc : oc * N.of_nat nq <= len) by (unfold oc; rewrite N.mul_comm; apply N.mul_div_le; lia).
  assert (Hsum : sumN ((oc + rem) :: repeat oc (nq - 1)) = len).
  { simpl. fold (sumN (repeat oc (nq - 1))). rewrite sumN_repeat.
    replace (N.of_nat (nq - 1)) with (N.of_nat nq - 1) by lia. unfold rem.
    rewrite N.mul_sub_distr_l. nia. }
  assert (oc <= len) by nia.
  destruct (prePartLoop_spec sch oc cp thr ((oc + rem) :: repeat oc (nq - 1)) 0 len Hcp Hthr) as (qs & H1 & H2 & H3).
  - rewrite Hsum. lia.
  - intros x [<-|Hx]; [unfold rem; nia|]. apply repeat_spec in Hx. lia.
  - exists qs. split; [exact H1|]. split.
    + rewrite H2. simpl. rewrite repeat_length. lia.
    + rewrite Hsum, N.add_0_l in H3. exact H3.
Qed.

(** *** From a permutation of consecutive ranges to the statement about queues *)
Lemma nth_error_concat {T} (qs : list (list T)) k (t : T) :
  nth_error (concat qs) k = Some t ->
  exists q i ts, nth_error qs q = Some ts /\ nth_error ts i = Some t /\
                 k = (length (concat (firstn q qs)) + i)%nat.
Proof.
  revert k. induction qs as [|x r IH]; simpl; intros k H; [destruct k; discriminate|].
  destruct (Nat.lt_ge_cases k (length x)) as [Hlt|Hge].
  - rewrite nth_error_app1 in H by assumption. exists O, k, x. simpl. auto.
  - rewrite nth_error_app2 in H by assumption. destruct (IH _ H) as (q & i & ts & A & B & C).
    exists (S q), i, ts. simpl. rewrite app_length. split; [exact A|]. split; [exact B|]. lia.
Qed.

Lemma concat_nth_error {T} (qs : list (list T)) q i ts (t : T) :
  nth_error qs q = Some ts -> nth_error ts i = Some t ->
  nth_error (concat qs) (length (concat (firstn q qs)) + i) = Some t.
Proof.
  revert q. induction qs as [|x r IH]; simpl; intros q H1 H2; [destruct q; discriminate|].
  destruct q as [|q]; simpl in *.
  - injection H1 as ->. rewrite nth_error_app1; [assumption|]. apply nth_error_Some. congruence.
  - rewrite app_length. rewrite nth_error_app2 by lia.
    replace (length x + length (concat (firstn q r)) + i - length x)%nat with (length (concat (firstn q r)) + i)%nat by lia.
    apply IH; assumption.
Qed.

Lemma firstn_concat_mono {T} (qs : list (list T)) q q' ts i :
  (q < q')%nat -> nth_error qs q = Some ts -> (i < length ts)%nat ->
  (length (concat (firstn q qs)) + i < length (concat (firstn q' qs)))%nat.
Proof.
  revert q q'. induction qs as [|x r IH]; intros q q' Hlt H1 Hi; [destruct q; discriminate|].
  destruct q' as [|q']; [lia|]. destruct q as [|q]; simpl in *.
  - injection H1 as ->. rewrite app_length. lia.
  - rewrite !app_length. specialize (IH q q' ltac:(lia) H1 Hi). lia.
Qed.

Definition coversb (r : N) (rg : N * N) : bool := (fst rg <=? r) && (r <? snd rg).
Lemma coversb_spec r rg : coversb r rg = true <-> covers rg r.
Proof.
  unfold coversb, covers. rewrite Bool.andb_true_iff, N.leb_le, N.ltb_lt. lia.
Qed.

Lemma consecutive_none a b l r : consecutive a b l -> r < a -> filter (coversb r) l = [].
Proof.
  revert a. induction l as [|x l IH]; simpl; intros a H Hr; [reflexivity|].
  destruct H as (<- & H1 & H2).
  destruct (coversb r x) eqn:E; [apply coversb_spec in E; unfold covers in E; lia|].
  apply (IH _ H2). lia.
Qed.

Lemma consecutive_count a b l r : consecutive a b l -> a <= r < b -> length (filter (coversb r) l) = 1%nat.
Proof.
  revert a. induction l as [|x l IH]; simpl; intros a H Hr; [lia|].
  destruct H as (<- & H1 & H2).
  destruct (coversb r x) eqn:E.
  - apply coversb_spec in E. unfold covers in E.
    rewrite (consecutive_none _ _ _ r H2) by lia. reflexivity.
  - apply (IH _ H2). destruct (N.lt_ge_cases r (snd x)); [|lia].
    exfalso. assert (coversb r x = true) by (apply coversb_spec; unfold covers; lia). congruence.
Qed.

Lemma filter_count_unique {T} (f : T -> bool) l : length (filter f l) = 1%nat ->
  exists i t, nth_error l i = Some t /\ f t = true /\
     forall j t', nth_error l j = Some t' -> f t' = true -> j = i.
Proof.
  induction l as [|x l IH]; simpl; intros H; [discriminate|].
  destruct (f x) eqn:E.
  - simpl in H. exists O, x. split; [reflexivity|]. split; [assumption|].
    intros [|j] t' Hj Ht; [reflexivity|]. exfalso. simpl in Hj. apply nth_error_In in Hj.
    assert (HI : In t' (filter f l)) by (apply filter_In; auto).
    destruct (filter f l); [contradiction|simpl in H; lia].
  - destruct (IH H) as (i & t & A & B & C). exists (S i), t. split; [exact A|]. split; [exact B|].
    intros [|j] t' Hj Ht; simpl in Hj; [congruence|]. f_equal. eapply C; eassumption.
Qed.

Lemma filter_perm {T} (f : T -> bool) l l' : Permutation l l' -> Permutation (filter f l) (filter f l').
Proof.
  induction 1; simpl.
  - constructor.
  - destruct (f x); [constructor|]; assumption.
  - destruct (f x), (f y); try reflexivity. apply perm_swap.
  - etransitivity; eassumption.
Qed.

Lemma queues_exact total l qs : consecutive 0 total l -> Permutation (concat qs) l -> exact_cover_queues total qs.
Proof.
  intros Hc HP. split.
  - intros r Hr.
    assert (Hcount : length (filter (coversb r) (concat qs)) = 1%nat).
    { rewrite (Permutation_length (filter_perm _ _ _ HP)). eapply consecutive_count; [exact Hc|lia]. }
    destruct (filter_count_unique _ _ Hcount) as (k & t & Hk & Ht & Hu).
    destruct (nth_error_concat _ _ _ Hk) as (q & i & ts & Hq & Hi & Ek).
    exists q, i, ts, t. split; [exact Hq|]. split; [exact Hi|]. split; [apply coversb_spec; exact Ht|].
    intros q' i' ts' rg' Hq' Hi' Hc'.
    pose proof (concat_nth_error _ _ _ _ _ Hq' Hi') as Hk'.
    apply Hu in Hk'; [|apply coversb_spec; exact Hc'].
    assert (Li : (i < length ts)%nat) by (apply nth_error_Some; congruence).
    assert (Li' : (i' < length ts')%nat) by (apply nth_error_Some; congruence).
    destruct (Nat.lt_trichotomy q q') as [L|[->|L]].
    + pose proof (firstn_concat_mono qs q q' ts i L Hq Li). lia.
    + split; [reflexivity|lia].
    + pose proof (firstn_concat_mono qs q' q ts' i' L Hq' Li'). lia.
  - intros ts rg Hts Hrg.
    assert (HI : In rg (concat qs)) by (apply in_concat; eauto).
    apply (Permutation_in _ HP) in HI. apply (consecutive_In _ _ _ _ Hc) in HI. lia.
Qed.

Lemma concat_repeat_nil {T} n : concat (repeat (@nil T) n) = [].
Proof. induction n; simpl; auto. Qed.

Lemma effChunkParam_pos z : 1 <= effChunkParam z.
Proof. unfold effChunkParam. destruct (Z.leb_spec z 0); lia. Qed.

Lemma singleQueue_lemma sch len minTask threads : len < two64 -> 1 <= threads ->
  exists l, (forall fuel, (N.to_nat len <= fuel)%nat -> singleQueueTasks ff fuel sch len minTask threads = Done l)
            /\ consecutive 0 len l.
Proof.
  intros Hl Ht. unfold singleQueueTasks.
  assert (Hok : lp_ok (lp_init ff sch len (effChunkParam minTask) threads (isAuto sch))).
  { apply lp_init_ok; [lia|lia|]. right. apply effChunkParam_pos. }
  destruct (createTasks_spec _ 0 Hok) as (l & Hall & Hc); [simpl; lia|]. simpl in *.
  exists l. split; [|exact Hc]. intros fuel Hf. rewrite Hall by assumption. reflexivity.
Qed.

Lemma cpuQueues_lemma pre sch len minTask threads nq : len < two64 -> 1 <= threads -> (0 < nq)%nat ->
  exists qs, (forall fuel, (N.to_nat len <= fuel)%nat ->
                cpuQueuesTasks ff fuel pre sch len minTask threads nq = Done qs)
            /\ length qs = nq /\ exact_cover_queues len qs.
Proof.
  intros Hl Ht Hq. unfold cpuQueuesTasks. destruct pre.
  - destruct (prePartitioned_spec sch len (effChunkParam minTask) threads nq (effChunkParam_pos _) Ht Hq Hl)
      as (qs & H1 & H2 & H3).
    exists qs. split; [exact H1|]. split; [exact H2|]. eapply queues_exact; [exact H3|reflexivity].
  - assert (Hok : lp_ok (lp_init ff sch len (effChunkParam minTask) threads (isAuto sch))).
    { apply lp_init_ok; [lia|lia|]. right. apply effChunkParam_pos. }
    destruct (roundRobin_spec _ 0 0 (N.of_nat nq) (repeat [] nq) Hok) as (l & qs & H1 & H2 & H3 & H4).
    + simpl; lia.
    + rewrite repeat_length. reflexivity.
    + rewrite repeat_length. assumption.
    + simpl in *. exists qs. split; [exact H1|]. rewrite repeat_length in H2. split; [exact H2|].
      rewrite concat_repeat_nil, app_nil_r in H4. eapply queues_exact; eassumption.
Qed.

End P.
