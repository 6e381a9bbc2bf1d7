(** Lemmas on the columnar joins and on grouping. *)
From stdpp Require Import base numbers sorting list list_numbers.
From Coq Require Import ZArith Lia.
From Verif Require Import CppBase Mem BitmapModel Bitmap OrderModel OrderProofs JoinModel Join ColumnarModel ColumnarSpec ColumnarProofs.
Local Open Scope nat_scope.

Section HT.
  Context {V : Type} `{EqDecision V}.
  Implicit Types (m : list (V * Z)) (lk rk : list V).
  Lemma ht_set_find k r m k' : ht_find k' (ht_set k r m) = if decide (k = k') then Some r else ht_find k' m.
  Proof.
    induction m as [|[k0 r0] m IH]; cbn [ht_set ht_find]; [done|]. destruct (decide (k0 = k)) as [->|Hne]; cbn [ht_find].
    - destruct (decide (k = k')); done.
    - rewrite IH. destruct (decide (k0 = k')) as [->|]; [|done]. rewrite decide_False by congruence. done.
  Qed.
  Lemma ht_at_spec k m : ht_at k m = match ht_find k m with Some r => (r, m) | None => (0%Z, m ++ [(k, 0%Z)]) end.
  Proof.
    induction m as [|[k0 r0] m IH]; cbn [ht_at ht_find app]; [done|]. destruct (decide (k0 = k)) as [->|Hne]; [done|]. rewrite IH. by destruct (ht_find k m).
  Qed.
  Lemma ht_set_length k r m x : ht_find k m = Some x -> length (ht_set k r m) = length m.
  Proof. induction m as [|[k0 r0] m IH]; cbn [ht_set ht_find]; [done|]. destruct (decide (k0 = k)) as [->|Hne]; cbn [length]; [done|]. intros H. by rewrite IH. Qed.
  Lemma ht_find_app k m1 m2 : ht_find k (m1 ++ m2) = match ht_find k m1 with Some r => Some r | None => ht_find k m2 end.
  Proof. induction m1 as [|[k0 r0] m1 IH]; cbn [ht_find app]; [done|]. by destruct (decide (k0 = k)). Qed.

  (** ** Joins *)
  (** the last row of the right side with the key *)
  Definition last_match rk (v : V) : option nat := last (filter (fun r => rk !! r = Some v) (seq 0 (length rk))).
  Definition join_to lk rk (n : nat) : list (nat * nat) := omap (fun l => v ← lk !! l; r ← last_match rk v; Some (l, r)) (seq 0 n).
  Definition join_pairs lk rk := join_to lk rk (length lk).
  Lemma join_to_S lk rk n : join_to lk rk (S n) = join_to lk rk n ++ match v ← lk !! n; r ← last_match rk v; Some (n, r) with Some p => [p] | None => [] end.
  Proof. unfold join_to. rewrite seq_S, omap_app. cbn [omap list_omap plus]. destruct (lk !! n) as [v|]; cbn; [|done]. by destruct (last_match rk v). Qed.
  Lemma join_to_mono lk rk (k n : nat) : k <= n -> length (join_to lk rk k) <= length (join_to lk rk n).
  Proof. intros H. unfold join_to. replace n with (k + (n - k)) by lia. rewrite seq_app, omap_app, app_length. lia. Qed.
  Lemma join_to_le lk rk n : length (join_to lk rk n) <= n.
  Proof. induction n as [|n IH]; [done|]. rewrite join_to_S, app_length. destruct (_ ≫= _); cbn; lia. Qed.

  Lemma build_ht rk : exists ht, for_up 0 (length rk) (fun r ht => let* v := rd rk r in Ok (ht_set v (Z.of_nat r) ht)) [] = Ok ht /\ forall v, ht_find v ht = Z.of_nat <$> last_match rk v.
  Proof.
    match goal with |- context [for_up 0 ?n ?f ?s0] => destruct (for_up_inv (fun k (ht : list (V * Z)) => forall v, ht_find v ht = Z.of_nat <$> last (filter (fun r => rk !! r = Some v) (seq 0 k))) 0 n f s0) as (ht & E & H) end.
    - lia.
    - done.
    - intros k ht Hk IH. destruct (lookup_lt_is_Some_2 rk k) as [v Ev]; [lia|]. rewrite (rd_Ok _ _ _ Ev). cbn [obind]. eexists. split; [done|]. intros w. rewrite ht_set_find. replace (1 + k) with (S k) by lia. rewrite filter_seq_S. destruct (decide (v = w)) as [->|Hne].
      + rewrite decide_True by done. by rewrite last_snoc.
      + rewrite decide_False by congruence. by rewrite app_nil_r.
    - exists ht. done.
  Qed.
  Lemma probe_step (ht : list (V * Z)) lk rk r b c : (forall v, ht_find v ht = Z.of_nat <$> last_match rk v) -> r < length lk ->
    length (join_to lk rk r) <= length b -> length (join_to lk rk r) <= length c ->
    (let* v := rd lk r in match ht_find v ht with Some p => let* b := wr b (length (join_to lk rk r)) (Z.of_nat r) in let* c := wr c (length (join_to lk rk r)) p in Ok (b, c, length (join_to lk rk r) + 1) | None => Ok (b, c, length (join_to lk rk r)) end) =
    (if decide (length (join_to lk rk (S r)) <= length b) then if decide (length (join_to lk rk (S r)) <= length c) then
      Ok (match v ← lk !! r; q ← last_match rk v; Some (r, q) with Some p => (<[length (join_to lk rk r) := Z.of_nat (fst p)]> b, <[length (join_to lk rk r) := Z.of_nat (snd p)]> c, length (join_to lk rk (S r))) | None => (b, c, length (join_to lk rk r)) end) else UB else UB).
  Proof.
    intros Hht Hr Hb Hc. destruct (lookup_lt_is_Some_2 lk r Hr) as [v Ev]. rewrite (rd_Ok _ _ _ Ev). cbn [obind]. rewrite Hht, join_to_S, Ev. cbn [mbind option_bind]. destruct (last_match rk v) as [q|]; cbn [fmap option_fmap option_map mbind option_bind fst snd].
    - rewrite app_length. cbn [length]. unfold wr. destruct (decide (length (join_to lk rk r) < length b)), (decide (length (join_to lk rk r) + 1 <= length b)); try lia; cbn [obind]; [|done].
      destruct (decide (length (join_to lk rk r) < length c)), (decide (length (join_to lk rk r) + 1 <= length c)); try lia; done.
    - rewrite app_nil_r. rewrite !decide_True by done. done.
  Qed.
  Lemma join_ok junk lk rk n : sized junk -> length (join_pairs lk rk) <= match n with None => length lk | Some k => k end ->
    col_join junk lk rk n = Ok (Z.of_nat <$> (join_pairs lk rk).*1, Z.of_nat <$> (join_pairs lk rk).*2).
  Proof.
    intros Hj Hn. unfold col_join. destruct (build_ht rk) as (ht & -> & Hht). cbn [obind]. set (cap := match n with None => length lk | Some k => k end) in *.
    match goal with |- context [for_up 0 ?m ?f ?s0] => destruct (for_up_inv (fun k (s : list Z * list Z * nat) => let '(b, c, x) := s in length b = cap /\ length c = cap /\ x = length (join_to lk rk k) /\ take x b = Z.of_nat <$> (join_to lk rk k).*1 /\ take x c = Z.of_nat <$> (join_to lk rk k).*2) 0 m f s0) as ([[b c] x] & E & H) end.
    - lia.
    - rewrite Hj. done.
    - intros k [[b c] x] Hk (Hb & Hc & -> & Tb & Tc). replace (1 + k) with (S k) by lia. pose proof (join_to_mono lk rk (S k) (length lk) ltac:(lia)) as Hm. pose proof (join_to_mono lk rk k (length lk) ltac:(lia)) as Hm'. unfold join_pairs in Hn.
      rewrite (probe_step ht lk rk k b c) by (done || lia). rewrite !decide_True by lia. eexists. split; [done|]. rewrite join_to_S in Hm |- *. destruct (v ← lk !! k; r ← last_match rk v; Some (k, r)) as [[l r]|]; cbn [fst snd].
      + rewrite app_length in Hm |- *. cbn [length] in Hm |- *. rewrite !insert_length. split; [done|]. split; [done|]. split; [done|]. rewrite !fmap_app, Nat.add_1_r. cbn [fmap list_fmap fst snd].
        rewrite !(take_S_r (<[_:=_]> _) _ _) by (apply list_lookup_insert; lia). rewrite !take_insert by lia. by rewrite Tb, Tc.
      + rewrite app_nil_r. done.
    - rewrite E. cbn [obind]. destruct H as (_ & _ & -> & -> & ->). done.
  Qed.
  (** with a result size that is too small, the arrays are left *)
  Lemma join_out junk lk rk k : sized junk -> k < length (join_pairs lk rk) -> col_join junk lk rk (Some k) = UB.
  Proof.
    intros Hj Hn. unfold col_join. destruct (build_ht rk) as (ht & -> & Hht). cbn [obind].
    match goal with |- context [for_up 0 ?m ?f ?s0] => assert (H : forall r, r <= m -> if decide (length (join_to lk rk r) <= k) then exists b c, for_up 0 r f s0 = Ok (b, c, length (join_to lk rk r)) /\ length b = k /\ length c = k else for_up 0 r f s0 = UB) end.
    { induction r as [|r IH]; intros Hr; [cbn; exists (junk k), (junk k); split; [done|]; by rewrite Hj|]. specialize (IH ltac:(lia)).
      match goal with |- context [for_up 0 (S r) ?f ?s0] => replace (for_up 0 (S r) f s0) with (let* s := for_up 0 r f s0 in f r s) by (unfold for_up; rewrite !Nat.sub_0_r; replace (S r) with (r + 1) by lia; rewrite forn_app; destruct (forn r 0 f s0) as [s| |]; cbn [obind forn plus]; [by destruct (f r s)|done|done]) end.
      pose proof (join_to_mono lk rk r (S r) ltac:(lia)) as Hm. destruct (decide (length (join_to lk rk r) <= k)) as [Hle|Hgt].
      - destruct IH as (b & c & -> & Hb & Hc). cbn [obind]. rewrite (probe_step ht lk rk r b c) by (done || lia). rewrite Hb, Hc. destruct (decide (length (join_to lk rk (S r)) <= k)); [|done].
        rewrite join_to_S. destruct (v ← lk !! r; r0 ← last_match rk v; Some (r, r0)) as [p|].
        + eexists _, _. split; [done|]. by rewrite !insert_length.
        + rewrite app_nil_r. eauto.
      - rewrite IH. cbn [obind]. rewrite decide_False by lia. done. }
    specialize (H (length lk) ltac:(lia)). unfold join_pairs in Hn. rewrite decide_False in H by lia. by rewrite H.
  Qed.

  Lemma last_match_in rk v r : last_match rk v = Some r -> rk !! r = Some v.
  Proof. unfold last_match. intros H%last_Some_elem_of. by apply elem_of_list_filter in H as [H _]. Qed.
  Lemma last_match_some rk v r : rk !! r = Some v -> exists q, last_match rk v = Some q /\ r <= q.
  Proof.
    intros Hr. unfold last_match. assert (H : r ∈ filter (fun r => rk !! r = Some v) (seq 0 (length rk))) by (apply elem_of_list_filter; split; [done|]; apply elem_of_seq; apply lookup_lt_Some in Hr; lia).
    assert (HS : StronglySorted lt (filter (fun r => rk !! r = Some v) (seq 0 (length rk)))) by apply filter_sorted, seq_sorted'.
    revert H HS. generalize (filter (fun r => rk !! r = Some v) (seq 0 (length rk))). clear. intros l H HS. induction l as [|x l IH] using rev_ind; [by apply elem_of_nil in H|]. exists x. rewrite last_snoc. split; [done|]. apply elem_of_app in H as [H| ->%elem_of_list_singleton]; [|done].
    clear IH. induction l as [|y l IH]; [by apply elem_of_nil in H|]. cbn [app] in HS. apply StronglySorted_inv in HS as [HS F]. apply elem_of_cons in H as [->|H]; [|by apply IH]. rewrite Forall_forall in F. specialize (F x ltac:(apply elem_of_app; right; by left)). lia.
  Qed.
End HT.

(** * Grouping *)
Section Grouping.
  Context (R : nat -> nat -> Prop) `{HR : forall i j, Decision (R i j)}.
  Lemma firsts_S n : firsts R (S n) = firsts R n ++ (if decide (Forall (fun j => ~ R j n) (seq 0 n)) then [n] else []).
  Proof. unfold firsts. rewrite seq_S, filter_app, filter_cons, filter_nil. done. Qed.
  Lemma firsts_in n f : f ∈ firsts R n <-> f < n /\ forall j, j < f -> ~ R j f.
  Proof.
    unfold firsts. rewrite elem_of_list_filter, elem_of_seq, Forall_forall. split.
    - intros [H Hf]. split; [lia|]. intros j Hj. apply H. apply elem_of_seq. lia.
    - intros [Hf H]. split; [|lia]. intros j Hj%elem_of_seq. apply H. lia.
  Qed.
  Lemma firsts_sorted n : StronglySorted lt (firsts R n).
  Proof. unfold firsts. apply filter_sorted, seq_sorted'. Qed.
  Lemma firsts_NoDup n : NoDup (firsts R n).
  Proof. unfold firsts. apply NoDup_filter, NoDup_seq. Qed.
  Lemma firsts_le n : length (firsts R n) <= n.
  Proof. unfold firsts. etransitivity; [apply filter_length|]. by rewrite seq_length. Qed.
  Lemma firsts_mono m n : m <= n -> length (firsts R m) <= length (firsts R n).
  Proof. intros Hm. unfold firsts. replace n with (m + (n - m)) by lia. rewrite seq_app, filter_app, app_length. lia. Qed.
End Grouping.
Lemma firsts_ext (R Q : nat -> nat -> Prop) `{forall i j, Decision (R i j)} `{forall i j, Decision (Q i j)} n : (forall i j, i < n -> j < n -> R i j <-> Q i j) -> firsts R n = firsts Q n.
Proof.
  intros HRQ. unfold firsts. apply filter_same. intros i Hi%elem_of_seq. rewrite !Forall_forall. split; intros Hf j Hj Hjr; (apply (Hf j Hj)); apply elem_of_seq in Hj; apply HRQ in Hjr; (done || lia).
Qed.
Lemma members_ext (R Q : nat -> nat -> Prop) `{forall i j, Decision (R i j)} `{forall i j, Decision (Q i j)} n f : f < n -> (forall i j, i < n -> j < n -> R i j <-> Q i j) -> members R n f = members Q n f.
Proof. intros Hf HRQ. unfold members. apply filter_same. intros i Hi%elem_of_seq. apply HRQ; lia. Qed.

(** [ids] gives every row the number of its group: the position, in the list of the first rows, of the one it is related to. *)
Definition grouped (R : nat -> nat -> Prop) `{forall i j, Decision (R i j)} (n : nat) (ids : list Z) : Prop :=
  length ids = n /\ forall i, i < n -> exists q f, ids !! i = Some (Z.of_nat q) /\ firsts R n !! q = Some f /\ R f i.
Definition equiv_to (R : nat -> nat -> Prop) (n : nat) : Prop :=
  (forall i, i < n -> R i i) /\ (forall i j, i < n -> j < n -> R i j -> R j i) /\ (forall i j k, i < n -> j < n -> k < n -> R i j -> R j k -> R i k).

Section Ids.
  Context (R : nat -> nat -> Prop) `{HR : forall i j, Decision (R i j)}.
  Lemma first_unique n q q' f f' : equiv_to R n -> firsts R n !! q = Some f -> firsts R n !! q' = Some f' -> R f f' -> q = q' /\ f = f'.
  Proof.
    intros (Er & Es & Et) Hq Hq' Hff. pose proof (elem_of_list_lookup_2 _ _ _ Hq) as Hf. pose proof (elem_of_list_lookup_2 _ _ _ Hq') as Hf'. apply firsts_in in Hf as [Hf Hmin]. apply firsts_in in Hf' as [Hf' Hmin'].
    assert (f = f') as ->. { destruct (lt_eq_lt_dec f f') as [[?|?]|?]; [by destruct (Hmin' f)|done|]. destruct (Hmin f'); [lia|]. by apply Es. }
    split; [|done]. by apply (NoDup_lookup _ _ _ _ (firsts_NoDup R n) Hq Hq').
  Qed.
  Lemma grouped_eq n ids i j : equiv_to R n -> grouped R n ids -> i < n -> j < n -> ids !! i = ids !! j <-> R i j.
  Proof.
    intros HE [Hl Hg] Hi Hj. destruct (Hg i Hi) as (q & f & Ei & Ef & Hfi). destruct (Hg j Hj) as (q' & f' & Ej & Ef' & Hfj). rewrite Ei, Ej. pose proof HE as (Er & Es & Et).
    assert (Hf : f < n) by (apply elem_of_list_lookup_2, firsts_in in Ef; tauto). assert (Hf' : f' < n) by (apply elem_of_list_lookup_2, firsts_in in Ef'; tauto). split.
    - intros [= Hq]. assert (q = q') as -> by lia. rewrite Ef in Ef'. injection Ef' as ->. apply (Et i f' j); [done..| |done]. by apply Es.
    - intros Hij. destruct (first_unique n q q' f f') as [-> _]; [done..| |done]. apply (Et f i f'); [done..|]. apply (Et i j f'); [done..|]. by apply Es.
  Qed.
  Lemma grouped_members n ids q f : equiv_to R n -> grouped R n ids -> firsts R n !! q = Some f -> members R n f = filter (fun i => ids !! i = Some (Z.of_nat q)) (seq 0 n).
  Proof.
    intros HE Hg Hq. unfold members. apply filter_same. intros i [_ Hi]%elem_of_seq. cbn in Hi. destruct Hg as [Hl Hg]. destruct (Hg i Hi) as (q' & f' & Ei & Ef' & Hfi). pose proof HE as (Er & Es & Et). rewrite Ei.
    assert (Hf : f < n) by (apply elem_of_list_lookup_2, firsts_in in Hq; tauto). assert (Hf' : f' < n) by (apply elem_of_list_lookup_2, firsts_in in Ef'; tauto). split.
    - intros Hf1. destruct (first_unique n q' q f' f) as [-> _]; [done..| |done]. apply (Et f' i f); [done..|]. by apply Es.
    - intros [= Eq]. assert (q' = q) as -> by lia. rewrite Hq in Ef'. by injection Ef' as ->.
  Qed.
End Ids.

Section GroupKernel.
  Context {K : Type} `{EqDecision K} (junk : nat -> list Z) (Hj : sized junk).
  (** rows with equal keys *)
  Definition eqk (arg : list K) (i j : nat) : Prop := arg !! i = arg !! j.
  Global Instance eqk_dec arg i j : Decision (eqk arg i j).
  Proof. unfold eqk. apply _. Defined.
  Lemma eqk_equiv (arg : list K) n : equiv_to (eqk arg) n.
  Proof. unfold eqk. split; [done|]. split; [done|]. intros. congruence. Qed.

  Lemma group_ok (arg : list K) : exists ids, col_group junk arg = Ok (ids, Z.of_nat <$> firsts (eqk arg) (length arg)) /\ grouped (eqk arg) (length arg) ids.
  Proof.
    unfold col_group. set (n := length arg).
    match goal with |- context [for_up 0 n ?body ?s0] => destruct (for_up_inv (fun r (s : list (K * Z) * list Z * list Z * nat) => let '(ht, ids, repr, k) := s in
        k = length (firsts (eqk arg) r) /\ length ht = k /\ length ids = n /\ length repr = n /\ take k repr = Z.of_nat <$> firsts (eqk arg) r /\
        (forall v g, ht_find v ht = Some g <-> exists q i, g = Z.of_nat (S q) /\ firsts (eqk arg) r !! q = Some i /\ arg !! i = Some v) /\
        (forall i, i < r -> exists q f, ids !! i = Some (Z.of_nat q) /\ firsts (eqk arg) r !! q = Some f /\ eqk arg f i)) 0 n body s0) as ([[[ht ids] repr] k] & E & H) end.
    - lia.
    - cbn. split; [done|]. split; [done|]. rewrite Hj. split; [done|]. split; [done|]. split; [done|]. split; [|lia]. intros v g. split; [done|]. intros (q & i & _ & Hq & _). done.
    - intros r [[[ht ids] repr] k] Hr (-> & Hht & Hids & Hrepr & Htk & Hfind & Hid). destruct (lookup_lt_is_Some_2 arg r) as [v Ev]; [unfold n in *; lia|]. rewrite (rd_Ok _ _ _ Ev). cbn [obind]. rewrite ht_at_spec. pose proof (firsts_le (eqk arg) r) as Hle. replace (1 + r) with (S r) by lia. rewrite firsts_S.
      destruct (ht_find v ht) as [g|] eqn:Eg.
      + pose proof Eg as Eg'. apply Hfind in Eg' as (q & i & -> & Hq & Hi). rewrite decide_False by lia. rewrite wr_Ok by lia. cbn [obind]. eexists. split; [done|].
        rewrite decide_False. 2:{ rewrite Forall_forall. intros HF. apply (HF i); [|by unfold eqk; rewrite Hi, Ev]. apply elem_of_list_lookup_2, firsts_in in Hq as [Hq _]. apply elem_of_seq. lia. }
        rewrite app_nil_r, insert_length. split; [done|]. split; [done|]. split; [done|]. split; [done|]. split; [done|]. split; [done|]. intros j Hjr. destruct (decide (j = r)) as [->|Hne].
        * exists q, i. rewrite list_lookup_insert by lia. split; [f_equal; lia|]. split; [done|]. unfold eqk. congruence.
        * rewrite list_lookup_insert_ne by done. apply Hid. lia.
      + rewrite decide_True by done. rewrite app_length. cbn [length]. rewrite wr_Ok by lia. cbn [obind]. rewrite wr_Ok by lia. cbn [obind]. eexists. split; [done|].
        assert (HF : Forall (fun j => ~ eqk arg j r) (seq 0 r)).
        { rewrite Forall_forall. intros j Hj' Heq. apply elem_of_seq in Hj'. destruct (Hid j) as (q & f & _ & Hq & Hfj); [lia|]. assert (ht_find v ht = Some (Z.of_nat (S q))); [|congruence]. apply Hfind. exists q, f. split; [done|]. split; [done|]. unfold eqk in *. congruence. }
        rewrite decide_True by done. rewrite app_length. cbn [length]. split; [done|]. split; [|split; [|split; [|split; [|split]]]].
        * rewrite (ht_set_length _ _ _ 0%Z); [by rewrite app_length, Hht|]. rewrite ht_find_app, Eg. cbn [ht_find]. by rewrite decide_True.
        * by rewrite insert_length.
        * by rewrite insert_length.
        * rewrite Nat.add_1_r. rewrite (take_S_r _ _ (Z.of_nat r)) by (apply list_lookup_insert; lia). rewrite take_insert by lia. by rewrite Htk, fmap_app.
        * intros w g. rewrite ht_set_find. destruct (decide (v = w)) as [<-|Hne].
          -- split.
             ++ intros [= <-]. exists (length (firsts (eqk arg) r)), r. split; [rewrite Hht; lia|]. split; [|done]. rewrite lookup_app_r, Nat.sub_diag by done. done.
             ++ intros (q & i & -> & Hq & Hi). destruct (decide (q < length (firsts (eqk arg) r))) as [Hlt|Hge].
                ** rewrite lookup_app_l in Hq by done. assert (ht_find v ht = Some (Z.of_nat (S q))); [|congruence]. apply Hfind. eauto.
                ** apply lookup_lt_Some in Hq. rewrite app_length in Hq. cbn in Hq. do 2 f_equal. lia.
          -- rewrite ht_find_app. cbn [ht_find]. rewrite decide_False by done. replace (match ht_find w ht with Some r0 => Some r0 | None => None end) with (ht_find w ht) by (by destruct (ht_find w ht)). rewrite Hfind. split; intros (q & i & -> & Hq & Hi); exists q, i; (split; [done|]); (split; [|done]).
             ++ by apply lookup_app_l_Some.
             ++ destruct (decide (q < length (firsts (eqk arg) r))) as [Hlt|Hge]; [by rewrite lookup_app_l in Hq|]. rewrite lookup_app_r in Hq by lia. apply list_lookup_singleton_Some in Hq as [_ <-]. congruence.
        * intros j Hjr. destruct (decide (j = r)) as [->|Hne].
          -- exists (length (firsts (eqk arg) r)), r. rewrite list_lookup_insert by lia. split; [f_equal; rewrite Hht; lia|]. split; [|done]. rewrite lookup_app_r, Nat.sub_diag by done. done.
          -- rewrite list_lookup_insert_ne by done. destruct (Hid j) as (q & f & H1 & H2 & H3); [lia|]. exists q, f. split; [done|]. split; [by apply lookup_app_l_Some|done].
    - rewrite E. cbn [obind]. destruct H as (-> & _ & Hids & _ & -> & _ & Hid). exists ids. split; [done|]. split; [done|]. intros i Hi. by apply Hid.
  Qed.
End GroupKernel.

(** The sum (or another reduction) per group *)
Lemma agg_ok {V} (zero : V) (add : V -> V -> V) (data : list V) (ids : list Z) (m : nat) : length data = length ids -> (forall i g, ids !! i = Some g -> (0 <= g < Z.of_nat m)%Z) ->
  exists res, col_agg zero add data ids m = Ok res /\ length res = m /\ forall q, q < m -> res !! q = Some (fold_left add (omap (data !!.) (filter (fun i => ids !! i = Some (Z.of_nat q)) (seq 0 (length data)))) zero).
Proof.
  intros Hl Hids. unfold col_agg. rewrite decide_False by (intros H; by apply H).
  match goal with |- context [for_up 0 ?n ?f ?s0] => destruct (for_up_inv (fun r (res : list V) => length res = m /\ forall q, q < m -> res !! q = Some (fold_left add (omap (data !!.) (filter (fun i => ids !! i = Some (Z.of_nat q)) (seq 0 r))) zero)) 0 n f s0) as (res & E & H1 & H2) end.
  - lia.
  - rewrite replicate_length. split; [done|]. intros q Hq. by rewrite lookup_replicate_2.
  - intros r res Hr [H1 H2]. destruct (lookup_lt_is_Some_2 ids r) as [g Eg]; [lia|]. destruct (lookup_lt_is_Some_2 data r) as [v Ev]; [lia|]. rewrite (rd_Ok _ _ _ Eg). cbn [obind]. specialize (Hids _ _ Eg). rewrite decide_False by lia.
    rewrite (rd_Ok _ _ _ (H2 (Z.to_nat g) ltac:(lia))). cbn [obind]. rewrite (rd_Ok _ _ _ Ev). cbn [obind]. rewrite wr_Ok by lia. eexists. split; [done|]. rewrite insert_length. split; [done|]. intros q Hq. replace (1 + r) with (S r) by lia. rewrite filter_seq_S. rewrite Eg.
    destruct (decide (q = Z.to_nat g)) as [->|Hne].
    + rewrite list_lookup_insert by lia. rewrite decide_True by (f_equal; lia). rewrite omap_app, fold_left_app. cbn [omap list_omap]. by rewrite Ev.
    + rewrite list_lookup_insert_ne by done. rewrite decide_False by (intros [= ?]; lia). rewrite app_nil_r. by apply H2.
  - exists res. done.
Qed.
