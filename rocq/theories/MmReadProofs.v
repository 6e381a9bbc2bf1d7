(** Proofs about reading Matrix Market files into dense matrices, sparse matrices and frames. *)
From stdpp Require Import base numbers sorting list list_numbers.
From Coq Require Import ZArith Lia.
From Verif Require Import CppBase Mem CSRModel CSRSpec CSRProofs CSRAppendProofs CSRView SparseSpec Coo MmModel MmSpec MmProofs.
Local Open Scope nat_scope.

Section Dense.
  Context {V : Type} `{Val V} (one : V) (neg : V -> V).
  Implicit Types f : mmfile (V := V).
  Notation nent := (nat * nat * V)%type (only parsing).
  Implicit Types es : list nent.
  Lemma wrz_ok {A} (a : list A) i v : i < length a -> wrz a (Z.of_nat i) v = Ok (<[i:=v]> a).
  Proof. intros Hi. unfold wrz. rewrite decide_True by lia. rewrite Nat2Z.id. by rewrite wr_Ok. Qed.
  Lemma cell_inj m i j i' j' : j < m -> j' < m -> i * m + j = i' * m + j' -> i = i' /\ j = j'.
  Proof. intros Hj Hj' E. assert (i = i') by nia. subst. split; [done|lia]. Qed.
  Lemma dense_run n m es : (Z.of_nat n * Z.of_nat m < 2 ^ 64)%Z -> Forall (fun e => e.1.1 < n /\ e.1.2 < m) es -> NoDup es.*1 -> forall a, length a = n * m ->
    exists a', runl (fun e a => wrz a (wrap (e.1.1 * Z.of_nat m + e.1.2)) e.2) (toZ <$> es) a = Ok a' /\ length a' = n * m /\
      (forall i j v, (i, j, v) ∈ es -> a' !! (i * m + j) = Some v) /\ (forall i j, i < n -> j < m -> (i, j) ∉ es.*1 -> a' !! (i * m + j) = a !! (i * m + j)).
  Proof.
    intros Hsz. induction 1 as [|[[r c] v] es [Hr Hc] Hes IH]; intros Hnd a Ha; cbn [fst snd] in *.
    - exists a. split; [done|]. split; [done|]. split; [|done]. by intros i j v ?%elem_of_nil.
    - rewrite fmap_cons in Hnd. apply NoDup_cons in Hnd as [Hn1 Hn2]. cbn [fmap list_fmap runl]. cbn [toZ fst snd].
      assert (Hlt : r * m + c < n * m) by nia.
      replace (Z.of_nat r * Z.of_nat m + Z.of_nat c)%Z with (Z.of_nat (r * m + c)) by lia. rewrite wrap_small by lia. rewrite wrz_ok by lia. cbn [obind].
      destruct (IH Hn2 (<[r * m + c:=v]> a)) as (a' & E & Hl & Hin & Hout); [by rewrite insert_length|]. exists a'. split; [exact E|]. split; [done|]. split.
      + intros i j w [[= -> -> ->]|Hw]%elem_of_cons; [|by apply Hin]. rewrite Hout by done. by rewrite list_lookup_insert by lia.
      + intros i j Hi Hj Hnin. cbn [fmap list_fmap] in Hnin. apply not_elem_of_cons in Hnin as [Hne Hnin]. rewrite Hout by done. rewrite list_lookup_insert_ne; [done|]. intros E'. destruct (cell_inj m r c i j Hc Hj E') as [-> ->]. done.
  Qed.
  Lemma denotes_all f i j v : well_formed f -> (i, j, v) ∈ all one neg f -> denotes one neg f i j v.
  Proof. intros Hw Hin. left. by apply all_given. Qed.
  Lemma denotes_none f i j : well_formed f -> (i, j) ∉ (all one neg f).*1 -> denotes one neg f i j vzero.
  Proof. intros Hw Hin. right. split; [|done]. intros w Hg. apply all_given in Hg; [|done]. apply Hin. apply elem_of_list_fmap. by exists (i, j, w). Qed.
  Lemma all_cases f i j : (exists v, (i, j, v) ∈ all one neg f) \/ (i, j) ∉ (all one neg f).*1.
  Proof. destruct (decide ((i, j) ∈ (all one neg f).*1)) as [Hin|]; [left|by right]. apply elem_of_list_fmap in Hin as ([[a b] v] & [= -> ->] & Hv). by exists v. Qed.
  Lemma read_dense_ok f junk : well_formed f -> length junk = f_rows f * f_cols f ->
    exists a, read_dense one neg f junk = Ok a /\ length a = f_rows f * f_cols f /\ forall i j, i < f_rows f -> j < f_cols f -> exists v, a !! (i * f_cols f + j) = Some v /\ denotes one neg f i j v.
  Proof.
    intros Hw Hl. unfold read_dense. rewrite for_each_all by done. pose proof (all_facts one neg f Hw) as [Hnd Hr]. assert (Hw' := Hw). destruct Hw' as (Hsz & _).
    destruct (dense_run (f_rows f) (f_cols f) (all one neg f) Hsz Hr Hnd (init_cells f junk)) as (a & E & Hla & Hin & Hout).
    { unfold init_cells. destruct (decide _); [by rewrite replicate_length|done]. }
    exists a. split; [exact E|]. split; [done|]. intros i j Hi Hj. destruct (all_cases f i j) as [[v Hv]|Hn].
    - exists v. split; [by apply Hin|by apply denotes_all].
    - exists vzero. split; [|by apply denotes_none]. rewrite Hout by done. unfold init_cells. destruct (decide _) as [Hd|Hd].
      + apply lookup_replicate_2. nia.
      + exfalso. destruct (covered one neg f i j Hw) as [v Hv]; [|done|done|apply Hn, elem_of_list_fmap; by exists (i, j, v)]. destruct (decide (entry_count f = wrap (Z.of_nat (f_cols f) * Z.of_nat (f_rows f)))); [done|by destruct Hd].
  Qed.

  (** ** Sparse *)
  Definition ele (e1 e2 : nent) : Prop := e1.1.1 < e2.1.1 \/ e1.1.1 = e2.1.1 /\ e1.1.2 <= e2.1.2.
  Definition elt (e1 e2 : nent) : Prop := e1.1.1 < e2.1.1 \/ e1.1.1 = e2.1.1 /\ e1.1.2 < e2.1.2.
  Lemma enqueue_perm (e : entry (V := V)) q : enqueue e q ≡ₚ e :: q.
  Proof. induction q as [|x q IH]; [done|]. cbn [enqueue]. destruct (decide _); [done|]. rewrite IH. apply Permutation_swap. Qed.
  Lemma enqueue_sorted (e : entry (V := V)) q : StronglySorted entry_le q -> StronglySorted entry_le (enqueue e q).
  Proof.
    induction 1 as [|x q Hq IH Hx]; cbn [enqueue]; [repeat constructor|]. destruct (decide (entry_le e x)) as [E|E].
    - constructor; [by constructor|]. constructor; [done|]. eapply Forall_impl; [exact Hx|]. intros y Hy. unfold entry_le in *. lia.
    - assert (Hxe : entry_le x e) by (unfold entry_le in *; lia). constructor; [done|]. rewrite Forall_forall in Hx. apply Forall_forall. intros y Hy. rewrite enqueue_perm in Hy. apply elem_of_cons in Hy as [->|Hy]; [done|by apply Hx].
  Qed.
  Lemma queue_all (es : list (entry (V := V))) : forall q, StronglySorted entry_le q -> exists q', runl (fun e q => Ok (enqueue e q)) es q = Ok q' /\ q' ≡ₚ es ++ q /\ StronglySorted entry_le q'.
  Proof.
    induction es as [|e es IH]; intros q Hq; [by exists q|]. cbn [runl obind]. destruct (IH (enqueue e q)) as (q' & E & Hp & Hs); [by apply enqueue_sorted|]. exists q'. split; [done|]. split; [|done]. rewrite Hp, enqueue_perm. cbn [app]. by rewrite Permutation_middle.
  Qed.
  Lemma sorted_toZ es : StronglySorted entry_le (toZ <$> es) -> NoDup es.*1 -> StronglySorted elt es.
  Proof.
    induction es as [|e es IH]; intros Hs Hn; [constructor|]. rewrite fmap_cons in Hn. cbn [fmap list_fmap] in Hs. apply StronglySorted_inv in Hs as [Hs Hf]. apply NoDup_cons in Hn as [Hn1 Hn2]. constructor; [by apply IH|]. apply Forall_forall. intros e' He'. rewrite Forall_forall in Hf. specialize (Hf (toZ e') ltac:(by apply elem_of_list_fmap_1)). destruct e as [[a b] v], e' as [[a' b'] v']. unfold entry_le, toZ in Hf. cbn in Hf. unfold elt. cbn.
    destruct (decide (a = a' /\ b = b')) as [[-> ->]|]; [|lia]. exfalso. apply Hn1. apply elem_of_list_fmap. by exists (a', b', v').
  Qed.
  Lemma sorted_in_order es : StronglySorted elt es -> in_order es.*1.
  Proof. unfold in_order. induction 1 as [|e es Hs IH Hf]; [constructor|]. rewrite fmap_cons. constructor; [done|]. apply Forall_fmap. eapply Forall_impl; [exact Hf|]. done. Qed.
  Definition rowof es (r : nat) : list (nat * V) := (fun e : nent => (e.1.2, e.2)) <$> filter (fun e : nent => e.1.1 = r) es.
  Definition rowsof es (n : nat) : list (list (nat * V)) := rowof es <$> seq 0 n.
  Lemma filter_split' es j : StronglySorted elt es -> filter (fun e : nent => e.1.1 < S j) es = filter (fun e : nent => e.1.1 < j) es ++ filter (fun e : nent => e.1.1 = j) es.
  Proof.
    induction 1 as [|e es He IH Hf]; [done|]. rewrite !filter_cons. destruct (decide (e.1.1 < S j)) as [E|E].
    - destruct (decide (e.1.1 < j)) as [E1|E1].
      + rewrite (decide_False (P := e.1.1 = j)) by lia. by rewrite IH.
      + rewrite (decide_True (P := e.1.1 = j)) by lia. rewrite IH. rewrite (filter_none (fun e : nent => e.1.1 < j) es); [done|]. eapply Forall_impl; [exact Hf|]. intros x Hx. unfold elt in Hx. lia.
    - rewrite !decide_False by lia. exact IH.
  Qed.
  Lemma rows_prefix es j : StronglySorted elt es -> concat (rowsof es j) = (fun e : nent => (e.1.2, e.2)) <$> filter (fun e : nent => e.1.1 < j) es.
  Proof.
    intros Ho. unfold rowsof. induction j as [|j IH]; [cbn; symmetry; rewrite filter_none; [done|]; apply Forall_forall; intros x _; lia|]. rewrite seq_S, fmap_app, concat_app, IH. cbn [fmap list_fmap concat plus]. rewrite app_nil_r, filter_split' by done. by rewrite fmap_app.
  Qed.
  Lemma take_rowsof es j n : j <= n -> take j (rowsof es n) = rowsof es j.
  Proof. intros Hj. unfold rowsof. rewrite <- fmap_take. f_equal. replace n with (j + (n - j)) by lia. rewrite seq_app. rewrite take_app_alt; [done|by rewrite seq_length]. Qed.
  Lemma cnt_fst es j : cnt es.*1 j = length (filter (fun e : nent => e.1.1 < j) es).
  Proof. unfold cnt. induction es as [|e es IH]; [done|]. rewrite fmap_cons, !filter_cons. destruct (decide (e.1.1 < j)); cbn [length]; by rewrite IH. Qed.
  Lemma filter_rows_all n m es : Forall (fun e => e.1.1 < n /\ e.1.2 < m) es -> filter (fun e : nent => e.1.1 < n) es = es.
  Proof. induction 1 as [|e es He Hes IH]; [done|]. rewrite filter_cons, decide_True by tauto. by rewrite IH. Qed.
  Lemma rowof_sorted es r : StronglySorted elt es -> StronglySorted lt (rowof es r).*1.
  Proof.
    unfold rowof. induction 1 as [|e es Hs IH Hf]; [constructor|]. rewrite filter_cons. destruct (decide (e.1.1 = r)) as [E|E]; [|done]. rewrite !fmap_cons. constructor; [done|]. apply Forall_forall. intros c Hc. apply elem_of_list_fmap in Hc as (p & -> & Hp). apply elem_of_list_fmap in Hp as (e' & -> & He'). apply elem_of_list_filter in He' as [E' He']. rewrite Forall_forall in Hf. specialize (Hf e' He'). unfold elt in Hf. cbn. lia.
  Qed.
  Lemma cell_in_elem (l : list (nat * V)) c v : StronglySorted lt l.*1 -> (c, v) ∈ l -> cell_in c l = v.
  Proof.
    induction l as [|[k w] l IH]; intros Hs Hin; [by apply elem_of_nil in Hin|]. rewrite fmap_cons in Hs. apply StronglySorted_inv in Hs as [Hs Hf]. cbn [cell_in]. apply elem_of_cons in Hin as [[= -> ->]|Hin]; [by rewrite decide_True|]. rewrite decide_False; [by apply IH|]. rewrite Forall_forall in Hf. specialize (Hf c ltac:(apply elem_of_list_fmap; by exists (c, v))). cbn in Hf. lia.
  Qed.
  Lemma cell_in_none (l : list (nat * V)) c : c ∉ l.*1 -> cell_in c l = vzero.
  Proof. induction l as [|[k w] l IH]; intros Hn; [done|]. rewrite fmap_cons in Hn. apply not_elem_of_cons in Hn as [Hne Hn]. cbn [cell_in]. rewrite decide_False by (cbn in Hne; congruence). by apply IH. Qed.
  Lemma sorted_cells es n m nnz (b : csrbuf V) : StronglySorted elt es -> Forall (fun e => e.1.1 < n /\ e.1.2 < m) es -> nnz = length es -> bcols b = (fun e : nent => e.1.2) <$> es -> bvals b = es.*2 -> length (broff b) = n + 1 -> (forall j, j <= n -> broff b !! j = Some (cnt es.*1 j)) ->
    sparse_cells b (mkH 0 n m n false nnz 0) n m (fun r c => cell_in c (rowof es r)).
  Proof.
    intros Ho Hi Hn Hc Hv Hl Hr. set (h := mkH 0 n m n false nnz 0).
    assert (Hlen : length (rowsof es n) = n) by (unfold rowsof; rewrite fmap_length, seq_length; done).
    assert (Hcat : concat (rowsof es n) = (fun e : nent => (e.1.2, e.2)) <$> es) by (rewrite rows_prefix by done; by rewrite (filter_rows_all n m)).
    assert (Hcov : covers b h (rowsof es n)).
    { split; cbn.
      - split.
        + apply list_eq. intros j. destruct (decide (j <= n)) as [Hj|Hj].
          * rewrite Hr by done. rewrite offsets_lookup by lia. rewrite take_rowsof by done. rewrite rows_prefix by done. rewrite fmap_length. by rewrite cnt_fst.
          * rewrite !lookup_ge_None_2; [done|rewrite offsets_length; lia|lia].
        + exists [], []. rewrite !app_nil_r, Hcat. split; [|split; [|done]].
          * rewrite Hc, <- list_fmap_compose. done.
          * rewrite Hv, <- list_fmap_compose. done.
      - apply Forall_lookup_2. intros i l Hl'. unfold rowsof in Hl'. rewrite list_lookup_fmap in Hl'. destruct (seq 0 n !! i); [|done]. cbn in Hl'. injection Hl' as <-. split; [by apply rowof_sorted|]. apply Forall_forall. intros c Hcc. unfold rowof in Hcc. apply elem_of_list_fmap in Hcc as (p & -> & Hp). apply elem_of_list_fmap in Hp as (e' & -> & He'). apply elem_of_list_filter in He' as [E' He']. rewrite Forall_forall in Hi. by apply Hi.
      - done.
      - lia.
      - rewrite Hv. by rewrite fmap_length. }
    split; [exists (rowsof es n); by apply shows_all|]. split; [done|]. split; [done|]. intros r c Hr' Hc'. erewrite csr_get_spec by (cbn; eauto). f_equal. unfold CSRSpec.cell. cbn [h_off h plus]. unfold rowsof. rewrite list_lookup_fmap, lookup_seq_lt by done. done.
  Qed.
  Lemma dequeue_ok q : forall n m done_ ro cs vs rowIdx nnz, StronglySorted elt (done_ ++ q) -> Forall (fun e => e.1.1 < n /\ e.1.2 < m) q -> Forall (fun e : nent => e.1.1 <= rowIdx) done_ -> (forall e, e ∈ q -> rowIdx <= e.1.1) -> rowIdx <= n ->
    length ro = n + 1 -> (forall j, j <= rowIdx -> ro !! j = Some (cnt (done_ ++ q).*1 j)) -> length cs = nnz -> length vs = nnz -> nnz = length (done_ ++ q) ->
    (forall j, j < length done_ -> cs !! j = ((fun e : nent => e.1.2) <$> (done_ ++ q)) !! j /\ vs !! j = (done_ ++ q).*2 !! j) ->
    exists b', dequeue n (toZ <$> q) ro cs vs (length done_) rowIdx = Ok b' /\ bcols b' = (fun e : nent => e.1.2) <$> (done_ ++ q) /\ bvals b' = (done_ ++ q).*2 /\ length (broff b') = n + 1 /\ forall j, j <= n -> broff b' !! j = Some (cnt (done_ ++ q).*1 j).
  Proof.
    induction q as [|[[r c] v] q IH]; intros n m done_ ro cs vs rowIdx nnz Hs Hi Hd Hq Hrow Hl Hro Hlc Hlv Hnnz Hcv; cbn [dequeue fmap list_fmap].
    - rewrite app_nil_r in *. destruct (fill_ok ro n rowIdx n (length done_) ltac:(lia) Hl) as (ro' & -> & Hl' & Hro'). cbn [obind]. eexists. split; [done|]. cbn. split; [|split; [|split; [done|]]].
      + apply list_eq. intros j. destruct (decide (j < nnz)); [apply Hcv; lia|]. rewrite !lookup_ge_None_2; [done|rewrite fmap_length; lia|lia].
      + apply list_eq. intros j. destruct (decide (j < nnz)); [apply Hcv; lia|]. rewrite !lookup_ge_None_2; [done|rewrite fmap_length; lia|lia].
      + intros j Hj. rewrite Hro'. destruct (decide (rowIdx < j <= n)); [|apply Hro; lia]. rewrite cnt_full; [by rewrite fmap_length|]. apply Forall_fmap. eapply Forall_impl; [exact Hd|]. intros e He. cbn in *. lia.
    - apply Forall_cons in Hi as [[Hr Hc] Hi]. cbn in Hr, Hc. cbn [toZ fst snd]. rewrite decide_False by lia. rewrite !Nat2Z.id. pose proof (Hq (r, c, v) ltac:(by left)) as Hge. cbn in Hge. replace (rowIdx `max` r) with r by lia.
      destruct (fill_ok ro n rowIdx r (length done_) ltac:(lia) Hl) as (ro' & -> & Hl' & Hro'). cbn [obind]. rewrite app_length in Hnnz. cbn [length] in Hnnz. rewrite wr_Ok by lia. cbn [obind]. rewrite wr_Ok by lia. cbn [obind].
      assert (EA : done_ ++ (r, c, v) :: q = (done_ ++ [(r, c, v)]) ++ q) by (by rewrite <- app_assoc). assert (El : length done_ + 1 = length (done_ ++ [(r, c, v)])) by (by rewrite app_length). rewrite El.
      assert (Hqr : forall e, e ∈ q -> r <= e.1.1).
      { intros e He. clear -Hs He. induction done_ as [|d l IH]; [|apply StronglySorted_inv in Hs as [Hs _]; by apply IH]. cbn [app] in Hs. apply StronglySorted_inv in Hs as [_ Hf]. rewrite Forall_forall in Hf. specialize (Hf e He). unfold elt in Hf. cbn in Hf. lia. }
      assert (Hdr : Forall (fun e : nent => e.1.1 <= r) (done_ ++ [(r, c, v)])).
      { apply Forall_app. split; [|by repeat constructor]. eapply Forall_impl; [exact Hd|]. intros e He. cbn in *. lia. }
      assert (Hcnt : forall j, rowIdx < j <= r -> cnt (done_ ++ (r, c, v) :: q).*1 j = length done_).
      { intros j Hj. rewrite fmap_app, cnt_app, cnt_full, cnt_none; [rewrite fmap_length; lia| |].
        - rewrite fmap_cons. constructor; [cbn; lia|]. apply Forall_fmap. apply Forall_forall. intros e He. specialize (Hqr e He). cbn. lia.
        - apply Forall_fmap. eapply Forall_impl; [exact Hd|]. intros e He. cbn in *. lia. }
      rewrite EA in *. apply (IH n m _ _ _ _ r nnz); try done; try lia.
      + intros j Hj. rewrite Hro'. destruct (decide (rowIdx < j <= r)) as [Hj'|Hj']; [by rewrite Hcnt|apply Hro; lia].
      + by rewrite insert_length.
      + by rewrite insert_length.
      + rewrite !app_length. cbn. lia.
      + intros j Hj. rewrite <- El in Hj. destruct (decide (j = length done_)) as [->|].
        * rewrite !list_lookup_insert by lia. rewrite !list_lookup_fmap, <- EA, list_lookup_middle by done. done.
        * rewrite !list_lookup_insert_ne by lia. apply Hcv. lia.
  Qed.
  Lemma read_csr_ok f fresh : well_formed f -> (forall k, exists h, csr_new_uninit (f_rows f) (f_cols f) k (fresh k) h) ->
    exists b x, read_csr one neg f fresh = Ok (b, length (all one neg f)) /\ sparse_cells b (mkH 0 (f_rows f) (f_cols f) (f_rows f) false (length (all one neg f)) 0) (f_rows f) (f_cols f) x /\ forall i j, i < f_rows f -> j < f_cols f -> denotes one neg f i j (x i j).
  Proof.
    intros Hw Hfresh. unfold read_csr. rewrite for_each_all by done. pose proof (all_facts one neg f Hw) as [Hnd Hr]. set (n := f_rows f) in *. set (m := f_cols f) in *.
    destruct (queue_all (toZ <$> all one neg f) [] ltac:(constructor)) as (q & -> & Hp & Hs). cbn [obind]. rewrite app_nil_r in Hp. apply Permutation_map_inv in Hp as (es & -> & Hp).
    assert (Hes : StronglySorted elt es) by (apply sorted_toZ; [done|by rewrite <- Hp]). assert (Hri : Forall (fun e => e.1.1 < n /\ e.1.2 < m) es) by (by rewrite <- Hp). change (map toZ es) with (toZ <$> es). rewrite fmap_length. assert (Hlen : length es = length (all one neg f)) by (by rewrite Hp). rewrite Hlen.
    destruct (Hfresh (length (all one neg f))) as (h & Hv & Hc & Hro & Hh). rewrite wr_Ok by lia. cbn [obind].
    destruct (dequeue_ok es n m [] (<[0:=0]> (broff (fresh (length (all one neg f))))) (bcols (fresh (length (all one neg f)))) (bvals (fresh (length (all one neg f)))) 0 (length (all one neg f))) as (b & E & H1 & H2 & H3 & H4); try done; try lia.
    - by rewrite insert_length.
    - intros j Hj'. replace j with 0 by lia. rewrite list_lookup_insert by lia. f_equal. symmetry. apply cnt_none. apply Forall_forall. intros; lia.
    - cbn; intros; lia.
    - cbn [length] in E. rewrite E. cbn [obind]. exists b, (fun r c => cell_in c (rowof es r)). split; [done|]. split; [by apply sorted_cells|].
      intros i j Hi Hj. destruct (all_cases f i j) as [[v Hv']|Hn].
      + rewrite (cell_in_elem _ j v); [by apply denotes_all|by apply rowof_sorted|]. unfold rowof. apply elem_of_list_fmap. exists (i, j, v). split; [done|]. apply elem_of_list_filter. split; [done|]. by rewrite <- Hp.
      + rewrite cell_in_none; [by apply denotes_none|]. intros Hin. apply Hn. unfold rowof in Hin. apply elem_of_list_fmap in Hin as (p & -> & Hp'). apply elem_of_list_fmap in Hp' as ([[a b'] w] & -> & He'). apply elem_of_list_filter in He' as [E' He']. cbn in E'. subst a. cbn. apply elem_of_list_fmap. exists (i, b', w). split; [done|]. by rewrite Hp.
  Qed.
End Dense.

(** ** Frames *)
Section Frames.
  Context {V W : Type} `{Val V} (one : V) (neg : V -> V) (conv : V -> W) (wzero : W).
  Implicit Types f : mmfile (V := V).
  Notation nent := (nat * nat * V)%type (only parsing).
  Lemma frame_run n m (es : list nent) : Forall (fun e => e.1.1 < n /\ e.1.2 < m) es -> NoDup es.*1 -> forall cols : list (list W), length cols = m -> Forall (fun col => length col = n) cols ->
    exists cols', runl (fun e cols => let* col := (if decide (e.1.2 < Z.of_nat (length cols))%Z then rd cols (Z.to_nat e.1.2) else UB) in let* col := wrz col e.1.1 (conv e.2) in wr cols (Z.to_nat e.1.2) col) (toZ <$> es) cols = Ok cols' /\
      length cols' = m /\ Forall (fun col => length col = n) cols' /\
      (forall i j v, (i, j, v) ∈ es -> (cols' !! j ≫= (.!! i)) = Some (conv v)) /\ (forall i j, (i, j) ∉ es.*1 -> (cols' !! j ≫= (.!! i)) = (cols !! j ≫= (.!! i))).
  Proof.
    induction 1 as [|[[r c] v] es [Hr Hc] Hes IH]; intros Hnd cols Hl Hf; cbn [fst snd] in *.
    - exists cols. split; [done|]. split; [done|]. split; [done|]. split; [|done]. by intros i j v ?%elem_of_nil.
    - rewrite fmap_cons in Hnd. apply NoDup_cons in Hnd as [Hn1 Hn2]. cbn [fmap list_fmap runl]. cbn [toZ fst snd]. rewrite decide_True by lia. rewrite Nat2Z.id.
      destruct (lookup_lt_is_Some_2 cols c ltac:(lia)) as [col Ecol]. rewrite (rd_Ok _ _ _ Ecol). cbn [obind]. assert (Hcl : length col = n) by (rewrite Forall_lookup in Hf; by apply (Hf c)). rewrite wrz_ok by lia. cbn [obind]. rewrite wr_Ok by lia. cbn [obind].
      destruct (IH Hn2 (<[c:=<[r:=conv v]> col]> cols)) as (cols' & E & Hl' & Hf' & Hin & Hout).
      { by rewrite insert_length. } { apply Forall_insert; [done|]. by rewrite insert_length. }
      exists cols'. split; [exact E|]. split; [done|]. split; [done|]. split.
      + intros i j w [[= -> -> ->]|Hw]%elem_of_cons; [|by apply Hin]. rewrite Hout by done. rewrite list_lookup_insert by lia. cbn. by rewrite list_lookup_insert by lia.
      + intros i j Hnin. cbn [fmap list_fmap] in Hnin. apply not_elem_of_cons in Hnin as [Hne Hnin]. rewrite Hout by done. destruct (decide (j = c)) as [->|Hj].
        * rewrite list_lookup_insert by lia. rewrite Ecol. cbn. rewrite list_lookup_insert_ne; [done|]. cbn in Hne. congruence.
        * by rewrite list_lookup_insert_ne by done.
  Qed.
  Lemma read_frame_ok f junk : well_formed f -> conv vzero = wzero -> length junk = f_cols f -> Forall (fun col => length col = f_rows f) junk ->
    exists cols, read_frame one neg conv wzero f junk = Ok cols /\ length cols = f_cols f /\ Forall (fun col => length col = f_rows f) cols /\
      forall i j, i < f_rows f -> j < f_cols f -> exists v, (cols !! j ≫= (.!! i)) = Some (conv v) /\ denotes one neg f i j v.
  Proof.
    intros Hw Hz Hl Hj. unfold read_frame. rewrite for_each_all by done. pose proof (all_facts one neg f Hw) as [Hnd Hr].
    match goal with |- context [runl _ _ ?s0] => destruct (frame_run (f_rows f) (f_cols f) (all one neg f) Hr Hnd s0) as (cols & E & Hlc & Hfc & Hin & Hout) end.
    { destruct (decide _); [by rewrite replicate_length|done]. } { destruct (decide _); [apply Forall_replicate; by rewrite replicate_length|done]. }
    exists cols. split; [exact E|]. split; [done|]. split; [done|]. intros i j Hi Hj'. destruct (all_cases one neg f i j) as [[v Hv]|Hn].
    - exists v. split; [by apply Hin|by apply denotes_all].
    - exists vzero. split; [|by apply denotes_none]. rewrite Hout by done. destruct (decide _) as [Hd|Hd].
      + rewrite lookup_replicate_2 by done. cbn. rewrite lookup_replicate_2 by done. by rewrite Hz.
      + exfalso. destruct (covered one neg f i j Hw) as [v Hv]; [|done|done|apply Hn, elem_of_list_fmap; by exists (i, j, v)]. destruct (decide (entry_count f = wrap (Z.of_nat (f_cols f) * Z.of_nat (f_rows f)))); [done|by destruct Hd].
  Qed.
End Frames.
