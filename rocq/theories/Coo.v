(** C26: coordinate files. *)
From stdpp Require Import base numbers sorting list list_numbers.
From Coq Require Import ZArith Lia.
From Verif Require Import CppBase Mem CSRModel CSRSpec CSRProofs CSRAppendProofs CSRView SparseSpec CsvModel Csv CooModel.
Local Open Scope nat_scope.

(** * Specification *)
(** The text of a coordinate file: one line "row,column" for each entry. *)
Definition coo_line (e : nat * nat) : list byte := print_dec (Z.of_nat e.1) ++ [COMMA] ++ print_dec (Z.of_nat e.2) ++ [LF].
Definition coo_text (es : list (nat * nat)) : list byte := concat (coo_line <$> es).
(** All entries are inside of an n x m matrix. *)
Definition inside (n m : nat) (es : list (nat * nat)) : Prop := Forall (fun e => e.1 < n /\ e.2 < m) es.
(** Sorted by row, and by column in each row, without duplicates. *)
Definition in_order (es : list (nat * nat)) : Prop := StronglySorted (fun e1 e2 => e1.1 < e2.1 \/ e1.1 = e2.1 /\ e1.2 < e2.2) es.
(** The matrix: [one] at the entries, zero elsewhere. *)
Definition ones {V} `{Val V} (one : V) (es : list (nat * nat)) (r c : nat) : V := if decide ((r, c) ∈ es) then one else vzero.

(** * Proofs *)
Section Proofs.
  Context {V : Type} `{Val V} (one : V) (Hone : viszero one = false).
  Implicit Types es : list (nat * nat).
  Definition cnt es (j : nat) : nat := length (filter (fun e => e.1 < j) es).
  Definition hist es : list (nat * nat * V) := (fun e => (e.1, e.2, one)) <$> es.
  Lemma hist_rm es : in_order es -> row_major (hist es).
  Proof.
    unfold in_order, row_major, hist. induction 1 as [|e es He IH Hf]; [constructor|]. rewrite fmap_cons. constructor; [done|]. apply Forall_fmap. eapply Forall_impl; [exact Hf|]. intros e' He'. cbn in *. done.
  Qed.
  Lemma hist_in n m es : inside n m es -> in_range n m (hist es).
  Proof. intros Hi. unfold in_range, hist. apply Forall_fmap. eapply Forall_impl; [exact Hi|]. intros e He. done. Qed.
  Lemma entries_hist es r : entries_for r (hist es) = (fun e => (e.2, one)) <$> filter (fun e => e.1 = r) es.
  Proof.
    unfold entries_for, hist. induction es as [|e es IH]; [done|]. rewrite fmap_cons. cbn [omap list_omap]. rewrite filter_cons. destruct (decide (e.1 = r)) as [E|E].
    - rewrite decide_True by done. cbn [fmap list_fmap]. f_equal. exact IH.
    - rewrite decide_False by tauto. exact IH.
  Qed.
  Lemma filter_none {A} (P : A -> Prop) `{forall x, Decision (P x)} (l : list A) : Forall (fun x => ~ P x) l -> filter P l = [].
  Proof. induction 1 as [|x l Hx Hl IH]; [done|]. rewrite filter_cons. by rewrite decide_False. Qed.
  Lemma filter_split es j : in_order es -> filter (fun e => e.1 < S j) es = filter (fun e => e.1 < j) es ++ filter (fun e => e.1 = j) es.
  Proof.
    induction 1 as [|e es He IH Hf]; [done|]. rewrite !filter_cons. destruct (decide (e.1 < S j)) as [E|E].
    - destruct (decide (e.1 < j)) as [E1|E1].
      + rewrite (decide_False (P := e.1 = j)) by lia. by rewrite IH.
      + rewrite (decide_True (P := e.1 = j)) by lia. rewrite IH. rewrite (filter_none (fun e => e.1 < j) es); [done|]. eapply Forall_impl; [exact Hf|]. intros x Hx. cbn in Hx. lia.
    - rewrite !decide_False by lia. exact IH.
  Qed.
  Lemma appended_prefix es j : in_order es -> concat (appended (hist es) j) = (fun e => (e.2, one)) <$> filter (fun e => e.1 < j) es.
  Proof.
    intros Ho. unfold appended. induction j as [|j IH]; [cbn; symmetry; rewrite filter_none; [done|]; apply Forall_forall; intros x _; lia|]. rewrite seq_S, fmap_app, concat_app, IH. cbn [fmap list_fmap concat plus]. rewrite app_nil_r, entries_hist, filter_split by done. by rewrite fmap_app.
  Qed.
  Lemma filter_all es n m : inside n m es -> filter (fun e => e.1 < n) es = es.
  Proof. induction 1 as [|e es He Hes IH]; [done|]. rewrite filter_cons, decide_True by tauto. by rewrite IH. Qed.
  Lemma take_appended (hs : list (nat * nat * V)) j n : j <= n -> take j (appended hs n) = appended hs j.
  Proof. intros Hj. unfold appended. rewrite <- fmap_take. f_equal. replace n with (j + (n - j)) by lia. rewrite seq_app. rewrite take_app_alt; [done|by rewrite seq_length]. Qed.
  Lemma coo_cells es n m nnz (b : csrbuf V) : in_order es -> inside n m es -> nnz = length es -> bcols b = es.*2 -> bvals b = replicate nnz one -> length (broff b) = n + 1 -> (forall j, j <= n -> broff b !! j = Some (cnt es j)) ->
    sparse_cells b (mkH 0 n m n false nnz 0) n m (ones one es).
  Proof.
    intros Ho Hi Hn Hc Hv Hl Hr. set (h := mkH 0 n m n false nnz 0).
    assert (Hlen : length (appended (hist es) n) = n) by (unfold appended; rewrite fmap_length, seq_length; done).
    assert (Hcat : concat (appended (hist es) n) = (fun e => (e.2, one)) <$> es) by (rewrite appended_prefix by done; by rewrite (filter_all es n m)).
    assert (Hcov : covers b h (appended (hist es) n)).
    { split; cbn.
      - split.
        + apply list_eq. intros j. destruct (decide (j <= n)) as [Hj|Hj].
          * rewrite Hr by done. rewrite offsets_lookup by lia. rewrite take_appended by done. rewrite appended_prefix by done. by rewrite fmap_length.
          * rewrite !lookup_ge_None_2; [done|rewrite offsets_length; lia|lia].
        + exists [], []. rewrite !app_nil_r, Hcat. split; [|split; [|done]].
          * rewrite Hc, <- list_fmap_compose. done.
          * rewrite Hv, Hn, <- list_fmap_compose. clear. induction es as [|e es IH]; [done|]. cbn [length replicate]. rewrite fmap_cons. f_equal. exact IH.
      - apply Forall_lookup_2. intros i l Hl'. unfold appended in Hl'. rewrite list_lookup_fmap in Hl'. destruct (seq 0 n !! i); [|done]. cbn in Hl'. injection Hl' as <-. eapply entries_for_ok; [by apply hist_rm|by apply hist_in].
      - done.
      - lia.
      - rewrite Hv. by rewrite replicate_length. }
    assert (Hin : forall r c v, (r, c, v) ∈ hist es <-> v = one /\ (r, c) ∈ es).
    { intros r c v. unfold hist. rewrite elem_of_list_fmap. split.
      - intros ([r' c'] & [= -> -> ->] & He). done.
      - intros [-> He]. by exists (r, c). }
    split; [exists (appended (hist es) n); by apply shows_all|]. split; [done|]. split; [done|]. intros r c Hr' Hc'. erewrite csr_get_spec by (cbn; eauto). f_equal. unfold CSRSpec.cell. cbn [h_off h plus]. rewrite appended_lookup by done. unfold ones. case_decide as He.
    - eapply entries_for_cell_in; [by apply hist_rm| |done]. by apply Hin.
    - apply entries_for_cell_out. intros v Hv'. apply Hin in Hv' as [_ Hv']. done.
  Qed.

  (** ** sorted *)
  Lemma to_u64_id k : (Z.of_nat k < 2 ^ 64)%Z -> to_u64 (Z.of_nat k) = k.
  Proof. intros Hk. unfold to_u64. rewrite Z.mod_small by lia. lia. Qed.
  Lemma print_no c z : c = COMMA \/ c = LF -> c ∉ print_dec z.
  Proof. intros Hc Hin. apply print_dec_chars in Hin as [->|Hin]; [lia|]. by destruct Hc as [->| ->]. Qed.
  Lemma coo_line_read e rest cur ls : (Z.of_nat e.1 < 2 ^ 31)%Z -> (Z.of_nat e.2 < 2 ^ 31)%Z -> lines_of (coo_line e ++ rest) = cur :: ls ->
    exists l1, atoi cur = Ok (Z.of_nat e.1) /\ skip_field COMMA cur = Ok l1 /\ atoi l1 = Ok (Z.of_nat e.2) /\ ls = lines_of rest.
  Proof.
    intros H1 H2 E. unfold coo_line in E. rewrite <- !app_assoc in E. cbn [app] in E.
    apply lines_prefix in E as (c1 & -> & E); [|apply print_no; by right]. apply lines_head in E as (c2 & -> & E & _). specialize (E ltac:(done) ltac:(by destruct (print_dec (Z.of_nat e.2)))).
    apply lines_prefix in E as (c3 & -> & E); [|apply print_no; by right]. apply lines_head in E as (c4 & -> & _ & E). destruct (E eq_refl) as [-> <-].
    eexists. split; [apply atoi_print; [lia|done]|]. split; [apply skip_field_ok, print_no; by left|]. split; [apply atoi_print; [lia|done]|done].
  Qed.
  Lemma take_snoc es i e : es !! i = Some e -> take (S i) es = take i es ++ [e].
  Proof. apply take_S_r. Qed.
  Definition rowcnt es (r : nat) : nat := length (filter (fun e => e.1 = r) es).
  Lemma rowcnt_snoc es e r : rowcnt (es ++ [e]) r = rowcnt es r + (if decide (e.1 = r) then 1 else 0).
  Proof. unfold rowcnt. rewrite filter_app, app_length. f_equal. rewrite filter_cons. by destruct (decide (e.1 = r)). Qed.
  Lemma cnt_S es j : cnt es (S j) = cnt es j + rowcnt es j.
  Proof.
    unfold cnt, rowcnt. induction es as [|e es IH]; [done|]. rewrite !filter_cons. destruct (decide (e.1 < S j)), (decide (e.1 < j)), (decide (e.1 = j)); cbn [length]; lia.
  Qed.
  Lemma lines_text es e es' : es = e :: es' -> exists cur ls, lines_of (coo_text es) = cur :: ls.
  Proof. intros ->. apply lines_nonempty. unfold coo_text. rewrite fmap_cons. cbn [concat]. unfold coo_line. by destruct (print_dec (Z.of_nat e.1)). Qed.
  Lemma coo_text_cons e es : coo_text (e :: es) = coo_line e ++ coo_text es.
  Proof. done. Qed.

  Lemma sorted_ok es n m nnz (b : csrbuf V) h : (Z.of_nat n <= 2 ^ 31)%Z -> (Z.of_nat m <= 2 ^ 31)%Z -> inside n m es -> in_order es -> nnz = length es -> csr_new_uninit n m nnz b h ->
    exists b', read_coo_sorted one COMMA (coo_text es) n nnz b = Ok b' /\ sparse_cells b' h n m (ones one es).
  Proof.
    intros Hn Hm Hi Ho Hnnz (Hv & Hc & Hr & ->). unfold read_coo_sorted.
    match goal with |- context [for_up 0 (n + 1) ?f ?s0] => destruct (for_up_inv (fun i ro => length ro = n + 1 /\ forall j, j < i -> ro !! j = Some 0) 0 (n + 1) f s0) as (ro & E & Hlro & Hro) end.
    { lia. } { split; [done|lia]. }
    { intros i ro Hi' [Hl Hz]. rewrite wr_Ok by lia. eexists. split; [done|]. split; [by rewrite insert_length|]. intros j Hj. destruct (decide (j = i)) as [->|]; [apply list_lookup_insert; lia|]. rewrite list_lookup_insert_ne by done. apply Hz. lia. }
    rewrite E. clear E. cbn [obind].
    match goal with |- context [for_up 0 nnz ?f ?s0] => destruct (for_up_inv (fun i (s : list line * list nat * list nat * list V) => let '(ls, ro, cs, vs) := s in
      ls = lines_of (coo_text (drop i es)) /\ length ro = n + 1 /\ ro !! 0 = Some 0 /\ (forall r, r < n -> ro !! S r = Some (rowcnt (take i es) r)) /\
      length cs = nnz /\ length vs = nnz /\ (forall j, j < i -> cs !! j = es.*2 !! j /\ vs !! j = Some one)) 0 nnz f s0) as ([[[ls ro2] cs] vs] & E & _ & Hl2 & H0 & Hcnt & Hlc & Hlv & Hcv) end.
    { lia. }
    { split; [done|]. split; [done|]. split; [apply Hro; lia|]. split; [intros r Hr'; rewrite Hro by lia; done|]. split; [done|]. split; [done|]. intros; lia. }
    { intros i [[[ls ro2] cs] vs] Hi' (-> & Hl2 & H0 & Hcnt & Hlc & Hlv & Hcv). destruct (lookup_lt_is_Some_2 es i ltac:(lia)) as [e He]. rewrite (drop_S _ _ _ He). destruct (lines_text (e :: drop (S i) es) e _ eq_refl) as (cur & ls & El). rewrite El. rewrite coo_text_cons in El.
      assert (Hin : e.1 < n /\ e.2 < m) by (unfold inside in Hi; rewrite Forall_lookup in Hi; by apply (Hi i)). destruct Hin as [Hr1 Hc1].
      destruct (coo_line_read e _ cur ls ltac:(lia) ltac:(lia) El) as (l1 & -> & -> & E1 & ->). cbn [obind]. rewrite E1. cbn [obind]. rewrite !to_u64_id by lia. replace (e.1 + 1) with (S e.1) by lia. rewrite (rd_Ok _ _ _ (Hcnt e.1 Hr1)). cbn [obind]. rewrite wr_Ok by lia. cbn [obind]. rewrite wr_Ok by lia. cbn [obind]. rewrite wr_Ok by lia. cbn [obind].
      eexists. split; [done|]. split; [done|]. rewrite !insert_length. split; [done|]. split; [by rewrite list_lookup_insert_ne by lia|]. split; [|split; [done|split; [done|]]].
      - intros r Hr'. cbn [plus]. rewrite (take_snoc _ _ _ He), rowcnt_snoc. destruct (decide (e.1 = r)) as [<-|Hne]; [rewrite list_lookup_insert by lia; done|]. rewrite list_lookup_insert_ne by lia. rewrite Hcnt by done. by rewrite Nat.add_0_r.
      - intros j Hj. destruct (decide (j = i)) as [->|].
        + rewrite !list_lookup_insert by lia. rewrite list_lookup_fmap, He. done.
        + rewrite !list_lookup_insert_ne by done. apply Hcv. lia. }
    rewrite E. clear E. cbn [obind]. rewrite (take_ge es nnz) in Hcnt by lia.
    match goal with |- context [for_up 1 (n + 1) ?f ?s0] => destruct (for_up_inv (fun i (ro : list nat) => length ro = n + 1 /\ (forall j, j < i -> ro !! j = Some (cnt es j)) /\ forall j, i <= j -> j <= n -> ro !! j = Some (rowcnt es (j - 1))) 1 (n + 1) f s0) as (ro3 & E & Hl3 & Hro3 & _) end.
    { lia. }
    { split; [done|]. split.
      - intros j Hj. replace j with 0 by lia. rewrite H0. unfold cnt. rewrite filter_none; [done|]. apply Forall_forall. intros x _. lia.
      - intros j Hj Hj'. destruct j as [|j]; [lia|]. rewrite Hcnt by lia. cbn. by rewrite Nat.sub_0_r. }
    { intros i ro3 Hi' (Hl3 & Hlo & Hhi). rewrite (rd_Ok _ _ _ (Hhi i ltac:(lia) ltac:(lia))). cbn [obind]. rewrite (rd_Ok _ _ _ (Hlo (i - 1) ltac:(lia))). cbn [obind]. rewrite wr_Ok by lia. eexists. split; [done|]. split; [by rewrite insert_length|]. split.
      - intros j Hj. destruct (decide (j = i)) as [->|]; [|rewrite list_lookup_insert_ne by done; apply Hlo; lia]. rewrite list_lookup_insert by lia. f_equal. replace i with (S (i - 1)) at 3 by lia. rewrite cnt_S. lia.
      - intros j Hj Hj'. rewrite list_lookup_insert_ne by lia. apply Hhi; lia. }
    rewrite E. cbn [obind]. eexists. split; [done|]. apply coo_cells; try done; cbn.
    - apply list_eq. intros j. destruct (decide (j < nnz)); [by apply Hcv|]. rewrite !lookup_ge_None_2; [done|rewrite fmap_length; lia|lia].
    - apply list_eq. intros j. destruct (decide (j < nnz)) as [Hj|]; [rewrite lookup_replicate_2 by done; by apply Hcv|]. rewrite !lookup_ge_None_2; [done|rewrite replicate_length; lia|lia].
    - intros j Hj. apply Hro3. lia.
  Qed.

  (** ** unsorted *)
  Definition le_pair (p q : nat * nat) : Prop := p.1 < q.1 \/ p.1 = q.1 /\ p.2 <= q.2.
  Lemma pair_le_iff p q : pair_le p q = true <-> le_pair p q.
  Proof. unfold pair_le, le_pair. rewrite orb_true_iff, andb_true_iff, Nat.ltb_lt, Nat.eqb_eq, Nat.leb_le. done. Qed.
  Lemma emplace_perm p q : emplace p q ≡ₚ p :: q.
  Proof. induction q as [|x q IH]; [done|]. cbn [emplace]. destruct (pair_le p x); [done|]. rewrite IH. apply Permutation_swap. Qed.
  Lemma emplace_sorted p q : StronglySorted le_pair q -> StronglySorted le_pair (emplace p q).
  Proof.
    induction 1 as [|x q Hq IH Hx]; cbn [emplace]; [repeat constructor|]. destruct (pair_le p x) eqn:E.
    - apply pair_le_iff in E. constructor; [by constructor|]. constructor; [done|]. eapply Forall_impl; [exact Hx|]. intros y Hy. unfold le_pair in *. lia.
    - assert (Hxp : le_pair x p). { destruct (decide (le_pair p x)) as [Hp|Hp]; [apply pair_le_iff in Hp; congruence|]. unfold le_pair in *. lia. } constructor; [done|]. rewrite Forall_forall in Hx. apply Forall_forall. intros y Hy. rewrite emplace_perm in Hy. apply elem_of_cons in Hy as [->|Hy]; [done|by apply Hx].
  Qed.
  Lemma sorted_order q : StronglySorted le_pair q -> NoDup q -> in_order q.
  Proof.
    unfold in_order. induction 1 as [|x q Hq IH Hx]; intros Hn; [constructor|]. apply NoDup_cons in Hn as [Hn1 Hn2]. constructor; [by apply IH|]. rewrite Forall_forall in Hx. apply Forall_forall. intros y Hy. specialize (Hx y Hy). destruct x as [a b], y as [c d]. unfold le_pair in Hx. cbn in *.
    destruct (decide (a = c /\ b = d)) as [[-> ->]|]; [done|]. lia.
  Qed.
  Lemma cnt_app es1 es2 j : cnt (es1 ++ es2) j = cnt es1 j + cnt es2 j.
  Proof. unfold cnt. by rewrite filter_app, app_length. Qed.
  Lemma cnt_none es j : Forall (fun e => j <= e.1) es -> cnt es j = 0.
  Proof. intros Hf. unfold cnt. rewrite filter_none; [done|]. eapply Forall_impl; [exact Hf|]. intros x Hx. cbn in *. lia. Qed.
  Lemma cnt_full es j : Forall (fun e => e.1 < j) es -> cnt es j = length es.
  Proof. unfold cnt. induction 1 as [|e es He Hes IH]; [done|]. rewrite filter_cons, decide_True by done. cbn. by rewrite IH. Qed.
  (** fill the offsets of rows a+1 .. b *)
  Lemma fill_ok (ro : list nat) n a b x : b <= n -> length ro = n + 1 -> exists ro', for_up a b (fun k ro => wr ro (k + 1) x) ro = Ok ro' /\ length ro' = n + 1 /\ forall j, ro' !! j = if decide (a < j <= b) then Some x else ro !! j.
  Proof.
    intros Hb Hl. destruct (decide (a <= b)) as [Hab|Hab].
    - match goal with |- context [for_up a b ?f ?s0] => destruct (for_up_inv (fun i (r : list nat) => length r = n + 1 /\ forall j, r !! j = if decide (a < j <= i) then Some x else ro !! j) a b f s0) as (ro' & E & Hl' & Hj) end; [done| | |eauto].
      + split; [done|]. intros j. by rewrite decide_False by lia.
      + intros i r Hi [Hlr Hr]. rewrite wr_Ok by lia. eexists. split; [done|]. split; [by rewrite insert_length|]. intros j. destruct (decide (j = i + 1)) as [->|]; [rewrite list_lookup_insert by lia; by rewrite decide_True by lia|]. rewrite list_lookup_insert_ne by done. rewrite Hr. destruct (decide (a < j <= i)); [by rewrite decide_True by lia|by rewrite decide_False by lia].
    - unfold for_up. replace (b - a) with 0 by lia. cbn [forn]. exists ro. split; [done|]. split; [done|]. intros j. by rewrite decide_False by lia.
  Qed.
  Lemma pop_ok q : forall n m done_ ro cs vs rowIdx nnz, StronglySorted le_pair (done_ ++ q) -> inside n m q -> Forall (fun e => e.1 <= rowIdx) done_ -> (forall e, e ∈ q -> rowIdx <= e.1) -> rowIdx <= n ->
    length ro = n + 1 -> (forall j, j <= rowIdx -> ro !! j = Some (cnt (done_ ++ q) j)) -> length cs = nnz -> length vs = nnz -> nnz = length (done_ ++ q) ->
    (forall j, j < length done_ -> cs !! j = (done_ ++ q).*2 !! j /\ vs !! j = Some one) ->
    exists b', pop_all one n m q ro cs vs (length done_) rowIdx = Ok b' /\ bcols b' = (done_ ++ q).*2 /\ bvals b' = replicate nnz one /\ length (broff b') = n + 1 /\ forall j, j <= n -> broff b' !! j = Some (cnt (done_ ++ q) j).
  Proof.
    induction q as [|[r c] q IH]; intros n m done_ ro cs vs rowIdx nnz Hs Hi Hd Hq Hrow Hl Hro Hlc Hlv Hnnz Hcv; cbn [pop_all].
    - rewrite app_nil_r in *. destruct (fill_ok ro n rowIdx n (length done_) ltac:(lia) Hl) as (ro' & -> & Hl' & Hro'). cbn [obind]. eexists. split; [done|]. cbn. split; [|split; [|split; [done|]]].
      + apply list_eq. intros j. destruct (decide (j < nnz)); [apply Hcv; lia|]. rewrite !lookup_ge_None_2; [done|rewrite fmap_length; lia|lia].
      + apply list_eq. intros j. destruct (decide (j < nnz)); [rewrite lookup_replicate_2 by done; apply Hcv; lia|]. rewrite !lookup_ge_None_2; [done|rewrite replicate_length; lia|lia].
      + intros j Hj. rewrite Hro'. destruct (decide (rowIdx < j <= n)); [|apply Hro; lia]. rewrite cnt_full; [done|]. eapply Forall_impl; [exact Hd|]. intros e He. cbn in *. lia.
    - apply Forall_cons in Hi as [[Hr Hc] Hi]. cbn in Hr, Hc. rewrite decide_False by lia. pose proof (Hq (r, c) ltac:(by left)) as Hge. cbn in Hge. replace (rowIdx `max` r) with r by lia.
      destruct (fill_ok ro n rowIdx r (length done_) ltac:(lia) Hl) as (ro' & -> & Hl' & Hro'). cbn [obind]. rewrite app_length in Hnnz. cbn [length] in Hnnz. rewrite wr_Ok by lia. cbn [obind]. rewrite wr_Ok by lia. cbn [obind].
      assert (EA : done_ ++ (r, c) :: q = (done_ ++ [(r, c)]) ++ q) by (by rewrite <- app_assoc). assert (El : length done_ + 1 = length (done_ ++ [(r, c)])) by (by rewrite app_length). rewrite El.
      assert (Hqr : forall e, e ∈ q -> r <= e.1).
      { intros e He. clear -Hs He. induction done_ as [|d l IH]; [|apply StronglySorted_inv in Hs as [Hs _]; by apply IH]. cbn [app] in Hs. apply StronglySorted_inv in Hs as [_ Hf]. rewrite Forall_forall in Hf. specialize (Hf e He). unfold le_pair in Hf. cbn in Hf. lia. }
      assert (Hdr : Forall (fun e => e.1 <= r) (done_ ++ [(r, c)])).
      { apply Forall_app. split; [|by repeat constructor]. eapply Forall_impl; [exact Hd|]. intros e He. cbn in *. lia. }
      assert (Hcnt : forall j, rowIdx < j <= r -> cnt (done_ ++ (r, c) :: q) j = length done_).
      { intros j Hj. rewrite cnt_app, cnt_full, cnt_none; [lia| |].
        - constructor; [cbn; lia|]. apply Forall_forall. intros e He. specialize (Hqr e He). lia.
        - eapply Forall_impl; [exact Hd|]. intros e He. cbn in *. lia. }
      rewrite EA in *. apply IH; try done; try lia.
      + intros j Hj. rewrite Hro'. destruct (decide (rowIdx < j <= r)) as [Hj'|Hj']; [by rewrite Hcnt|apply Hro; lia].
      + by rewrite insert_length.
      + by rewrite insert_length.
      + rewrite !app_length. cbn. lia.
      + intros j Hj. rewrite <- El in Hj. destruct (decide (j = length done_)) as [->|].
        * rewrite !list_lookup_insert by lia. split; [|done]. rewrite list_lookup_fmap, <- EA, list_lookup_middle by done. done.
        * rewrite !list_lookup_insert_ne by lia. apply Hcv. lia.
  Qed.
  Lemma pop_throws q : forall n m ro cs vs curr rowIdx, length ro = n + 1 -> length cs >= curr + length q -> length vs >= curr + length q -> ~ inside n m q -> pop_all one n m q ro cs vs curr rowIdx = Throw.
  Proof.
    induction q as [|[r c] q IH]; intros n m ro cs vs curr rowIdx Hl Hc Hv Hi; cbn [pop_all]; [exfalso; apply Hi; constructor|]. case_decide as Hd; [done|]. cbn [length] in *.
    destruct (fill_ok ro n rowIdx r curr ltac:(lia) Hl) as (ro' & -> & Hl' & _). cbn [obind]. rewrite wr_Ok by lia. cbn [obind]. rewrite wr_Ok by lia. cbn [obind]. apply IH; rewrite ?insert_length; try lia. intros Hq. apply Hi. constructor; [cbn; lia|done].
  Qed.

  Definition coo_cell (es : list (nat * nat)) (i k : nat) : Z := match es !! i with Some e => Z.of_nat (if decide (k = 0) then e.1 else e.2) | None => 0%Z end.
  Lemma coo_text_file es : file_bytes print_dec 2 (coo_cell es) 0 (length es) = coo_text es.
  Proof.
    unfold file_bytes, coo_text. f_equal. apply list_eq. intros i. rewrite !list_lookup_fmap. destruct (es !! i) as [e|] eqn:E.
    - rewrite lookup_seq_lt by (by eapply lookup_lt_Some). cbn [fmap option_fmap option_map]. f_equal. cbn [plus]. unfold row_bytes, coo_cell. rewrite E. cbn [seq fmap list_fmap concat]. unfold sep. cbn. unfold coo_line. rewrite app_nil_r, <- app_assoc. done.
    - rewrite (lookup_ge_None_2 (seq 0 (length es))); [done|]. rewrite seq_length. by apply lookup_ge_None.
  Qed.
  Lemma queue_ok pairs n2 es : is_dense pairs n2 2 (coo_cell es) -> n2 = length es ->
    exists q, for_up 0 (m_rows pairs) (fun r q => let* x := dm_at pairs r 0 in let* y := dm_at pairs r 1 in Ok (emplace (Z.to_nat x, Z.to_nat y) q)) [] = Ok q /\ q ≡ₚ es /\ StronglySorted le_pair q.
  Proof.
    intros Hd Hl. destruct (Hd) as (-> & _).
    match goal with |- context [for_up 0 n2 ?f ?s0] => destruct (for_up_inv (fun i (q : list (nat * nat)) => q ≡ₚ take i es /\ StronglySorted le_pair q) 0 n2 f s0) as (q & E & Hp & Hs) end.
    - lia.
    - split; [done|constructor].
    - intros i q Hi [Hp Hs]. destruct (lookup_lt_is_Some_2 es i ltac:(lia)) as [[r c] He]. rewrite !(dm_at_Ok _ _ _ _ _ _ Hd) by lia. cbn [obind]. eexists. split; [done|]. split; [|by apply emplace_sorted]. unfold coo_cell. rewrite He. cbn. rewrite !Nat2Z.id. rewrite emplace_perm, Hp. cbn [plus]. rewrite (take_snoc _ _ _ He). apply Permutation_cons_append.
    - exists q. split; [done|]. split; [|done]. rewrite Hp. by rewrite take_ge by lia.
  Qed.
  Lemma in31 es i k : Forall (fun e => (Z.of_nat e.1 < 2 ^ 31 /\ Z.of_nat e.2 < 2 ^ 31)%Z) es -> (0 <= coo_cell es i k < 2 ^ 31)%Z.
  Proof.
    intros Hf. unfold coo_cell. destruct (es !! i) as [e|] eqn:E; [|lia]. rewrite Forall_lookup in Hf. specialize (Hf i e E). cbn in Hf. destruct (decide (k = 0)); lia.
  Qed.
  Lemma unsorted_queue es n m nnz (b : csrbuf V) h junk : Forall (fun e => (Z.of_nat e.1 < 2 ^ 31 /\ Z.of_nat e.2 < 2 ^ 31)%Z) es -> 0 < nnz -> nnz = length es -> csr_new_uninit n m nnz b h -> (forall k, length (junk k) = k) ->
    exists q, read_coo_unsorted one COMMA junk (coo_text es) n m nnz b = pop_all one n m q (<[0:=0]> (broff b)) (bcols b) (bvals b) 0 0 /\ q ≡ₚ es /\ StronglySorted le_pair q.
  Proof.
    intros Hf H0 Hl (Hv & Hc & Hr & Hh) Hj. unfold read_coo_unsorted, read_coo_pairs. rewrite <- coo_text_file, <- Hl. destruct (read_int_ok print_dec (fun z => (z mod 2 ^ 64)%Z) junk nnz 2 (coo_cell es) H0 ltac:(lia) Hj) as (pb & -> & Hd).
    - intros r c _ _. pose proof (in31 es r c Hf). eexists. split; [done|]. split; [lia|]. rewrite Z.mod_small; lia.
    - cbn [obind]. destruct (queue_ok _ _ _ Hd Hl) as (q & -> & Hp & Hs). cbn [obind]. rewrite wr_Ok by lia. cbn [obind]. eauto.
  Qed.
  Lemma unsorted_ok es n m nnz (b : csrbuf V) h junk : (Z.of_nat n <= 2 ^ 31)%Z -> (Z.of_nat m <= 2 ^ 31)%Z -> inside n m es -> NoDup es -> 0 < nnz -> nnz = length es -> csr_new_uninit n m nnz b h -> (forall k, length (junk k) = k) ->
    exists b', read_coo_unsorted one COMMA junk (coo_text es) n m nnz b = Ok b' /\ sparse_cells b' h n m (ones one es).
  Proof.
    intros Hn Hm Hi Hnd H0 Hl Hnew Hj. destruct (unsorted_queue es n m nnz b h junk) as (q & -> & Hp & Hs); try done.
    { eapply Forall_impl; [exact Hi|]. intros e [H1 H2]. lia. }
    destruct Hnew as (Hv & Hc & Hr & ->). assert (Hiq : inside n m q) by (unfold inside; by rewrite Hp). assert (Hlq : nnz = length q) by (by rewrite Hp).
    destruct (pop_ok q n m [] (<[0:=0]> (broff b)) (bcols b) (bvals b) 0 nnz) as (b' & E & H1 & H2 & H3 & H4); try done; try lia.
    - by rewrite insert_length.
    - intros j Hj'. replace j with 0 by lia. rewrite list_lookup_insert by lia. f_equal. symmetry. apply cnt_none. apply Forall_forall. intros; lia.
    - cbn; intros; lia.
    - cbn [length] in E. rewrite E. eexists. split; [done|].
      assert (Hc' : sparse_cells b' (mkH 0 n m n false nnz 0) n m (ones one q)). { apply coo_cells; try done. apply sorted_order; [done|]. by rewrite Hp. }
      destruct Hc' as (Ha & Hb' & Hc'' & Hg). split; [done|]. split; [done|]. split; [done|]. intros r c Hr' Hc'. rewrite Hg by done. f_equal. unfold ones. destruct (decide ((r, c) ∈ q)) as [Hq|Hq], (decide ((r, c) ∈ es)) as [He|He]; try done; exfalso.
      + apply He. by rewrite <- Hp.
      + apply Hq. by rewrite Hp.
  Qed.
  Lemma unsorted_throws es n m nnz (b : csrbuf V) h junk : Forall (fun e => (Z.of_nat e.1 < 2 ^ 31 /\ Z.of_nat e.2 < 2 ^ 31)%Z) es -> ~ inside n m es -> nnz = length es -> csr_new_uninit n m nnz b h -> (forall k, length (junk k) = k) ->
    read_coo_unsorted one COMMA junk (coo_text es) n m nnz b = Throw.
  Proof.
    intros Hf Hi Hl Hnew Hj. assert (H0 : 0 < nnz). { destruct es; [exfalso; apply Hi; constructor|]. rewrite Hl. cbn. lia. }
    destruct (unsorted_queue es n m nnz b h junk) as (q & -> & Hp & Hs); try done. destruct Hnew as (Hv & Hc & Hr & ->). apply pop_throws.
    - by rewrite insert_length.
    - rewrite Hc, Hp. lia.
    - rewrite Hv, Hp. lia.
    - unfold inside in *. by rewrite Hp.
  Qed.
End Proofs.

(** * The properties *)
(** A file whose entries are in row-major order, read into fresh buffers: the matrix has [one] at the listed entries and zero elsewhere. *)
Theorem C26_sorted {V} `{Val V} (one : V) es n m (b : csrbuf V) h : viszero one = false -> (Z.of_nat n <= 2 ^ 31)%Z -> (Z.of_nat m <= 2 ^ 31)%Z -> inside n m es -> in_order es -> csr_new_uninit n m (length es) b h ->
  exists b', read_coo_sorted one COMMA (coo_text es) n (length es) b = Ok b' /\ sparse_cells b' h n m (ones one es).
Proof. intros. by eapply sorted_ok. Qed.
(** With the other reader the entries may be in any order. *)
Theorem C26_unsorted {V} `{Val V} (one : V) es n m (b : csrbuf V) h junk : viszero one = false -> (Z.of_nat n <= 2 ^ 31)%Z -> (Z.of_nat m <= 2 ^ 31)%Z -> inside n m es -> NoDup es -> es <> [] -> csr_new_uninit n m (length es) b h -> (forall k, length (junk k) = k) ->
  exists b', read_coo_unsorted one COMMA junk (coo_text es) n m (length es) b = Ok b' /\ sparse_cells b' h n m (ones one es).
Proof. intros ? ? ? ? ? Hne. intros. eapply unsorted_ok; try done. destruct es; [done|cbn; lia]. Qed.
(** It throws if any entry is outside of the matrix. *)
Theorem C26_unsorted_range {V} `{Val V} (one : V) es n m (b : csrbuf V) h junk : Forall (fun e => (Z.of_nat e.1 < 2 ^ 31 /\ Z.of_nat e.2 < 2 ^ 31)%Z) es -> ~ inside n m es -> csr_new_uninit n m (length es) b h -> (forall k, length (junk k) = k) ->
  read_coo_unsorted one COMMA junk (coo_text es) n m (length es) b = Throw.
Proof. intros. by eapply unsorted_throws. Qed.

(** What fails: the sorted reader does not check the row. *)
Theorem C26_sorted_range_refuted : read_coo_sorted 1%Z COMMA (coo_text [(2, 0)]) 2 1 (mkBuf [0%Z] [0] [0; 0; 0]) = UB.
Proof. done. Qed.
(** The sorted reader does not check the column either: the matrix it returns is not valid. *)
Theorem C26_sorted_col_refuted : read_coo_sorted 1%Z COMMA (coo_text [(0, 5)]) 2 1 (mkBuf [0%Z] [0] [0; 0; 0]) = Ok (mkBuf [1%Z] [5] [0; 1; 1]).
Proof. done. Qed.
(** Entries sorted by row only: an entry is lost to look-ups. *)
Theorem C26_row_sorted_refuted : exists b, read_coo_sorted 1%Z COMMA (coo_text [(0, 2); (0, 0)]) 1 2 (mkBuf [0%Z; 0%Z] [0; 0] [0; 0]) = Ok b /\ csr_get b (mkH 0 1 3 1 false 2 0) 0 2 = Ok 0%Z.
Proof. eexists. split; [done|]. done. Qed.
(** A file without entries is rejected by the unsorted reader. *)
Theorem C26_unsorted_empty_refuted : read_coo_unsorted 1%Z COMMA (fun k => replicate k 0%Z) (coo_text []) 2 2 0 (mkBuf [] [] [0; 0; 0]) = Throw.
Proof. done. Qed.
Example C26_ex : in_order [(0, 10); (2, 0); (2, 3)] /\ inside 4 11 [(0, 10); (2, 0); (2, 3)] /\ csr_new_uninit 4 11 3 (mkBuf [0%Z; 0%Z; 0%Z] [7; 7; 7] [9; 9; 9; 9; 9]) (mkH 0 4 11 4 false 3 0) /\
  read_coo_sorted 1%Z COMMA (coo_text [(0, 10); (2, 0); (2, 3)]) 4 3 (mkBuf [0%Z; 0%Z; 0%Z] [7; 7; 7] [9; 9; 9; 9; 9]) = Ok (mkBuf [1%Z; 1%Z; 1%Z] [10; 0; 3] [0; 1; 1; 3; 3]).
Proof. split; [repeat constructor; cbn; lia|]. split; [repeat constructor; cbn; lia|]. split; done. Qed.
Example C26_ex_unsorted : NoDup [(2, 3); (0, 10); (2, 0)] /\
  read_coo_unsorted 1%Z COMMA (fun k => replicate k 0%Z) (coo_text [(2, 3); (0, 10); (2, 0)]) 4 11 3 (mkBuf [0%Z; 0%Z; 0%Z] [7; 7; 7] [9; 9; 9; 9; 9]) = Ok (mkBuf [1%Z; 1%Z; 1%Z] [10; 0; 3] [0; 1; 1; 3; 3]).
Proof. split; [by apply (bool_decide_unpack _)|done]. Qed.
Example C26_ex_range : ~ inside 2 2 [(0, 1); (2, 0)] /\ read_coo_unsorted 1%Z COMMA (fun k => replicate k 0%Z) (coo_text [(0, 1); (2, 0)]) 2 2 2 (mkBuf [0%Z; 0%Z] [7; 7] [9; 9; 9]) = Throw.
Proof. split; [intros Hi; apply Forall_cons in Hi as [_ Hi]; apply Forall_cons in Hi as [Hi _]; cbn in Hi; lia|done]. Qed.
Print Assumptions C26_sorted.
Print Assumptions C26_unsorted.
Print Assumptions C26_unsorted_range.
