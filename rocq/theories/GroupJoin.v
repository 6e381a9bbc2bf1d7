(** C87: group join. *)
From stdpp Require Import base numbers sorting list list_numbers.
From Coq Require Import Lia.
From Verif Require Import CppBase Mem Extract OrderModel OrderProofs JoinModel Join GroupJoinModel.
Local Open Scope nat_scope.

(** * Specification *)
Section Spec.
  Context {V : Type} `{EqDecision V} (zero : vtc -> V) (add : vtc -> V -> V -> outcome V).
  (** [s] is the sum of the values [vs], added up from left to right. *)
  Inductive total (t : vtc) : list V -> V -> Prop :=
  | total_nil : total t [] (zero t)
  | total_snoc vs s v s' : total t vs s -> add t s v = Ok s' -> total t (vs ++ [v]) s'.
  (** The values in [ag] in the rows in which [rk] has the value [k]. *)
  Definition values_of (rk ag : list V) (k : V) : list V := map snd (filter (fun p => fst p = k) (zip rk ag)).
  (** [i] is the first row of [lk] with the value [k]. *)
  Definition first_row (lk : list V) (i : nat) (k : V) : Prop := lk !! i = Some k /\ forall j, j < i -> lk !! j <> Some k.
End Spec.

Section Proofs.
  Context {V L : Type} `{EqDecision V} `{EqDecision L}.
  Context (zero : vtc -> V) (add : vtc -> V -> V -> outcome V) (sum_label : L -> L).
  Implicit Types (lhs rhs : frame V L) (lk rk ag : list V) (m : list (@entry V)).

  Lemma total_fun t vs s1 s2 : total zero add t vs s1 -> total zero add t vs s2 -> s1 = s2.
  Proof.
    intros H1. revert s2. induction H1 as [|vs s v s' H1 IH E]; intros s2 H2; inversion H2 as [E1 E2|vs2 t2 v2 s2' H3 E4 E5 E6].
    - done.
    - by destruct vs2.
    - by destruct vs.
    - apply app_inj_tail in E5 as [-> ->]. rewrite (IH _ H3) in E. congruence.
  Qed.
  Lemma total_snoc_inv t vs v s : total zero add t (vs ++ [v]) s -> exists s0, total zero add t vs s0 /\ add t s0 v = Ok s.
  Proof.
    intros H1. inversion H1 as [E1 E2|vs2 t2 v2 s2' H3 E4 E5 E6]; [by destruct vs|]. apply app_inj_tail in E5 as [-> ->]. eauto.
  Qed.
  Lemma values_snoc rk ag k k' v : length rk = length ag -> values_of (rk ++ [k']) (ag ++ [v]) k = values_of rk ag k ++ (if decide (k' = k) then [v] else []).
  Proof.
    intros Hl. unfold values_of. rewrite zip_with_app by done. rewrite filter_app, map_app. f_equal. cbn [zip_with]. rewrite filter_cons. cbn [fst]. by destruct (decide (k' = k)).
  Qed.

  (** Entries after the build phase over [lk] and the probe phase over [rk] and [ag]. *)
  Definition entry_ok t lk rk ag (e : @entry V) : Prop :=
    first_row lk (e_row e) (e_key e) /\ total zero add t (values_of rk ag (e_key e)) (e_agg e) /\ (e_hit e = true <-> e_key e ∈ rk).
  Definition table_ok t lk rk ag m : Prop := NoDup (map e_key m) /\ (forall k, k ∈ lk <-> k ∈ map e_key m) /\ Forall (entry_ok t lk rk ag) m.

  Lemma first_row_snoc lk i k x : first_row lk i k -> first_row (lk ++ [x]) i k.
  Proof.
    intros [E H1]. pose proof (lookup_lt_Some _ _ _ E). split; [by rewrite lookup_app_l by done|]. intros j Hj. rewrite lookup_app_l by lia. by apply H1.
  Qed.
  Lemma build_table t lk : exists m, for_up 0 (length lk) (fun i m => let* k := rd lk i in Ok (emplace zero t k i m)) [] = Ok m /\ table_ok t lk [] [] m.
  Proof.
    destruct (for_up_inv (fun i m => table_ok t (take i lk) [] [] m) 0 (length lk) (fun i m => let* k := rd lk i in Ok (emplace zero t k i m)) []) as (m & E & Hm); [lia| | |exists m; split; [done|]; by rewrite firstn_all in Hm].
    { split; [constructor|]. split; [|constructor]. intros k. done. }
    intros i m Hi (Hnd & Hin & Hall). destruct (lookup_lt_is_Some_2 lk i ltac:(lia)) as [k Hk]. rewrite (rd_Ok _ _ _ Hk). cbn [obind]. eexists. split; [done|]. change (1 + i) with (S i). rewrite (take_S_r _ _ _ Hk). unfold emplace.
    destruct (decide (k ∈ map e_key m)) as [Hyes|Hno].
    - split; [done|]. split.
      + intros k'. rewrite elem_of_app, elem_of_list_singleton, Hin. split; [|tauto]. intros [?| ->]; done.
      + eapply Forall_impl; [exact Hall|]. intros e (H1 & H2 & H3). split; [by apply first_row_snoc|done].
    - split; [|split].
      + rewrite map_app. apply NoDup_app. split; [done|]. split; [|apply NoDup_singleton]. intros x Hx Hx2. cbn in Hx2. apply elem_of_list_singleton in Hx2. cbn in Hx2. subst x. done.
      + intros k'. rewrite map_app, !elem_of_app, Hin. cbn. rewrite !elem_of_list_singleton. done.
      + apply Forall_app. split; [eapply Forall_impl; [exact Hall|]; intros e (H1 & H2 & H3); split; [by apply first_row_snoc|done]|]. apply Forall_singleton. unfold entry_ok, e_row, e_key, e_agg, e_hit. cbn [fst snd]. split; [split|split].
        * rewrite lookup_app_r by (rewrite take_length; lia). rewrite take_length. replace (i - i `min` length lk) with 0 by lia. done.
        * intros j Hj. rewrite lookup_app_l by (rewrite take_length; lia). intros E. apply Hno, Hin, elem_of_list_lookup. eauto.
        * constructor.
        * split; [done|]. by rewrite elem_of_nil.
  Qed.

  (** One right row. *)
  Lemma hit_ok t lk rk ag k v m : length rk = length ag -> NoDup (map e_key m) -> Forall (entry_ok t lk rk ag) m ->
    (forall k', k' ∈ map e_key m -> exists s, total zero add t (values_of (rk ++ [k]) (ag ++ [v]) k') s) ->
    exists m', hit add t k v m = Ok m' /\ map e_key m' = map e_key m /\ Forall (entry_ok t lk (rk ++ [k]) (ag ++ [v])) m'.
  Proof.
    intros Hl. induction m as [|e m IH]; intros Hnd Hall Htot; [by exists []|]. cbn in Hnd. apply NoDup_cons in Hnd as [Hni Hnd]. apply Forall_cons in Hall as [He Hall].
    assert (Hkeep : forall e, entry_ok t lk rk ag e -> e_key e <> k -> entry_ok t lk (rk ++ [k]) (ag ++ [v]) e).
    { intros e' (H1 & H2 & H3) Hne. split; [done|]. rewrite values_snoc by done. rewrite decide_False by done. rewrite app_nil_r. split; [done|]. rewrite elem_of_app, elem_of_list_singleton, H3. split; [tauto|]. intros [?|?]; [done|congruence]. }
    cbn [hit]. destruct (decide (e_key e = k)) as [Ek|Hne].
    - destruct (Htot (e_key e)) as [s Hs]; [cbn; apply elem_of_list_here|]. rewrite values_snoc in Hs by done. rewrite decide_True in Hs by done. apply total_snoc_inv in Hs as (s0 & H0 & Ea). destruct He as (H1 & H2 & H3). rewrite (total_fun _ _ _ _ H2 H0), Ea. cbn [obind].
      eexists. split; [done|]. split; [done|]. constructor.
      + unfold entry_ok. unfold e_row at 1, e_key, e_agg, e_hit. cbn [fst snd]. split; [done|]. split.
        * rewrite values_snoc by done. rewrite decide_True by done. by econstructor.
        * split; [|done]. intros _. rewrite elem_of_app, elem_of_list_singleton. by right.
      + apply Forall_forall. intros e' He'. rewrite Forall_forall in Hall. apply Hkeep; [by apply Hall|]. intros E. apply Hni. rewrite Ek, <- E. apply elem_of_list_fmap. eauto.
    - destruct IH as (m' & E & E1 & E2); [done|done|intros k' Hk'; apply Htot; cbn; by apply elem_of_list_further|]. rewrite E. cbn [obind]. eexists. split; [done|]. cbn. rewrite E1. split; [done|]. constructor; [by apply Hkeep|done].
  Qed.
  Lemma total_prefix t rk ag k s n : length rk = length ag -> total zero add t (values_of rk ag k) s -> exists s0, total zero add t (values_of (take n rk) (take n ag) k) s0.
  Proof.
    intros Hl Ht. assert (E : values_of rk ag k = values_of (take n rk) (take n ag) k ++ values_of (drop n rk) (drop n ag) k).
    { unfold values_of. rewrite <- map_app, <- filter_app. rewrite <- zip_with_app by (rewrite !take_length; lia). by rewrite !take_drop. }
    rewrite E in Ht. clear E. revert s Ht. induction (values_of (drop n rk) (drop n ag) k) as [|v vs IH] using rev_ind; intros s Ht; [rewrite app_nil_r in Ht; eauto|].
    rewrite app_assoc in Ht. apply total_snoc_inv in Ht as (s0 & H0 & _). eauto.
  Qed.
  Lemma table_spec t lk rk ag : length rk = length ag -> (forall k, k ∈ lk -> exists s, total zero add t (values_of rk ag k) s) ->
    exists m, table zero add t lk rk ag = Ok m /\ table_ok t lk rk ag m.
  Proof.
    intros Hl Htot. unfold table. destruct (build_table t lk) as (m0 & -> & Hnd0 & Hin0 & Hall0). cbn [obind].
    destruct (for_up_inv (fun i m => map e_key m = map e_key m0 /\ Forall (entry_ok t lk (take i rk) (take i ag)) m) 0 (length rk) (fun i m => let* k := rd rk i in let* v := rd ag i in hit add t k v m) m0) as (m & E & Ek & Hm); [lia|done| |].
    - intros i m Hi (Ek & Hm). destruct (lookup_lt_is_Some_2 rk i ltac:(lia)) as [k Hk]. destruct (lookup_lt_is_Some_2 ag i ltac:(lia)) as [v Hv]. rewrite (rd_Ok _ _ _ Hk). cbn [obind]. rewrite (rd_Ok _ _ _ Hv). cbn [obind].
      change (1 + i) with (S i). rewrite (take_S_r _ _ _ Hk), (take_S_r _ _ _ Hv). destruct (hit_ok t lk (take i rk) (take i ag) k v m) as (m' & E & E1 & E2); [rewrite !take_length; lia|by rewrite Ek|done| |exists m'; split; [done|]; split; [congruence|done]].
      intros k' Hk'. rewrite Ek in Hk'. apply Hin0 in Hk'. destruct (Htot k' Hk') as [s Hs]. rewrite <- (take_S_r _ _ _ Hk), <- (take_S_r _ _ _ Hv). by eapply total_prefix.
    - exists m. split; [done|]. rewrite firstn_all in Hm. rewrite Hl in Hm. rewrite firstn_all in Hm. split; [by rewrite Ek|]. split; [by rewrite Ek|done].
  Qed.

  Lemma NoDup_map_filter {A B} (g : A -> B) (P : A -> Prop) `{forall x, Decision (P x)} (l : list A) : NoDup (map g l) -> NoDup (map g (filter P l)).
  Proof.
    induction l as [|x l IH]; [done|]. cbn [map]. intros [Hx Hl]%NoDup_cons. rewrite filter_cons. destruct (decide (P x)); [|by apply IH]. cbn [map]. apply NoDup_cons. split; [|by apply IH]. intros Hin. apply Hx.
    apply elem_of_list_fmap in Hin as (y & -> & Hy). apply elem_of_list_filter in Hy as [_ Hy]. apply elem_of_list_fmap. eauto.
  Qed.
  (** The output phase. *)
  Lemma puts_ok t n l1 l2 (es done_ : list (@entry V)) (c0 c1 : list V) (ts : list nat) :
    length c0 = n -> length c1 = n -> length ts = n -> length done_ + length (filter (fun e => e_hit e = true) es) <= n ->
    (forall i e, done_ !! i = Some e -> c0 !! i = Some (e_key e) /\ c1 !! i = Some (e_agg e) /\ ts !! i = Some (e_row e)) ->
    exists d0 d1 ts', over (put_entry t n) es (mkFrame n [mkCol TI64 l1 c0; mkCol t l2 c1], ts, length done_)
        = Ok (mkFrame (L := L) n [mkCol TI64 l1 d0; mkCol t l2 d1], ts', length done_ + length (filter (fun e => e_hit e = true) es)) /\
      length d0 = n /\ length d1 = n /\ length ts' = n /\
      (forall i e, (done_ ++ filter (fun e => e_hit e = true) es) !! i = Some e -> d0 !! i = Some (e_key e) /\ d1 !! i = Some (e_agg e) /\ ts' !! i = Some (e_row e)).
  Proof.
    revert done_ c0 c1 ts. induction es as [|e es IH]; intros dn c0 c1 ts L0 L1 Lt Hn Hd.
    { exists c0, c1, ts. cbn. rewrite Nat.add_0_r, app_nil_r. done. }
    cbn [over]. unfold put_entry at 1. rewrite filter_cons in Hn |- *. destruct (decide (e_hit e = true)) as [Eh|Eh].
    - rewrite Eh. cbn [length] in Hn. unfold set_cell at 1. cbn [f_cols rd obind lookup list_lookup c_ty f_rows]. rewrite decide_False by (intros E; by apply E). rewrite decide_False by lia. cbn [c_cells c_label].
      rewrite wr_Ok by lia. cbn [obind]. unfold wr at 1. cbn [length]. rewrite decide_True by lia. cbn [obind]. 
      unfold set_cell at 1. cbn [f_cols rd obind lookup list_lookup c_ty f_rows insert list_insert]. rewrite decide_False by (intros E; by apply E). rewrite decide_False by lia. cbn [c_cells c_label].
      rewrite wr_Ok by lia. cbn [obind]. unfold wr at 1. cbn [length]. rewrite decide_True by lia. cbn [obind insert list_insert]. rewrite decide_False by lia. rewrite wr_Ok by lia. cbn [obind].
      destruct (IH (dn ++ [e]) (<[length dn := e_key e]> c0) (<[length dn := e_agg e]> c1) (<[length dn := e_row e]> ts)) as (d0 & d1 & ts' & E & A1 & A2 & A3 & A4).
      + by rewrite insert_length.
      + by rewrite insert_length.
      + by rewrite insert_length.
      + rewrite app_length. cbn [length]. lia.
      + intros i e' Hi. destruct (decide (i = length dn)) as [->|Hne].
        * rewrite lookup_app_r in Hi by lia. rewrite Nat.sub_diag in Hi. injection Hi as <-. rewrite !list_lookup_insert by lia. done.
        * pose proof (lookup_lt_Some _ _ _ Hi) as Hlt. rewrite app_length in Hlt. cbn [length] in Hlt. rewrite lookup_app_l in Hi by lia. rewrite !list_lookup_insert_ne by lia. by apply Hd.
      + rewrite app_length in E. cbn [length] in E. exists d0, d1, ts'. rewrite E. split; [f_equal; f_equal; cbn [length]; lia|]. split; [done|]. split; [done|]. split; [done|]. intros i e' Hi. apply A4. rewrite <- app_assoc. done.
    - destruct (e_hit e); [done|]. cbn [obind]. apply IH; done.
  Qed.

  (** * Properties *)
  Context (order : list (@entry V) -> list (@entry V)).
  Lemma group_join_runs junk jt lhs rhs lhsOn rhsOn rhsAgg t lk rk ag : (forall c k, length (junk c k) = k) -> (forall k, length (jt k) = k) -> (forall l, order l ≡ₚ l) ->
    valid lhs -> valid rhs -> key_column lhs lhsOn TI64 lk -> key_column rhs rhsOn TI64 rk -> key_column rhs rhsAgg t ag -> t = TF64 \/ t = TI64 ->
    (forall k, k ∈ lk -> exists s, total zero add t (values_of rk ag k) s) ->
    exists res tids, group_join zero add sum_label order junk jt lhs rhs lhsOn rhsOn rhsAgg = (if decide (lhsOn = sum_label rhsAgg) then Throw else Ok (res, tids)) /\ f_rows res = length tids /\
      infer_group_join sum_label lhs rhs lhsOn rhsAgg = Ok (headers res) /\ headers res = [(TI64, lhsOn); (t, sum_label rhsAgg)] /\
      (forall k, k ∈ lk /\ k ∈ rk <-> exists i, cell res i 0 = Some k) /\
      (forall i j k, cell res i 0 = Some k -> cell res j 0 = Some k -> i = j) /\
      (forall i k, cell res i 0 = Some k -> exists l s, tids !! i = Some l /\ first_row lk l k /\ cell res i 1 = Some s /\ total zero add t (values_of rk ag k) s).
  Proof.
    intros Hj Hjt Hord Vl Vr Kl Kr Ka Ht Htot. pose proof (key_length _ _ _ _ Vr Kr) as Lr. pose proof (key_length _ _ _ _ Vr Ka) as La.
    destruct Kl as (i & cl & Hi & <- & El & Hlk). destruct Kr as (j & cr & Hjr & <- & Er & Hrk). destruct Ka as (k & ca & Hk & <- & Ea & Hag).
    destruct (table_spec t lk rk ag ltac:(congruence) Htot) as (m & Em & Hnd & Hin & Hall).
    set (n := length (filter (fun e => e_hit e = true) (order m))).
    destruct (puts_ok t n (c_label cl) (sum_label (c_label ca)) (order m) [] (junk 0 n) (junk 1 n) (jt n) (Hj 0 n) (Hj 1 n) (Hjt n) ltac:(cbn [length plus]; unfold n; lia) ltac:(done)) as (d0 & d1 & ts & E & A0 & A1 & A2 & A3).
    cbn [length plus app] in E, A3. fold n in E.
    exists (mkFrame n [mkCol TI64 (c_label cl) d0; mkCol t (sum_label (c_label ca)) d1]), ts. split.
    { unfold group_join, col_type. rewrite (col_idx_ok _ _ _ Vl Hi), (col_idx_ok _ _ _ Vr Hjr), (col_idx_ok _ _ _ Vr Hk). cbn [obind]. rewrite (rd_Ok _ _ _ Hi), (rd_Ok _ _ _ Hjr), (rd_Ok _ _ _ Hk). cbn [obind].
      rewrite decide_True by (rewrite Ea; tauto). rewrite <- Hlk, <- Hrk, <- Hag, Ea. unfold group_join_col. rewrite decide_False by (intros F; apply F; congruence). rewrite Em. cbn [obind]. cbv zeta. fold n. rewrite E. by cbn [obind fst]. }
    split; [done|]. split.
    { unfold infer_group_join, col_type. rewrite (col_idx_ok _ _ _ Vl Hi), (col_idx_ok _ _ _ Vr Hk). cbn [obind]. rewrite (rd_Ok _ _ _ Hi), (rd_Ok _ _ _ Hk). cbn [obind]. by rewrite El, Ea. }
    split; [done|].
    set (es := filter (fun e => e_hit e = true) (order m)) in *.
    assert (Hc0 : forall q, cell (L := L) (mkFrame n [mkCol TI64 (c_label cl) d0; mkCol t (sum_label (c_label ca)) d1]) q 0 = e_key <$> es !! q).
    { intros q. unfold cell. cbn [f_rows f_cols lookup list_lookup]. cbn. destruct (decide (q < n)) as [Hq|Hq].
      - destruct (lookup_lt_is_Some_2 es q Hq) as [e He]. rewrite He. by destruct (A3 q e He).
      - symmetry. apply fmap_None, lookup_ge_None. unfold n in Hq. lia. }
    assert (Hes : forall e, e ∈ es -> entry_ok t lk rk ag e /\ e_hit e = true).
    { intros e He. apply elem_of_list_filter in He as [H1 H2]. split; [|done]. rewrite Hord in H2. rewrite Forall_forall in Hall. by apply Hall. }
    split; [|split].
    - intros x. split.
      + intros [Hx Hy]. apply Hin in Hx. apply elem_of_list_fmap in Hx as (e & -> & He). rewrite Forall_forall in Hall. destruct (Hall e He) as (_ & _ & Hh). assert (Hee : e ∈ es). { apply elem_of_list_filter. split; [by apply Hh|]. by rewrite Hord. }
        apply elem_of_list_lookup in Hee as [q Hq]. exists q. by rewrite Hc0, Hq.
      + intros [q Hq]. rewrite Hc0 in Hq. destruct (es !! q) as [e|] eqn:Eq; [|done]. injection Hq as <-. destruct (Hes e (elem_of_list_lookup_2 _ _ _ Eq)) as [(H1 & _ & H3) Hh]. split; [destruct H1 as [H1 _]; by apply elem_of_list_lookup_2 in H1|by apply H3].
    - intros p q x Hp Hq. rewrite Hc0 in Hp, Hq. assert (Hndk : NoDup (e_key <$> es)). { apply NoDup_map_filter. assert (HP : map e_key (order m) ≡ₚ map e_key m) by (by apply fmap_Permutation). by rewrite HP. }
      rewrite <- list_lookup_fmap in Hp, Hq. by eapply NoDup_lookup.
    - intros q x Hq. rewrite Hc0 in Hq. destruct (es !! q) as [e|] eqn:Eq; [|done]. injection Hq as <-. destruct (Hes e (elem_of_list_lookup_2 _ _ _ Eq)) as [(H1 & H2 & H3) Hh]. destruct (A3 q e Eq) as (B0 & B1 & B2). exists (e_row e), (e_agg e). split; [done|]. split; [done|]. split; [|done].
      unfold cell. cbn [f_rows f_cols lookup list_lookup]. cbn. pose proof (lookup_lt_Some _ _ _ Eq) as Hlt. rewrite decide_True; [done|]. unfold n. done.
  Qed.
  (** One row for each value that occurs in both key columns, with the sum of the right values and the first left row with the value.  The
      types and labels are those known at compile time. *)
  Theorem C87_group_join junk jt lhs rhs lhsOn rhsOn rhsAgg t lk rk ag : (forall c k, length (junk c k) = k) -> (forall k, length (jt k) = k) -> (forall l, order l ≡ₚ l) ->
    valid lhs -> valid rhs -> key_column lhs lhsOn TI64 lk -> key_column rhs rhsOn TI64 rk -> key_column rhs rhsAgg t ag -> t = TF64 \/ t = TI64 ->
    lhsOn <> sum_label rhsAgg -> (forall k, k ∈ lk -> exists s, total zero add t (values_of rk ag k) s) ->
    exists res tids, group_join zero add sum_label order junk jt lhs rhs lhsOn rhsOn rhsAgg = Ok (res, tids) /\ f_rows res = length tids /\
      infer_group_join sum_label lhs rhs lhsOn rhsAgg = Ok (headers res) /\ headers res = [(TI64, lhsOn); (t, sum_label rhsAgg)] /\
      (forall k, k ∈ lk /\ k ∈ rk <-> exists i, cell res i 0 = Some k) /\
      (forall i j k, cell res i 0 = Some k -> cell res j 0 = Some k -> i = j) /\
      (forall i k, cell res i 0 = Some k -> exists l s, tids !! i = Some l /\ first_row lk l k /\ cell res i 1 = Some s /\ total zero add t (values_of rk ag k) s).
  Proof.
    intros Hj Hjt Hord Vl Vr Kl Kr Ka Ht Hlab Htot. destruct (group_join_runs junk jt lhs rhs lhsOn rhsOn rhsAgg t lk rk ag Hj Hjt Hord Vl Vr Kl Kr Ka Ht Htot) as (res & tids & E & Hrest). exists res, tids. rewrite decide_False in E by done. done.
  Qed.
  (** A left key column with the label of the sum is an error. *)
  Theorem C87_same_label junk jt lhs rhs lhsOn rhsOn rhsAgg t lk rk ag : (forall c k, length (junk c k) = k) -> (forall k, length (jt k) = k) -> (forall l, order l ≡ₚ l) ->
    valid lhs -> valid rhs -> key_column lhs lhsOn TI64 lk -> key_column rhs rhsOn TI64 rk -> key_column rhs rhsAgg t ag -> t = TF64 \/ t = TI64 ->
    lhsOn = sum_label rhsAgg -> (forall k, k ∈ lk -> exists s, total zero add t (values_of rk ag k) s) ->
    group_join zero add sum_label order junk jt lhs rhs lhsOn rhsOn rhsAgg = Throw.
  Proof.
    intros Hj Hjt Hord Vl Vr Kl Kr Ka Ht Hlab Htot. destruct (group_join_runs junk jt lhs rhs lhsOn rhsOn rhsAgg t lk rk ag Hj Hjt Hord Vl Vr Kl Kr Ka Ht Htot) as (res & tids & E & _). by rewrite decide_True in E by done.
  Qed.
  (** If the left keys are unique, these are the sums of the groups of the inner join. *)
  Theorem C87_as_join lk rk ag ps k : NoDup lk -> length rk = length ag -> matches lk rk ps -> k ∈ lk ->
    values_of rk ag k = omap (fun p => ag !! snd p) (filter (fun p => lk !! fst p = Some k) ps).
  Proof.
    intros Hnd Hl Hm Hk. rewrite (matches_unique _ _ _ _ Hm (pairs_matches lk rk)). apply elem_of_list_lookup in Hk as [l0 Hl0]. unfold pairs.
    assert (Hrows : forall n, n <= length rk -> values_of (take n rk) (take n ag) k = omap (fun r => ag !! r) (rows_to rk n k)).
    { induction n as [|n IH]; intros Hn; [done|]. destruct (lookup_lt_is_Some_2 rk n ltac:(lia)) as [x Hx]. destruct (lookup_lt_is_Some_2 ag n ltac:(lia)) as [v Hv]. rewrite (take_S_r _ _ _ Hx), (take_S_r _ _ _ Hv), values_snoc by (rewrite !take_length; lia). rewrite IH by lia.
      unfold rows_to. rewrite seq_S, filter_app, omap_app. f_equal. cbn [plus]. rewrite filter_cons. rewrite Hx. destruct (decide (x = k)) as [->|Hne]; [rewrite decide_True by done; cbn; by rewrite Hv|rewrite decide_False by congruence; done]. }
    assert (Hpairs : forall n, n <= length lk -> filter (fun p => lk !! fst p = Some k) (pairs_to lk rk n) = if decide (l0 < n) then (l0,.) <$> rows_to rk (length rk) k else []).
    { induction n as [|n IH]; intros Hn; [by rewrite decide_False by lia|]. destruct (lookup_lt_is_Some_2 lk n ltac:(lia)) as [x Hx]. rewrite (pairs_to_S _ _ _ _ Hx), filter_app, IH by lia.
      assert (Hall : forall l : list nat, filter (fun p => lk !! fst p = Some k) ((n,.) <$> l) = if decide (x = k) then (n,.) <$> l else []).
      { induction l as [|r l IHl]; [by destruct (decide (x = k))|]. rewrite fmap_cons, filter_cons. cbn [fst]. rewrite Hx, IHl. destruct (decide (x = k)) as [->|Hne]; [by rewrite decide_True by done|by rewrite decide_False by congruence]. }
      rewrite Hall. destruct (decide (x = k)) as [->|Hne].
      - assert (n = l0) as -> by (by eapply NoDup_lookup). rewrite decide_False by lia. rewrite decide_True by lia. done.
      - rewrite app_nil_r. assert (n <> l0) by congruence. destruct (decide (l0 < n)); [by rewrite decide_True by lia|by rewrite decide_False by lia]. }
    rewrite Hpairs by done. rewrite decide_True by (by eapply lookup_lt_Some). specialize (Hrows (length rk) ltac:(done)). rewrite firstn_all in Hrows. rewrite Hl in Hrows at 1. rewrite firstn_all in Hrows. rewrite Hrows.
    assert (G : forall l : list nat, omap (fun r => ag !! r) l = omap (fun p : nat * nat => ag !! snd p) ((l0,.) <$> l)) by (induction l as [|r l IHl]; [done|]; csimpl; destruct (ag !! r); [f_equal|]; exact IHl). apply G.
  Qed.

  (** If a sum of the values of a left key does not fit, the behaviour is undefined. *)
  Lemma hit_cases t lk rk ag k v m : length rk = length ag -> (forall t x y, add t x y <> Throw) -> NoDup (map e_key m) -> Forall (entry_ok t lk rk ag) m ->
    (hit add t k v m = UB \/ exists m', hit add t k v m = Ok m' /\ map e_key m' = map e_key m /\ Forall (entry_ok t lk (rk ++ [k]) (ag ++ [v])) m').
  Proof.
    intros Hl Hadd Hnd Hall. destruct (decide (k ∈ map e_key m)) as [Hk|Hk].
    - apply elem_of_list_fmap in Hk as (e & -> & He). rewrite Forall_forall in Hall. destruct (Hall e He) as (H1 & H2 & H3). destruct (add t (e_agg e) v) as [s'| |] eqn:Ea; [|by apply Hadd in Ea|].
      + right. apply hit_ok; [done|done|by apply Forall_forall|]. intros k' Hk'. apply elem_of_list_fmap in Hk' as (e' & -> & He'). destruct (Hall e' He') as (G1 & G2 & G3). rewrite values_snoc by done. destruct (decide (e_key e = e_key e')) as [Eq|Hne].
        * assert (e = e') as <-. { apply elem_of_list_lookup in He as [p Hp]. apply elem_of_list_lookup in He' as [q Hq]. assert (p = q) as ->; [|congruence]. eapply (NoDup_lookup (e_key <$> m)); [done|by rewrite list_lookup_fmap, Hp|rewrite list_lookup_fmap, Hq; cbn; by rewrite Eq]. }
          exists s'. by econstructor.
        * rewrite app_nil_r. eauto.
      + left. clear -Ea He Hnd. induction m as [|f m IH]; [by apply elem_of_nil in He|]. cbn in Hnd. apply NoDup_cons in Hnd as [Hni Hnd]. cbn [hit]. apply elem_of_cons in He as [->|He].
        * rewrite decide_True by done. by rewrite Ea.
        * rewrite decide_False; [by rewrite IH by done|]. intros E. apply Hni. rewrite E. apply elem_of_list_fmap. eauto.
    - right. apply hit_ok; [done|done|done|]. intros k' Hk'. rewrite values_snoc by done. rewrite decide_False by congruence. rewrite app_nil_r. apply elem_of_list_fmap in Hk' as (e & -> & He). rewrite Forall_forall in Hall. destruct (Hall e He) as (_ & H2 & _). eauto.
  Qed.
  Theorem C87_overflow_refuted junk jt lhs rhs lhsOn rhsOn rhsAgg t lk rk ag k : (forall t x y, add t x y <> Throw) ->
    valid lhs -> valid rhs -> key_column lhs lhsOn TI64 lk -> key_column rhs rhsOn TI64 rk -> key_column rhs rhsAgg t ag -> t = TF64 \/ t = TI64 ->
    k ∈ lk -> (~ exists s, total zero add t (values_of rk ag k) s) ->
    group_join zero add sum_label order junk jt lhs rhs lhsOn rhsOn rhsAgg = UB.
  Proof.
    intros Hadd Vl Vr Kl Kr Ka Ht Hkl Hno. pose proof (key_length _ _ _ _ Vr Kr) as Lr. pose proof (key_length _ _ _ _ Vr Ka) as La.
    destruct Kl as (i & cl & Hi & <- & El & Hlk). destruct Kr as (j & cr & Hjr & <- & Er & Hrk). destruct Ka as (q & ca & Hq & <- & Ea & Hag).
    unfold group_join, col_type. rewrite (col_idx_ok _ _ _ Vl Hi), (col_idx_ok _ _ _ Vr Hjr), (col_idx_ok _ _ _ Vr Hq). cbn [obind]. rewrite (rd_Ok _ _ _ Hi), (rd_Ok _ _ _ Hjr), (rd_Ok _ _ _ Hq). cbn [obind].
    rewrite decide_True by (rewrite Ea; tauto). rewrite <- Hlk, <- Hrk, <- Hag, Ea. unfold group_join_col. rewrite decide_False by (intros F; apply F; congruence). enough (table zero add t lk rk ag = UB) as -> by done.
    unfold table. destruct (build_table t lk) as (m0 & -> & Hnd0 & Hin0 & Hall0). cbn [obind].
    assert (Hcase : forall n, n <= length rk -> for_up 0 n (fun i m => let* k := rd rk i in let* v := rd ag i in hit add t k v m) m0 = UB \/
      exists m, for_up 0 n (fun i m => let* k := rd rk i in let* v := rd ag i in hit add t k v m) m0 = Ok m /\ map e_key m = map e_key m0 /\ Forall (entry_ok t lk (take n rk) (take n ag)) m).
    { induction n as [|n IH]; intros Hn; [right; by exists m0|]. unfold for_up in *. rewrite Nat.sub_0_r in *. rewrite forn_snoc. destruct IH as [IH|(m & IH & E1 & E2)]; [lia|rewrite IH; by left|]. rewrite IH. cbn [obind plus].
      destruct (lookup_lt_is_Some_2 rk n ltac:(lia)) as [x Hx]. destruct (lookup_lt_is_Some_2 ag n ltac:(lia)) as [v Hv]. rewrite (rd_Ok _ _ _ Hx). cbn [obind]. rewrite (rd_Ok _ _ _ Hv). cbn [obind]. rewrite (take_S_r _ _ _ Hx), (take_S_r _ _ _ Hv).
      destruct (hit_cases t lk (take n rk) (take n ag) x v m) as [->|(m' & -> & F1 & F2)]; [rewrite !take_length; lia|done|by rewrite E1|done|by left|]. right. exists m'. split; [done|]. split; [congruence|done]. }
    destruct (Hcase (length rk)) as [->|(m & E & E1 & E2)]; [done|done|]. exfalso. apply Hno. apply Hin0 in Hkl. rewrite <- E1 in Hkl. apply elem_of_list_fmap in Hkl as (e & -> & He). rewrite Forall_forall in E2. destruct (E2 e He) as (_ & H2 & _).
    rewrite firstn_all in H2. assert (Lra : length rk = length ag) by congruence. rewrite Lra, firstn_all in H2. eauto.
  Qed.

  (** Other types are not detected: the missing result is dereferenced. *)
  Theorem C87_types_refuted junk jt lhs rhs lhsOn rhsOn rhsAgg tl tr ta lk rk ag :
    valid lhs -> valid rhs -> key_column lhs lhsOn tl lk -> key_column rhs rhsOn tr rk -> key_column rhs rhsAgg ta ag -> tl <> TI64 \/ tr <> TI64 \/ ta <> TF64 /\ ta <> TI64 ->
    group_join zero add sum_label order junk jt lhs rhs lhsOn rhsOn rhsAgg = UB.
  Proof.
    intros Vl Vr Kl Kr Ka Ht. destruct Kl as (i & cl & Hi & <- & El & Hlk). destruct Kr as (j & cr & Hjr & <- & Er & Hrk). destruct Ka as (q & ca & Hq & <- & Ea & Hag).
    unfold group_join, col_type. rewrite (col_idx_ok _ _ _ Vl Hi), (col_idx_ok _ _ _ Vr Hjr), (col_idx_ok _ _ _ Vr Hq). cbn [obind]. rewrite (rd_Ok _ _ _ Hi), (rd_Ok _ _ _ Hjr), (rd_Ok _ _ _ Hq). cbn [obind]. rewrite decide_False; [done|]. subst. tauto.
  Qed.
  Lemma no_column f l : l ∉ c_label <$> f_cols f -> col_type (V := V) (L := L) f l = Throw.
  Proof.
    intros Hno. unfold col_type, col_idx. destruct (list_find _ _) as [[x c]|] eqn:E; [|done]. apply list_find_Some in E as (E & <- & _). destruct Hno. apply elem_of_list_fmap. exists c. split; [done|]. by apply elem_of_list_lookup_2 in E.
  Qed.
  (** A label that does not exist is an error. *)
  Theorem C87_error junk jt lhs rhs lhsOn rhsOn rhsAgg :
    lhsOn ∉ c_label <$> f_cols lhs \/ valid lhs /\ lhsOn ∈ c_label <$> f_cols lhs /\ (rhsOn ∉ c_label <$> f_cols rhs \/ valid rhs /\ rhsOn ∈ c_label <$> f_cols rhs /\ rhsAgg ∉ c_label <$> f_cols rhs) ->
    group_join zero add sum_label order junk jt lhs rhs lhsOn rhsOn rhsAgg = Throw.
  Proof.
    assert (Hyes : forall (f : frame V L) l, valid f -> l ∈ c_label <$> f_cols f -> exists t, col_type f l = Ok t).
    { intros f l Vf Hl. apply elem_of_list_fmap in Hl as (c & -> & Hc). apply elem_of_list_lookup in Hc as [x Hx]. exists (c_ty c). unfold col_type. rewrite (col_idx_ok _ _ _ Vf Hx). cbn [obind]. by rewrite (rd_Ok _ _ _ Hx). }
    intros [Hl|(Vl & Hl & [Hr|(Vr & Hr & Ha)])].
    - unfold group_join. by rewrite no_column.
    - unfold group_join. destruct (Hyes _ _ Vl Hl) as [t ->]. cbn [obind]. by rewrite no_column.
    - unfold group_join. destruct (Hyes _ _ Vl Hl) as [t ->]. destruct (Hyes _ _ Vr Hr) as [t' ->]. cbn [obind]. by rewrite no_column.
  Qed.
End Proofs.

(** * Cases *)
Definition nat_zero (t : vtc) := 0.
(** Addition of numbers below 256 *)
Definition nat_add (t : vtc) (x y : nat) : outcome nat := if decide (x + y < 256) then Ok (x + y) else UB.
Definition nat_label (l : nat) := l + 100.
Definition ex_gl : frame nat nat := mkFrame 4 [mkCol TI64 0 [7; 3; 5; 9]].
Definition ex_gr : frame nat nat := mkFrame 6 [mkCol TI64 1 [5; 7; 4; 5; 9; 5]; mkCol TF64 2 [1; 20; 30; 2; 0; 4]].
(** The key 3 has no right row, the key 4 no left row; the entries come in reverse order. *)
Theorem C87_example : group_join nat_zero nat_add nat_label (@rev _) (fun _ k => replicate k 99) (fun k => replicate k 98) ex_gl ex_gr 0 1 2 =
  Ok (mkFrame 3 [mkCol TI64 0 [9; 5; 7]; mkCol TF64 102 [0; 7; 20]], [3; 2; 0]).
Proof. by vm_compute. Qed.
(** A left key that occurs twice: there are two pairs in the join, but the value is added once. *)
Theorem C87_duplicates_refuted :
  group_join nat_zero nat_add nat_label (fun l => l) (fun _ k => replicate k 99) (fun k => replicate k 98) (mkFrame 2 [mkCol TI64 0 [7; 7]]) (mkFrame 1 [mkCol TI64 1 [7]; mkCol TI64 2 [5]]) 0 1 2 =
    Ok (mkFrame 1 [mkCol TI64 0 [7]; mkCol TI64 102 [5]], [0]) /\
  matches [7; 7] [7] [(0, 0); (1, 0)].
Proof.
  split; [by vm_compute|]. replace [(0, 0); (1, 0)] with (pairs [7; 7] [7]) by (by vm_compute). apply pairs_matches.
Qed.
(** 200 + 100 does not fit. *)
Theorem C87_example_overflow :
  group_join nat_zero nat_add nat_label (fun l => l) (fun _ k => replicate k 99) (fun k => replicate k 98) (mkFrame 1 [mkCol TI64 0 [7]]) (mkFrame 2 [mkCol TI64 1 [7; 7]; mkCol TI64 2 [200; 100]]) 0 1 2 = UB.
Proof. by vm_compute. Qed.

Print Assumptions C87_group_join.
Print Assumptions C87_same_label.
Print Assumptions C87_as_join.
Print Assumptions C87_overflow_refuted.
Print Assumptions C87_types_refuted.
Print Assumptions C87_error.
Print Assumptions C87_example.
Print Assumptions C87_duplicates_refuted.
Print Assumptions C87_example_overflow.
