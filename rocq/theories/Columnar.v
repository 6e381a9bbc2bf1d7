(** C61: matrix and frame operations executed by columnar operators. *)
From stdpp Require Import base numbers sorting list list_numbers.
From Coq Require Import ZArith Lia.
From Verif Require Import CppBase Mem BitmapModel Bitmap ExtractModel Extract EwModel OrderModel OrderSpec OrderProofs Order JoinModel Join GroupModel Group ColumnarModel ColumnarSpec ColumnarProofs ColumnarGroup.
Local Open Scope nat_scope.

(** * Casts *)
Lemma to_col_ok {V} (a : dmat V) n x : is_dense a n 1 (fun r _ => x r) -> to_col a = Ok (map x (seq 0 n)).
Proof.
  intros Ha. pose proof Ha as (Hr & Hc & _). unfold to_col. rewrite decide_False by (intros H; by apply H). rewrite Hr.
  match goal with |- context [for_up 0 n ?f ?s0] => destruct (for_up_inv (fun k (l : list V) => l = map x (seq 0 k)) 0 n f s0) as (l & E & ->) end; [lia|done| |done].
  intros k l Hk ->. rewrite (dm_at_Ok a n 1 (fun r _ => x r)) by (done || lia). cbn [obind]. eexists. split; [done|]. replace (1 + k) with (S k) by lia. rewrite seq_S, map_app. done.
Qed.
Lemma to_col_column (a : dmat Z) l : column a l -> to_col a = Ok l.
Proof.
  intros Ha. rewrite (to_col_ok a (length l) (fun r => l !!! r) Ha). f_equal. apply list_eq. intros i. change (map ?f ?s) with (f <$> s). rewrite list_lookup_fmap. destruct (decide (i < length l)) as [Hi|Hi].
  - rewrite lookup_seq_lt by done. cbn. by rewrite list_lookup_lookup_total_lt.
  - rewrite lookup_seq_ge by lia. by rewrite lookup_ge_None_2 by lia.
Qed.
Lemma of_col_column (l : list Z) : column (of_col l) l.
Proof. apply column_mk. by rewrite take_ge. Qed.

(** * Comparisons *)
Lemma bitmap_of (P : nat -> Prop) `{forall r, Decision (P r)} n : bitmap n (Z.of_nat <$> filter P (seq 0 n)) = (fun r => if decide (P r) then 1%Z else 0%Z) <$> seq 0 n.
Proof.
  unfold bitmap. apply list_fmap_ext. intros i r Hr. apply lookup_seq in Hr as [-> Hr]. apply decide_ext. rewrite elem_of_list_fmap. split.
  - intros (q & Hq & Hin). apply elem_of_list_filter in Hin as [Hin _]. assert (q = 0 + i) as -> by lia. done.
  - intros HP. exists (0 + i). split; [done|]. apply elem_of_list_filter. split; [done|]. apply elem_of_seq. lia.
Qed.
Lemma below_bound (P : nat -> Prop) `{forall r, Decision (P r)} n : Forall (fun p => 0 <= p < Z.of_nat n)%Z (Z.of_nat <$> filter P (seq 0 n)).
Proof. apply Forall_forall. intros p Hp. apply elem_of_list_fmap in Hp as (r & -> & Hr). apply elem_of_list_filter in Hr as [_ Hr]. apply elem_of_seq in Hr. lia. Qed.

(** Comparing a matrix with one column with a scalar: the matrix of the comparisons of its values. *)
Theorem C61_compare {V W} junk (o : cmps V W) op (a : dmat V) (w : W) n x : sized junk -> (Z.of_nat n < 2 ^ 64)%Z -> is_dense a n 1 (fun r _ => x r) ->
  exists res, rw_compare junk o op a w = Ok res /\ column res (map (fun r => if holds o op (x r) w then 1%Z else 0%Z) (seq 0 n)).
Proof.
  intros Hj Hn Ha. unfold rw_compare. rewrite (to_col_ok a n x Ha). cbn [obind]. unfold col_select. rewrite map_length, seq_length.
  match goal with |- context [for_up 0 n ?f ?s0] => destruct (collect_ok (fun r => holds o op (x r) w = true) n f (junk n)) as (s & E & Ht) end.
  - intros r s Hr. rewrite (rd_Ok _ _ (x r)). 2:{ change (map x ?s) with (x <$> s). by rewrite list_lookup_fmap, lookup_seq_lt. } cbn [obind].
    assert (cmp_func o (col_cmp op) (x r) w = holds o op (x r) w) as -> by (by destruct op). destruct (holds o op (x r) w); [by rewrite decide_True|by rewrite decide_False].
  - rewrite Hj. apply (filter_seq_le (fun r => holds o op (x r) w = true)).
  - rewrite E. cbn [obind]. rewrite Ht. pose proof Ha as (-> & _). destruct (C34_to_bitmap (of_col (Z.of_nat <$> filter (fun r => holds o op (x r) w = true) (seq 0 n))) _ n (of_col_column _) Hn) as (res & -> & Hc); [apply (below_bound (fun r => holds o op (x r) w = true))|].
    exists res. split; [done|]. rewrite (bitmap_of (fun r => holds o op (x r) w = true)) in Hc. replace (map _ _) with ((fun r => if decide (holds o op (x r) w = true) then 1%Z else 0%Z) <$> seq 0 n); [done|].
    apply list_fmap_ext. intros i r _. by destruct (holds o op (x r) w).
Qed.

(** * Logical operations on bitmaps *)
Lemma positions_sorted bm : StronglySorted Z.lt (positions bm).
Proof.
  unfold positions. assert (H : StronglySorted lt (filter (fun r => bm !! r = Some 1%Z) (seq 0 (length bm)))) by apply filter_sorted, seq_sorted'.
  revert H. generalize (filter (fun r => bm !! r = Some 1%Z) (seq 0 (length bm))). induction 1 as [|x l Hl IH Hx]; [constructor|]. rewrite fmap_cons. constructor; [done|]. rewrite Forall_fmap. eapply Forall_impl; [exact Hx|]. cbn. lia.
Qed.
Lemma positions_in bm z : z ∈ positions bm <-> exists r, z = Z.of_nat r /\ bm !! r = Some 1%Z.
Proof.
  unfold positions. rewrite elem_of_list_fmap. split.
  - intros (r & -> & Hr). apply elem_of_list_filter in Hr as [Hr _]. eauto.
  - intros (r & -> & Hr). exists r. split; [done|]. apply elem_of_list_filter. split; [done|]. apply elem_of_seq. apply lookup_lt_Some in Hr. lia.
Qed.
Lemma positions_below bm n : length bm <= n -> Forall (fun p => 0 <= p < Z.of_nat n)%Z (positions bm).
Proof. intros Hn. apply Forall_forall. intros p Hp. apply positions_in in Hp as (r & -> & Hr). apply lookup_lt_Some in Hr. lia. Qed.
Lemma positions_length bm : length (positions bm) <= length bm.
Proof. unfold positions. rewrite fmap_length. apply (filter_seq_le (fun r => bm !! r = Some 1%Z)). Qed.
Theorem C61_logical junk fuel op (a b : dmat Z) (l m : list Z) : sized junk -> column a l -> column b m -> bits l -> bits m -> length l = length m -> (Z.of_nat (length l) < 2 ^ 64)%Z -> 2 * length l <= fuel ->
  exists res, rw_logical junk fuel op a b = Ok (Some res) /\ column res (zip_with (bit_op op) l m).
Proof.
  intros Hj Ha Hb Bl Bm Hlm Hn Hf. unfold rw_logical. pose proof Ha as (Ra & _). pose proof Hb as (Rb & _). rewrite Ra, Rb.
  destruct (C34_to_positions (junk (length l)) a l Ha (Hj _)) as (p & -> & Hp). cbn [obind]. destruct (C34_to_positions (junk (length m)) b m Hb (Hj _)) as (q & -> & Hq). cbn [obind]. rewrite (to_col_column p _ Hp), (to_col_column q _ Hq). cbn [obind].
  assert (Hbm : forall ps, (forall z, z ∈ ps <-> match op with EwAnd => z ∈ positions l /\ z ∈ positions m | EwOr => z ∈ positions l \/ z ∈ positions m end) ->
     exists res, (let* r := pos_to_bitmap (of_col ps) (length l) in Ok (Some r)) = Ok (Some res) /\ column res (zip_with (bit_op op) l m)).
  { intros ps Hps. destruct (C34_to_bitmap (of_col ps) ps (length l) (of_col_column ps) Hn) as (res & -> & Hc).
    - apply Forall_forall. intros z Hz. apply Hps in Hz. pose proof (positions_below l (length l) ltac:(lia)) as H1. pose proof (positions_below m (length l) ltac:(lia)) as H2. rewrite Forall_forall in H1, H2. destruct op; [apply H1; tauto|]. destruct Hz; auto.
    - exists res. split; [done|]. replace (zip_with (bit_op op) l m) with (bitmap (length l) ps); [done|]. unfold bitmap. apply list_eq. intros i. rewrite list_lookup_fmap, lookup_zip_with. destruct (decide (i < length l)) as [Hi|Hi].
      + rewrite lookup_seq_lt by done. destruct (lookup_lt_is_Some_2 l i Hi) as [x Ex]. destruct (lookup_lt_is_Some_2 m i ltac:(lia)) as [y Ey]. rewrite Ex, Ey. cbn. f_equal.
        assert (Hx : Z.of_nat i ∈ positions l <-> x = 1%Z). { rewrite positions_in. split; [intros (r & Er & Hr); assert (r = i) as -> by lia; congruence|intros ->; eauto]. }
        assert (Hy : Z.of_nat i ∈ positions m <-> y = 1%Z). { rewrite positions_in. split; [intros (r & Er & Hr); assert (r = i) as -> by lia; congruence|intros ->; eauto]. }
        pose proof (Forall_lookup_1 _ _ _ _ Bl Ex) as Bx. pose proof (Forall_lookup_1 _ _ _ _ Bm Ey) as By. cbn beta in Bx, By. specialize (Hps (Z.of_nat i)). destruct op; cbn [bit_op]; rewrite Hx, Hy in Hps; apply decide_ext; rewrite Hps; lia.
      + rewrite lookup_seq_ge by lia. rewrite (lookup_ge_None_2 l) by lia. done. }
  pose proof (positions_length l). pose proof (positions_length m). destruct op.
  - rewrite intersect_ok; [|done|apply positions_sorted|apply positions_sorted|lia]. cbn [obind]. apply Hbm. intros z. rewrite elem_of_list_filter. tauto.
  - destruct (merge_ok junk fuel (positions l) (positions m)) as (ps & -> & _ & Hin); [done|apply positions_sorted|apply positions_sorted|lia|]. cbn [obind]. by apply Hbm.
Qed.

(** * Frames *)
Section Frames.
  Context {V L : Type} `{EqDecision V} `{EqDecision L} (junk : nat -> list Z) (jv : nat -> list V) (Hj : sized junk) (Hjv : sized jv).
  Implicit Types (f lhs rhs res : frame V L) (cs : list (col V L)).

  Lemma frame_col_ok f c : valid f -> c ∈ f_cols f -> frame_col f (c_label c) = Ok (c_ty c, take (f_rows f) (c_cells c)).
  Proof.
    intros Hv Hc. pose proof Hc as Hc'. apply elem_of_list_lookup in Hc' as (i & Hi). unfold frame_col. rewrite (col_idx_ok _ _ _ Hv Hi). cbn [obind]. rewrite (rd_Ok _ _ _ Hi). cbn [obind]. destruct Hv as [_ Hv]. rewrite decide_True by (by apply Hv). done.
  Qed.
  Lemma frame_col_key f l t ks : valid f -> key_column f l t ks -> frame_col f l = Ok (t, ks).
  Proof. intros Hv (i & c & Hi & <- & <- & ->). apply frame_col_ok; [done|]. by eapply elem_of_list_lookup_2. Qed.

  (** a column and its projection *)
  Definition projects (qs : list nat) (c d : col V L) : Prop :=
    c_ty d = c_ty c /\ c_label d = c_label c /\ length (c_cells d) = length qs /\ forall i q, qs !! i = Some q -> c_cells d !! i = c_cells c !! q.
  Lemma project_all_ok f (qs : list nat) cs : valid f -> (Z.of_nat (f_rows f) < 2 ^ 64)%Z -> Forall (fun q => q < f_rows f) qs -> Forall (fun c => c ∈ f_cols f) cs ->
    exists ds, project_all jv f (Z.of_nat <$> qs) (c_label <$> cs) = Ok ds /\ Forall2 (projects qs) cs ds.
  Proof.
    intros Hv Hn Hq. induction 1 as [|c cs Hc Hcs IH]; [exists []; split; [done|constructor]|]. rewrite fmap_cons. cbn [project_all]. rewrite (frame_col_ok f c Hv Hc). cbn [obind fst snd].
    assert (Hlen : length (take (f_rows f) (c_cells c)) = f_rows f). { rewrite take_length. destruct Hv as [_ Hv]. specialize (Hv c Hc). lia. }
    destruct (project_ok jv Hjv (take (f_rows f) (c_cells c)) qs) as (r & -> & Hr & Hcell); [by rewrite Hlen|by rewrite Hlen|]. cbn [obind]. destruct IH as (ds & -> & HF). cbn [obind]. eexists. split; [done|]. constructor; [|done].
    split; [done|]. split; [done|]. split; [done|]. cbn [c_cells]. intros i q Hi. rewrite (Hcell i q Hi). apply lookup_take. rewrite Forall_lookup in Hq. by apply (Hq i).
  Qed.
  Lemma make_frame_ok n cs : cs <> [] -> Forall (fun c => length (c_cells c) = n) cs -> NoDup (c_label <$> cs) -> make_frame cs = Ok (mkFrame n cs).
  Proof.
    intros Hc Hl Hnd. destruct cs as [|c cs]; [done|]. unfold make_frame. pose proof Hl as [Hc0 _]%Forall_cons. rewrite Hc0. rewrite decide_True by done. rewrite decide_True by done. done.
  Qed.
  Lemma projects_all qs cs ds : Forall2 (projects qs) cs ds -> Forall (fun c => length (c_cells c) = length qs) ds /\ c_label <$> ds = c_label <$> cs /\ c_ty <$> ds = c_ty <$> cs /\ length ds = length cs.
  Proof.
    induction 1 as [|c d cs ds (H1 & H2 & H3 & H4) HF (IH1 & IH2 & IH3 & IH4)]; [done|]. rewrite !fmap_cons, H1, H2, IH2, IH3. cbn [length]. rewrite IH4. split; [constructor; done|done].
  Qed.
  Lemma projects_headers qs cs ds : Forall2 (projects qs) cs ds -> (fun c => (c_ty c, c_label c)) <$> ds = (fun c => (c_ty c, c_label c)) <$> cs.
  Proof. induction 1 as [|c d cs ds (H1 & H2 & _) HF IH]; [done|]. by rewrite !fmap_cons, H1, H2, IH. Qed.

  Lemma cell_projects qs cs ds f i q j : Forall2 (projects qs) cs ds -> f_cols f = cs -> Forall (fun q => q < f_rows f) qs -> qs !! i = Some q -> (ds !! j ≫= fun k => c_cells k !! i) = cell f q j.
  Proof.
    intros HF <- Hq Hi. unfold cell. rewrite Forall_lookup in Hq. specialize (Hq _ _ Hi). rewrite decide_True by done. destruct (f_cols f !! j) as [c0|] eqn:Ec.
    - destruct (Forall2_lookup_l _ _ _ _ _ HF Ec) as (d & Ed & _ & _ & _ & Hcell). rewrite Ed. cbn. by apply Hcell.
    - assert (ds !! j = None) as ->; [|done]. apply lookup_ge_None_2. rewrite <- (Forall2_length _ _ _ HF). by apply lookup_ge_None_1.
  Qed.
  Lemma pick_ok f (qs : list nat) : valid f -> f_cols f <> [] -> (Z.of_nat (f_rows f) < 2 ^ 64)%Z -> Forall (fun q => q < f_rows f) qs ->
    exists ds, project_all jv f (Z.of_nat <$> qs) (labels f) = Ok ds /\ make_frame ds = Ok (mkFrame (length qs) ds) /\ picks f qs (mkFrame (length qs) ds) /\ Forall2 (projects qs) (f_cols f) ds.
  Proof.
    intros Hv Hne Hn Hq. destruct (project_all_ok f qs (f_cols f) Hv Hn Hq) as (ds & E & HF); [by apply Forall_forall|]. exists ds. split; [done|]. destruct (projects_all _ _ _ HF) as (Hl & Hlab & _ & Hlen). split; [|split; [|done]].
    - apply make_frame_ok; [intros ->; by destruct (f_cols f)|done|]. rewrite Hlab. by destruct Hv.
    - split; [done|]. split; [by apply (projects_headers qs)|]. intros i p c Hi. unfold cell at 1. cbn [f_rows f_cols]. rewrite decide_True by (by apply lookup_lt_Some in Hi). by apply (cell_projects qs (f_cols f) ds f i p c).
  Qed.

  (** ** Selecting rows *)
  (** by positions that are not negative and inside the frame *)
  Theorem C61_extract f (sel : dmat Z) (l : list Z) : valid f -> f_cols f <> [] -> (Z.of_nat (f_rows f) < 2 ^ 64)%Z -> column sel l -> Forall (fun p => 0 <= p < Z.of_nat (f_rows f))%Z l ->
    exists res, rw_extract jv f sel = Ok res /\ picks f (Z.to_nat <$> l) res.
  Proof.
    intros Hv Hne Hn Hs Hl. unfold rw_extract. rewrite (to_col_column sel l Hs). cbn [obind]. assert (Hz : l = Z.of_nat <$> (Z.to_nat <$> l)).
    { rewrite <- list_fmap_compose. rewrite <- (list_fmap_id l) at 1. apply list_fmap_ext. intros i p Hp. rewrite Forall_lookup in Hl. specialize (Hl _ _ Hp). cbn in *. lia. }
    destruct (pick_ok f (Z.to_nat <$> l) Hv Hne Hn) as (ds & E' & E & Hp & _); [rewrite Forall_fmap; eapply Forall_impl; [exact Hl|]; cbn; lia|]. rewrite <- Hz in E'. rewrite E'. cbn [obind]. eauto.
  Qed.
  (** Other positions are rejected: also the negative ones, which count from the end in the operation that is replaced. *)
  Theorem C61_extract_rejects f (sel : dmat Z) (l : list Z) : valid f -> f_cols f <> [] -> (Z.of_nat (f_rows f) < 2 ^ 63)%Z -> column sel l -> int64s l -> ~ Forall (fun p => 0 <= p < Z.of_nat (f_rows f))%Z l ->
    rw_extract jv f sel = Throw.
  Proof.
    intros Hv Hne Hn Hs Hi Hl. unfold rw_extract. rewrite (to_col_column sel l Hs). cbn [obind]. unfold labels. destruct (f_cols f) as [|c cs] eqn:Ec; [done|]. rewrite fmap_cons. cbn [project_all]. rewrite (frame_col_ok f c Hv) by (rewrite Ec; left). cbn [obind snd].
    rewrite (project_throws jv Hjv); [done| |done|]; rewrite take_length, Nat.min_l by (destruct Hv as [_ Hv]; apply Hv; rewrite Ec; left); done.
  Qed.
  (** by a bitmap *)
  Theorem C61_filter f (sel : dmat Z) (l : list Z) : valid f -> f_cols f <> [] -> (Z.of_nat (f_rows f) < 2 ^ 64)%Z -> column sel l -> bits l -> length l = f_rows f ->
    exists res, rw_filter junk jv f sel = Ok res /\ picks f (kept l) res.
  Proof.
    intros Hv Hne Hn Hs Hb Hl. unfold rw_filter. pose proof Hs as (-> & _). destruct (C34_to_positions (junk (length l)) sel l Hs (Hj _)) as (p & -> & Hp). cbn [obind].
    destruct (C61_extract f p (positions l) Hv Hne Hn Hp) as (res & E & Hpick); [apply positions_below; lia|]. exists res. split; [done|]. replace (kept l) with (Z.to_nat <$> positions l); [done|].
    unfold positions, kept. rewrite <- list_fmap_compose. rewrite (list_fmap_ext _ id) by (intros; cbn; lia). rewrite list_fmap_id. apply filter_same. intros r Hr%elem_of_seq. destruct (lookup_lt_is_Some_2 l r) as [v Ev]; [lia|]. rewrite ?(list_lookup_total_correct _ _ _ Ev), Ev. pose proof (Forall_lookup_1 _ _ _ _ Hb Ev) as Hv'. cbn beta in Hv'. split; [intros [= ->]; lia|intros ?; f_equal; lia].
  Qed.

  (** ** Joins *)
  Lemma join_pairs_in (lk rk : list V) l r : (l, r) ∈ join_pairs lk rk <-> exists k, lk !! l = Some k /\ last_match rk k = Some r.
  Proof.
    unfold join_pairs, join_to. rewrite elem_of_list_omap. split.
    - intros (l' & _ & H). destruct (lk !! l') as [v|] eqn:Ev; [|done]. cbn in H. destruct (last_match rk v) as [q|] eqn:Eq; [|done]. cbn in H. injection H as -> ->. eauto.
    - intros (k & Hk & Hr). exists l. split; [apply elem_of_seq; apply lookup_lt_Some in Hk; lia|]. rewrite Hk. cbn. by rewrite Hr.
  Qed.
  Lemma join_pairs_sorted (lk rk : list V) n : StronglySorted lex (join_to lk rk n) /\ Forall (fun p => p.1 < n) (join_to lk rk n).
  Proof.
    induction n as [|n [IH1 IH2]]; [split; constructor|]. rewrite join_to_S. destruct (v ← lk !! n; r ← last_match rk v; Some (n, r)) as [[l r]|] eqn:E.
    - assert (l = n) as ->. { destruct (lk !! n) as [v|]; [|done]. cbn in E. destruct (last_match rk v); [|done]. cbn in E. congruence. }
      split.
      + clear E. revert IH1 IH2. generalize (join_to lk rk n). induction 1 as [|p ps Hps IH Hp]; intros HF; cbn [app]; [constructor; constructor|]. apply Forall_cons in HF as [H1 HF]. constructor; [by apply IH|]. apply Forall_app. split; [done|]. apply Forall_singleton. by left.
      + apply Forall_app. split; [eapply Forall_impl; [exact IH2|]; cbn; lia|]. apply Forall_singleton. cbn. lia.
    - rewrite app_nil_r. split; [done|]. eapply Forall_impl; [exact IH2|]. cbn. lia.
  Qed.
  (** every key of the left side occurs at most once on the right side *)
  Definition one_partner (lk rk : list V) : Prop := forall k i j, k ∈ lk -> rk !! i = Some k -> rk !! j = Some k -> i = j.
  Lemma join_pairs_matches (lk rk : list V) : matches lk rk (join_pairs lk rk) <-> one_partner lk rk.
  Proof.
    split.
    - intros [_ Hm] k i j Hk Hi Hj'. apply elem_of_list_lookup in Hk as (l & Hl). assert (H1 : (l, i) ∈ join_pairs lk rk) by (apply Hm; eauto). assert (H2 : (l, j) ∈ join_pairs lk rk) by (apply Hm; eauto).
      apply join_pairs_in in H1 as (k1 & E1 & H1). apply join_pairs_in in H2 as (k2 & E2 & H2). congruence.
    - intros Hone. split; [apply join_pairs_sorted|]. intros l r. rewrite join_pairs_in. split; intros (k & Hk & Hr); exists k; (split; [done|]).
      + by apply last_match_in.
      + destruct (last_match_some rk k r Hr) as (q & Eq & _). rewrite Eq. f_equal. apply (Hone k); [by eapply elem_of_list_lookup_2|by apply last_match_in|done].
  Qed.
  Lemma join_pairs_left lhs rhs (lk rk : list V) : length lk = f_rows lhs -> length rk = f_rows rhs -> Forall (fun q => q < f_rows lhs) (join_pairs lk rk).*1 /\ Forall (fun q => q < f_rows rhs) (join_pairs lk rk).*2.
  Proof.
    intros Hl Hr. rewrite !Forall_fmap. split; apply Forall_forall; intros [l r] Hp; apply join_pairs_in in Hp as (k & Hk & Hq); cbn.
    - apply lookup_lt_Some in Hk. lia.
    - apply last_match_in, lookup_lt_Some in Hq. lia.
  Qed.
  (** The rows of the columnar inner join: for every row of the left side with a partner, that row and its last partner. *)
  Lemma rw_inner_join_ok lhs rhs lhsOn rhsOn t u (lk rk : list V) n : valid lhs -> valid rhs -> (Z.of_nat (f_rows lhs) < 2 ^ 64)%Z -> (Z.of_nat (f_rows rhs) < 2 ^ 64)%Z ->
    key_column lhs lhsOn t lk -> key_column rhs rhsOn u rk -> NoDup ((c_label <$> f_cols lhs) ++ (c_label <$> f_cols rhs)) ->
    length (join_pairs lk rk) <= match n with None => length lk | Some k => k end ->
    exists res, rw_inner_join junk jv lhs rhs lhsOn rhsOn n = Ok res /\ f_rows res = length (join_pairs lk rk) /\ headers res = headers lhs ++ headers rhs /\
      forall i p c, join_pairs lk rk !! i = Some p -> cell res i c = source lhs rhs p c.
  Proof.
    intros Vl Vr Nl Nr Kl Kr Hnd Hcap. unfold rw_inner_join. rewrite (frame_col_key _ _ _ _ Vl Kl), (frame_col_key _ _ _ _ Vr Kr). cbn [obind snd]. rewrite (join_ok junk lk rk n Hj Hcap). cbn [obind fst snd].
    destruct (join_pairs_left lhs rhs lk rk (key_length _ _ _ _ Vl Kl) (key_length _ _ _ _ Vr Kr)) as [F1 F2].
    assert (Nel : f_cols lhs <> []) by (destruct Kl as (? & ? & Hi & _); intros E; by rewrite E in Hi). assert (Ner : f_cols rhs <> []) by (destruct Kr as (? & ? & Hi & _); intros E; by rewrite E in Hi).
    destruct (pick_ok lhs (join_pairs lk rk).*1 Vl Nel Nl F1) as (dl & -> & _ & _ & HFl). destruct (pick_ok rhs (join_pairs lk rk).*2 Vr Ner Nr F2) as (dr & -> & _ & _ & HFr). cbn [obind].
    destruct (projects_all _ _ _ HFl) as (Ll & Labl & _ & Lenl). destruct (projects_all _ _ _ HFr) as (Lr & Labr & _ & Lenr). rewrite fmap_length in Ll, Lr.
    rewrite (make_frame_ok (length (join_pairs lk rk))); [|destruct dl; [by destruct (f_cols lhs)|done]|by apply Forall_app|by rewrite fmap_app, Labl, Labr]. eexists. split; [done|]. split; [done|]. split.
    - unfold headers. cbn [f_cols]. rewrite fmap_app. by rewrite (projects_headers _ _ _ HFl), (projects_headers _ _ _ HFr).
    - intros i p c Hp. unfold cell. cbn [f_rows f_cols]. rewrite decide_True by (by apply lookup_lt_Some in Hp). unfold source. destruct (decide (c < length (f_cols lhs))) as [Hc|Hc].
      + rewrite lookup_app_l by lia. apply (cell_projects _ _ _ lhs i p.1 c HFl eq_refl F1). by rewrite list_lookup_fmap, Hp.
      + rewrite lookup_app_r by lia. rewrite Lenl. apply (cell_projects _ _ _ rhs i p.2 _ HFr eq_refl F2). by rewrite list_lookup_fmap, Hp.
  Qed.
  (** If no key of the left side occurs twice on the right side, the result is that of the inner join, for all types of keys and columns. *)
  Theorem C61_inner_join lhs rhs lhsOn rhsOn t u (lk rk : list V) n ps : valid lhs -> valid rhs -> (Z.of_nat (f_rows lhs) < 2 ^ 64)%Z -> (Z.of_nat (f_rows rhs) < 2 ^ 64)%Z ->
    key_column lhs lhsOn t lk -> key_column rhs rhsOn u rk -> NoDup ((c_label <$> f_cols lhs) ++ (c_label <$> f_cols rhs)) -> one_partner lk rk ->
    matches lk rk ps -> match n with None => True | Some k => length ps <= k end ->
    exists res, rw_inner_join junk jv lhs rhs lhsOn rhsOn n = Ok res /\ f_rows res = length ps /\ headers res = headers lhs ++ headers rhs /\
      forall i p c, ps !! i = Some p -> cell res i c = source lhs rhs p c.
  Proof.
    intros Vl Vr Nl Nr Kl Kr Hnd Hone Hm Hn. assert (ps = join_pairs lk rk) as ->. { apply (matches_unique lk rk); [done|]. by apply join_pairs_matches. }
    apply (rw_inner_join_ok lhs rhs lhsOn rhsOn t u); try done. destruct n; [done|]. apply join_to_le.
  Qed.
  (** Otherwise rows are missing: *)
  Theorem C61_inner_join_refuted lhs rhs lhsOn rhsOn t u (lk rk : list V) ps : valid lhs -> valid rhs -> (Z.of_nat (f_rows lhs) < 2 ^ 64)%Z -> (Z.of_nat (f_rows rhs) < 2 ^ 64)%Z ->
    key_column lhs lhsOn t lk -> key_column rhs rhsOn u rk -> NoDup ((c_label <$> f_cols lhs) ++ (c_label <$> f_cols rhs)) -> ~ one_partner lk rk ->
    matches lk rk ps -> exists res, rw_inner_join junk jv lhs rhs lhsOn rhsOn None = Ok res /\ f_rows res < length ps.
  Proof.
    intros Vl Vr Nl Nr Kl Kr Hnd Hone Hm. destruct (rw_inner_join_ok lhs rhs lhsOn rhsOn t u lk rk None) as (res & E & Hrows & _); try done; [apply join_to_le|]. exists res. split; [done|]. rewrite Hrows.
    assert (Hsub : join_pairs lk rk ⊆+ ps).
    { apply NoDup_submseteq; [apply (lex_ss_NoDup (join_pairs lk rk)), join_pairs_sorted|]. intros [l r] Hp. apply join_pairs_in in Hp as (k & Hk & Hr). destruct Hm as [_ Hm]. apply Hm. exists k. split; [done|]. by apply last_match_in. }
    pose proof (submseteq_length _ _ Hsub) as Hle. destruct (decide (length (join_pairs lk rk) = length ps)) as [Heq|Hne]; [|lia]. exfalso. apply Hone. apply join_pairs_matches. split; [apply join_pairs_sorted|]. intros l r. destruct Hm as [_ Hm]. rewrite <- Hm.
    assert (Hperm : join_pairs lk rk ≡ₚ ps) by (apply submseteq_Permutation_length_eq; [lia|done]). by rewrite Hperm.
  Qed.
  (** A result size that is too small is not reported: the result arrays are written beyond their end. *)
  Theorem C61_join_size_refuted lhs rhs lhsOn rhsOn t u (lk rk : list V) n ps : valid lhs -> valid rhs -> key_column lhs lhsOn t lk -> key_column rhs rhsOn u rk -> one_partner lk rk -> matches lk rk ps -> n < length ps ->
    rw_inner_join junk jv lhs rhs lhsOn rhsOn (Some n) = UB.
  Proof.
    intros Vl Vr Kl Kr Hone Hm Hn. assert (ps = join_pairs lk rk) as ->. { apply (matches_unique lk rk); [done|]. by apply join_pairs_matches. }
    unfold rw_inner_join. rewrite (frame_col_key _ _ _ _ Vl Kl), (frame_col_key _ _ _ _ Vr Kr). cbn [obind snd]. by rewrite (join_out junk lk rk n Hj Hn).
  Qed.

  Lemma build_set (rk : list V) : exists hs, for_up 0 (length rk) (fun r hs => let* v := rd rk r in Ok (if decide (v ∈ hs) then hs else v :: hs)) [] = Ok hs /\ forall v, v ∈ hs <-> v ∈ rk.
  Proof.
    match goal with |- context [for_up 0 ?n ?f ?s0] => destruct (for_up_inv (fun k (hs : list V) => forall v, v ∈ hs <-> v ∈ take k rk) 0 n f s0) as (hs & E & H) end.
    - lia.
    - done.
    - intros k hs Hk IH. destruct (lookup_lt_is_Some_2 rk k) as [v Ev]; [lia|]. rewrite (rd_Ok _ _ _ Ev). cbn [obind]. eexists. split; [done|]. intros w. cbn [plus]. rewrite (take_S_r _ _ _ Ev), elem_of_app, elem_of_list_singleton, <- IH. case_decide; [|rewrite elem_of_cons; tauto]. split; [tauto|]. intros [Hw|Hw]; [done|by subst w].
    - exists hs. split; [done|]. intros v. rewrite H. by rewrite take_ge.
  Qed.
  Lemma semi_step (lk rk : list V) (hs : list V) r (s : list Z * nat) : (forall v, v ∈ hs <-> v ∈ rk) -> r < length lk ->
    (let* v := rd lk r in if decide (v ∈ hs) then let* b := wr (fst s) (snd s) (Z.of_nat r) in Ok (b, snd s + 1) else Ok s) =
    if decide (Is_true (match lk !! r with Some k => bool_decide (k ∈ rk) | None => false end)) then let* b := wr (fst s) (snd s) (Z.of_nat r) in Ok (b, snd s + 1) else Ok s.
  Proof.
    intros Hs Hr. destruct (lookup_lt_is_Some_2 lk r Hr) as [v Ev]. rewrite (rd_Ok _ _ _ Ev). cbn [obind]. rewrite Ev. destruct (decide (v ∈ hs)) as [Hin|Hin].
    - rewrite decide_True; [done|]. apply bool_decide_pack. by apply Hs.
    - rewrite decide_False; [done|]. intros H%bool_decide_unpack. apply Hin. by apply Hs.
  Qed.
  (** The columnar semi join: the rows of the left side with a partner, with all columns of the left side, and their positions. *)
  Theorem C61_semi_join lhs rhs lhsOn rhsOn t u (lk rk : list V) n ts : valid lhs -> valid rhs -> (Z.of_nat (f_rows lhs) < 2 ^ 64)%Z ->
    key_column lhs lhsOn t lk -> key_column rhs rhsOn u rk -> semi_rows lk rk ts -> match n with None => True | Some k => length ts <= k end ->
    exists res, rw_semi_join junk jv lhs rhs lhsOn rhsOn n = Ok (res, Z.of_nat <$> ts) /\ picks lhs ts res.
  Proof.
    intros Vl Vr Nl Kl Kr Hts Hn. apply semi_rows_eq in Hts. unfold rw_semi_join. rewrite (frame_col_key _ _ _ _ Vl Kl), (frame_col_key _ _ _ _ Vr Kr). cbn [obind snd]. unfold col_semi_join. destruct (build_set rk) as (hs & -> & Hhs). cbn [obind].
    match goal with |- context [for_up 0 (length lk) ?f (?j0, 0)] => destruct (collect_ok (fun l => Is_true (match lk !! l with Some k => bool_decide (k ∈ rk) | None => false end)) (length lk) f j0) as (s & E & Ht) end.
    - intros r s Hr. by apply (semi_step lk rk).
    - rewrite Hj. fold (semi_to lk rk (length lk)). rewrite <- Hts. destruct n; [done|]. rewrite Hts. unfold semi_to. etransitivity; [apply filter_length|]. by rewrite seq_length.
    - rewrite E. cbn [obind]. rewrite Ht. fold (semi_to lk rk (length lk)). rewrite <- Hts. assert (Nel : f_cols lhs <> []) by (destruct Kl as (? & ? & Hi & _); intros E'; by rewrite E' in Hi).
      destruct (pick_ok lhs ts Vl Nel Nl) as (ds & -> & E2 & Hp & _); [|cbn [obind]; rewrite E2; cbn [obind]; eauto]. apply Forall_forall. intros q Hq. rewrite Hts in Hq. apply semi_to_in in Hq as [Hq _]. by rewrite (key_length _ _ _ _ Vl Kl) in Hq.
  Qed.
  Theorem C61_semi_size_refuted lhs rhs lhsOn rhsOn t u (lk rk : list V) n ts : valid lhs -> valid rhs -> key_column lhs lhsOn t lk -> key_column rhs rhsOn u rk -> semi_rows lk rk ts -> n < length ts ->
    rw_semi_join junk jv lhs rhs lhsOn rhsOn (Some n) = UB.
  Proof.
    intros Vl Vr Kl Kr Hts Hn. apply semi_rows_eq in Hts. unfold rw_semi_join. rewrite (frame_col_key _ _ _ _ Vl Kl), (frame_col_key _ _ _ _ Vr Kr). cbn [obind snd]. unfold col_semi_join. destruct (build_set rk) as (hs & -> & Hhs). cbn [obind].
    rewrite (collect_out (fun l => Is_true (match lk !! l with Some k => bool_decide (k ∈ rk) | None => false end))); [done| |].
    - intros r s Hr. by apply (semi_step lk rk).
    - rewrite Hj. fold (semi_to lk rk (length lk)). by rewrite <- Hts.
  Qed.

  (** ** Grouping *)
  Lemma grouped_ext (R Q : nat -> nat -> Prop) `{forall i j, Decision (R i j)} `{forall i j, Decision (Q i j)} n ids : (forall i j, i < n -> j < n -> R i j <-> Q i j) -> grouped R n ids -> grouped Q n ids.
  Proof.
    intros HRQ [Hl Hg]. split; [done|]. intros i Hi. destruct (Hg i Hi) as (q & f & H1 & H2 & H3). exists q, f. split; [done|]. rewrite <- (firsts_ext R Q n HRQ). split; [done|]. apply HRQ; [|done|done]. apply elem_of_list_lookup_2, firsts_in in H2. tauto.
  Qed.
  Lemma same_key_equiv (cs : list (list V)) n : equiv_to (same_key cs) n.
  Proof.
    unfold same_key. split; [|split].
    - intros i _. by apply Forall_forall.
    - intros i j _ _ HF. eapply Forall_impl; [exact HF|]. done.
    - intros i j k _ _ _ H1 H2. apply Forall_forall. intros c Hc. rewrite Forall_forall in H1, H2. by rewrite (H1 c Hc), (H2 c Hc).
  Qed.
  (** the values of a column of a frame *)
  Definition values f (c : col V L) : list V := take (f_rows f) (c_cells c).
  Lemma values_length f c : valid f -> c ∈ f_cols f -> length (values f c) = f_rows f.
  Proof. intros [_ Hv] Hc. unfold values. rewrite take_length. specialize (Hv c Hc). lia. Qed.
  Lemma group_more_ok f cs : valid f -> Forall (fun c => c ∈ f_cols f) cs -> forall (bs : list (list V)) ids, grouped (same_key bs) (f_rows f) ids ->
    exists ids', group_more junk f (c_label <$> cs) (ids, Z.of_nat <$> firsts (same_key bs) (f_rows f)) = Ok (ids', Z.of_nat <$> firsts (same_key (bs ++ (values f <$> cs))) (f_rows f)) /\
      grouped (same_key (bs ++ (values f <$> cs))) (f_rows f) ids'.
  Proof.
    intros Hv. induction 1 as [|c cs Hc Hcs IH]; intros bs ids Hg.
    - exists ids. rewrite app_nil_r. done.
    - rewrite fmap_cons. cbn [group_more fst]. rewrite (frame_col_ok f c Hv Hc). cbn [obind snd]. fold (values f c). pose proof (values_length f c Hv Hc) as Hl. pose proof Hg as [Hi _]. unfold col_group_next. rewrite decide_False by (rewrite Hl, Hi; intros E; by apply E).
      destruct (group_ok junk Hj (zip (values f c) ids)) as (ids' & -> & Hg'). cbn [obind]. assert (Hz : length (zip (values f c) ids) = f_rows f) by (rewrite zip_with_length, Hl, Hi; lia). rewrite Hz in Hg'. rewrite Hz.
      assert (Heq : forall i j, i < f_rows f -> j < f_rows f -> eqk (zip (values f c) ids) i j <-> same_key (bs ++ [values f c]) i j).
      { intros i j Hin Hjn. unfold eqk. rewrite !lookup_zip_with. unfold same_key. rewrite Forall_app, Forall_singleton. pose proof (grouped_eq (same_key bs) (f_rows f) ids i j (same_key_equiv bs _) Hg Hin Hjn) as Hge. unfold same_key in Hge. rewrite <- Hge.
        destruct (lookup_lt_is_Some_2 (values f c) i) as [x Ex]; [by rewrite Hl|]. destruct (lookup_lt_is_Some_2 (values f c) j) as [y Ey]; [by rewrite Hl|]. destruct (lookup_lt_is_Some_2 ids i) as [g Eg]; [by rewrite Hi|]. destruct (lookup_lt_is_Some_2 ids j) as [h Eh]; [by rewrite Hi|].
        rewrite Ex, Ey, Eg, Eh. cbn. split; [intros [= -> ->]; done|intros [[= ->] [= ->]]; done]. }
      rewrite (firsts_ext _ (same_key (bs ++ [values f c])) _ Heq). apply (grouped_ext _ (same_key (bs ++ [values f c])) _ _ Heq) in Hg'. destruct (IH _ _ Hg') as (ids2 & -> & Hg2). rewrite <- app_assoc in Hg2. rewrite <- app_assoc. eauto.
  Qed.
  Lemma group_sums_ok zero add sum_label f ids m as_ : valid f -> Forall (fun c => c ∈ f_cols f) as_ -> length ids = f_rows f -> (forall i g, ids !! i = Some g -> (0 <= g < Z.of_nat m)%Z) ->
    exists ds, group_sums zero add sum_label f ids m (c_label <$> as_) = Ok ds /\
      Forall2 (fun c d => c_ty d = c_ty c /\ c_label d = sum_label (c_label c) /\ length (c_cells d) = m /\
        forall q, q < m -> c_cells d !! q = Some (fold_left add (omap (c_cells c !!.) (filter (fun i => ids !! i = Some (Z.of_nat q)) (seq 0 (f_rows f)))) zero)) as_ ds.
  Proof.
    intros Hv Has Hl Hids. induction Has as [|c cs Hc Hcs IH]; [exists []; split; [done|constructor]|]. rewrite fmap_cons. cbn [group_sums]. rewrite (frame_col_ok f c Hv Hc). cbn [obind snd fst]. fold (values f c). pose proof (values_length f c Hv Hc) as Hlc.
    destruct (agg_ok zero add (values f c) ids m) as (r & -> & Hr & Hcell); [by rewrite Hlc, Hl|done|]. cbn [obind]. destruct IH as (ds & -> & HF). cbn [obind]. eexists. split; [done|]. constructor; [|done]. split; [done|]. split; [done|]. split; [done|]. cbn [c_cells]. intros q Hq. rewrite (Hcell q Hq). do 2 f_equal. rewrite Hlc.
    apply list_omap_ext. apply Forall2_same_length_lookup_2; [done|]. intros k y z Hy Hz. rewrite Hy in Hz. injection Hz as <-. apply elem_of_list_lookup_2, elem_of_list_filter in Hy as [_ Hy%elem_of_seq]. unfold values. rewrite lookup_take by lia. done.
  Qed.

  (** Grouping with sums: one row per combination of keys, in the order of the first rows with these keys; the keys, and the sums over all rows with these keys. *)
  Theorem C61_group zero add sum_label f ks as_ (R := same_key (values f <$> ks)) (n := f_rows f) : valid f -> (Z.of_nat n < 2 ^ 64)%Z -> ks <> [] -> Forall (fun c => c ∈ f_cols f) ks -> Forall (fun c => c ∈ f_cols f) as_ ->
    NoDup ((c_label <$> ks) ++ ((fun c => sum_label (c_label c)) <$> as_)) ->
    exists res, rw_group junk jv zero add sum_label f (c_label <$> ks) (c_label <$> as_) = Ok res /\ f_rows res = length (firsts R n) /\
      headers res = ((fun c => (c_ty c, c_label c)) <$> ks) ++ ((fun c => (c_ty c, sum_label (c_label c))) <$> as_) /\
      forall q r, firsts R n !! q = Some r ->
        (forall i k, ks !! i = Some k -> cell res q i = c_cells k !! r) /\
        (forall i a, as_ !! i = Some a -> cell res q (length ks + i) = Some (fold_left add (omap (c_cells a !!.) (members R n r)) zero)).
  Proof.
    intros Hv Hn Hne Hks Has Hnd. destruct ks as [|k ks]; [done|]. change (c_label <$> k :: ks) with (c_label k :: (c_label <$> ks)). cbn [rw_group]. pose proof Hks as [Hk Hks']%Forall_cons. rewrite (frame_col_ok f k Hv Hk). cbn [obind snd]. fold (values f k). pose proof (values_length f k Hv Hk) as Hl.
    destruct (group_ok junk Hj (values f k)) as (ids & -> & Hg). rewrite Hl in Hg. rewrite Hl. cbn [obind].
    assert (Heq : forall i j, i < f_rows f -> j < f_rows f -> eqk (values f k) i j <-> same_key [values f k] i j) by (intros i j _ _; unfold eqk, same_key; by rewrite Forall_singleton).
    rewrite (firsts_ext _ (same_key [values f k]) _ Heq). apply (grouped_ext _ (same_key [values f k]) _ _ Heq) in Hg. destruct (group_more_ok f ks Hv Hks' _ _ Hg) as (ids' & -> & Hg'). cbn [obind fst snd].
    change ([values f k] ++ (values f <$> ks)) with (values f <$> (k :: ks)) in Hg'. change ([values f k] ++ (values f <$> ks)) with (values f <$> (k :: ks)). fold R in Hg' |- *. fold n in Hg' |- *. rewrite fmap_length.
    assert (Hf : Forall (fun q => q < f_rows f) (firsts R n)) by (apply Forall_forall; intros q Hq; apply firsts_in in Hq; tauto).
    change (c_label k :: (c_label <$> ks)) with (c_label <$> (k :: ks)). destruct (project_all_ok f (firsts R n) (k :: ks) Hv Hn Hf Hks) as (dk & -> & HFk). cbn [obind]. destruct (projects_all _ _ _ HFk) as (Lk & Labk & _ & Lenk).
    destruct (group_sums_ok zero add sum_label f ids' (length (firsts R n)) as_ Hv Has) as (da & -> & HFa); [by destruct Hg'| |].
    { intros i g Hi. destruct Hg' as [Hl' Hg']. destruct (Hg' i) as (q & fr & E & Hq & _); [apply lookup_lt_Some in Hi; lia|]. rewrite E in Hi. injection Hi as <-. apply lookup_lt_Some in Hq. lia. }
    cbn [obind]. assert (La : Forall (fun c => length (c_cells c) = length (firsts R n)) da /\ c_label <$> da = (fun c => sum_label (c_label c)) <$> as_ /\ (fun c => (c_ty c, c_label c)) <$> da = (fun c => (c_ty c, sum_label (c_label c))) <$> as_).
    { clear - HFa. induction HFa as [|c d cs ds (H1 & H2 & H3 & _) _ (IH1 & IH2 & IH3)]; [done|]. split; [by constructor|]. by rewrite !fmap_cons, H1, H2, IH2, IH3. }
    destruct La as (La1 & La2 & La3). rewrite (make_frame_ok (length (firsts R n))); [|by destruct dk|by apply Forall_app|by rewrite fmap_app, Labk, La2]. eexists. split; [done|]. split; [done|]. split; [unfold headers; cbn [f_cols]; by rewrite fmap_app, (projects_headers _ _ _ HFk), La3|].
    intros q r Hq. pose proof (lookup_lt_Some _ _ _ Hq) as Hqlt. split.
    - intros i c Hi. unfold cell. cbn [f_rows f_cols]. rewrite decide_True by done. destruct (Forall2_lookup_l _ _ _ _ _ HFk Hi) as (d & Ed & _ & _ & _ & Hcell). rewrite (lookup_app_l_Some _ _ _ _ Ed). cbn. by apply Hcell.
    - intros i c Hi. unfold cell. cbn [f_rows f_cols]. rewrite decide_True by done. destruct (Forall2_lookup_l _ _ _ _ _ HFa Hi) as (d & Ed & _ & _ & _ & Hcell). rewrite <- Lenk. rewrite lookup_app_r by lia. replace (length dk + i - length dk) with i by lia. rewrite Ed. cbn. rewrite (Hcell q Hqlt). do 3 f_equal. symmetry. by apply grouped_members; [apply same_key_equiv|..].
  Qed.
End Frames.

(** The groups are those of grouping a frame (C55), in another order. *)
Lemma grouping_members n ks (R : nat -> nat -> Prop) `{forall i j, Decision (R i j)} gs G i : weak_keys ks -> grouping n ks gs -> (forall i j, i < n -> j < n -> R i j <-> lex_same ks i j) -> G ∈ gs -> i ∈ G -> G = members R n i.
Proof.
  intros Hw (Hp & Hne & Hsame & Hord) HR HG Hi. rewrite Forall_forall in Hsame. destruct (Hsame G HG) as [Hs Hsm]. assert (Hlt : forall H j, H ∈ gs -> j ∈ H -> j < n).
  { intros K j HK Hj'. assert (j ∈ concat gs) as Hc by (apply elem_concat; eauto). rewrite Hp in Hc. apply elem_of_seq in Hc. lia. }
  apply lt_ss_unique; [done|apply filter_sorted, seq_sorted'|]. intros j. unfold members. rewrite elem_of_list_filter, elem_of_seq. split.
  - intros Hjg. pose proof (Hlt G j HG Hjg). pose proof (Hlt G i HG Hi). split; [|lia]. apply HR; [done|done|]. by apply Hsm.
  - intros [HRij Hjn]. assert (Hc : j ∈ concat gs) by (rewrite Hp; apply elem_of_seq; lia). apply elem_concat in Hc as (H' & HH' & Hj'). apply HR in HRij; [|by apply (Hlt G)|lia].
    assert (Hcmp : G = H' \/ (forall a b, a ∈ G -> b ∈ H' -> lex_less ks a b) \/ (forall a b, a ∈ H' -> b ∈ G -> lex_less ks a b)).
    { clear - Hord HG HH'. induction Hord as [|B bs Hbs IH HB]; [by apply elem_of_nil in HG|]. rewrite Forall_forall in HB. apply elem_of_cons in HG as [->|HG]; apply elem_of_cons in HH' as [->|HH']; [by left|right; left; by apply HB|right; right; by apply HB|by apply IH]. }
    destruct Hcmp as [->|[Hc|Hc]]; [done|exfalso; by apply (lex_less_not_same ks i j Hw); [apply Hc|]|exfalso; apply (lex_less_not_same ks j i Hw); [by apply Hc|by apply lex_same_sym]].
Qed.
Theorem C61_group_same_groups n ks (R : nat -> nat -> Prop) `{forall i j, Decision (R i j)} gs : weak_keys ks -> grouping n ks gs -> (forall i j, i < n -> j < n -> R i j <-> lex_same ks i j) -> gs ≡ₚ members R n <$> firsts R n.
Proof.
  intros Hw Hg HR. pose proof Hg as (Hp & Hne & Hsame & Hord). rewrite Forall_forall in Hne, Hsame. assert (Hlt : forall K j, K ∈ gs -> j ∈ K -> j < n).
  { intros K j HK Hj'. assert (j ∈ concat gs) as Hc by (apply elem_concat; eauto). rewrite Hp in Hc. apply elem_of_seq in Hc. lia. }
  assert (Hrefl : forall i, i < n -> R i i).
  { intros i Hi. assert (Hc : i ∈ concat gs) by (rewrite Hp; apply elem_of_seq; lia). apply elem_concat in Hc as (G & HG & HiG). apply HR; [done|done|]. by apply (Hsame G HG). }
  apply NoDup_Permutation.
  - assert (Hnd : NoDup (concat gs)) by (rewrite Hp; apply NoDup_seq). clear - Hnd Hne. induction gs as [|G gs IH]; [constructor|]. cbn [concat] in Hnd. apply NoDup_app in Hnd as (_ & Hd & Hnd). constructor; [|apply IH; [intros; apply Hne; by right|done]].
    intros Hin. destruct G as [|x G]; [by destruct (Hne []); [left|]|]. apply (Hd x); [left|]. apply elem_concat. exists (x :: G). split; [done|left].
  - apply NoDup_fmap_2_strong; [|apply firsts_NoDup]. intros x y Hx Hy E. apply firsts_in in Hx as [Hx Hxm]. apply firsts_in in Hy as [Hy Hym].
    assert (Hxy : y ∈ members R n x). { rewrite E. apply elem_of_list_filter. split; [by apply Hrefl|]. apply elem_of_seq. lia. }
    assert (Hyx : x ∈ members R n y). { rewrite <- E. apply elem_of_list_filter. split; [by apply Hrefl|]. apply elem_of_seq. lia. }
    apply elem_of_list_filter in Hxy as [Hxy _]. apply elem_of_list_filter in Hyx as [Hyx _]. destruct (lt_eq_lt_dec x y) as [[?|?]|?]; [by destruct (Hym x)|done|by destruct (Hxm y)].
  - intros G. rewrite elem_of_list_fmap. split.
    + intros HG. destruct (Hsame G HG) as [Hs Hsm]. destruct G as [|x G]; [by destruct (Hne [])|]. exists x. split; [apply (grouping_members n ks R gs); [done..|left]|]. apply firsts_in. split; [apply (Hlt (x :: G)); [done|left]|]. intros j Hjx HRj.
      assert (Hxn : x < n) by (apply (Hlt (x :: G)); [done|left]). assert (j ∈ x :: G) as Hin. { rewrite (grouping_members n ks R gs (x :: G) x); [|done..|left]. apply elem_of_list_filter. split; [|apply elem_of_seq; lia]. apply HR; [done|lia|]. apply lex_same_sym. apply HR; [lia|done|done]. }
      apply StronglySorted_inv in Hs as [_ Hs]. rewrite Forall_forall in Hs. apply elem_of_cons in Hin as [->|Hin]; [lia|]. specialize (Hs j Hin). lia.
    + intros (x & -> & Hx). apply firsts_in in Hx as [Hx _]. assert (Hc : x ∈ concat gs) by (rewrite Hp; apply elem_of_seq; lia). apply elem_concat in Hc as (G & HG & HxG). by rewrite <- (grouping_members n ks R gs G x).
Qed.

(** * Where the replaced operations and the columnar ones differ *)
(** Logical operations on matrices that are not two columns with the same number of rows: an error for more than one column, another result where the replaced operation broadcasts. *)
Theorem C61_logical_columns_refuted :
  let a := mkDM [1; 0; 1; 1]%Z 0 2 2 2 in
  rw_logical (fun n => replicate n 9%Z) 9 EwAnd a a = Throw /\ ew_dense (fun n => replicate n 9%Z) (bit_op EwAnd) a a = Ok (mkDM [1; 0; 1; 1]%Z 0 2 2 2).
Proof. split; vm_compute; done. Qed.
Theorem C61_logical_broadcast_refuted :
  let a := mkDM [1; 0; 1]%Z 0 3 1 1 in let b := mkDM [1]%Z 0 1 1 1 in
  rw_logical (fun n => replicate n 9%Z) 9 EwAnd a b = Ok (Some (mkDM [1; 0; 0]%Z 0 3 1 1)) /\ ew_dense (fun n => replicate n 9%Z) (bit_op EwAnd) a b = Ok (mkDM [1; 0; 1]%Z 0 3 1 1).
Proof. split; vm_compute; done. Qed.
(** Negative positions count from the end in the replaced operation ([sel_pos], C51); here they are an error. *)
Theorem C61_extract_negative_refuted : sel_pos 3 (-1) = Some 2 /\ rw_extract (fun n => replicate n 9) ex_l (mkDM [-1]%Z 0 1 1 1) = Throw.
Proof. split; vm_compute; done. Qed.
(** A bitmap that is too short is accepted; the missing bits count as 0. *)
Theorem C61_filter_length_refuted : rw_filter (fun n => replicate n 9%Z) (fun n => replicate n 9) ex_l (mkDM [0; 1]%Z 0 2 1 1) = Ok (mkFrame 1 [mkCol TI64 0 [2]; mkCol TF64 1 [20]]).
Proof. vm_compute. done. Qed.
(** Three columns with the keys 1, 2, 1 and 1, 3, 1, 2: five pairs of rows match; the columnar join finds three. *)
Theorem C61_join_duplicates_refuted :
  rw_inner_join (fun n => replicate n 9%Z) (fun n => replicate n 9) ex_l ex_r 0 3 None = Ok (mkFrame 3 [mkCol TI64 0 [1; 2; 1]; mkCol TF64 1 [10; 20; 30]; mkCol TStr 2 [7; 8; 7]; mkCol TI64 3 [1; 2; 1]]) /\
  exists res, inner_join (fun _ k => replicate k 99) ex_l ex_r 0 3 None = Ok res /\ f_rows res = 5.
Proof. split; [vm_compute; done|]. eexists. split; [vm_compute; reflexivity|done]. Qed.
(** The frame kernel's semi join returns one column, the keys; the columnar one all columns of the left frame. *)
Theorem C61_semi_columns_refuted :
  rw_semi_join (fun n => replicate n 9%Z) (fun n => replicate n 9) ex_l ex_r 0 3 None = Ok (mkFrame 3 [mkCol TI64 0 [1; 2; 1]; mkCol TF64 1 [10; 20; 30]], [0; 1; 2]%Z) /\
  semi_join (fun k => replicate k 99) (fun k => replicate k 99) ex_l ex_r 0 3 None = Ok ([1; 2; 1], [0; 1; 2]).
Proof. split; vm_compute; done. Qed.
(** The groups of C55_ex: the frame kernel returns them in the order of the keys (1, 2, 3), the columnar operators in the order of their first rows. *)
Definition ex_g : frame nat nat := mkFrame 6 [mkCol TI64 0 [2; 1; 2; 3; 1; 2]; mkCol TF64 1 [10; 20; 30; 40; 50; 60]].
Theorem C61_group_order_refuted :
  rw_group (fun n => replicate n 9%Z) (fun n => replicate n 9) 0 Nat.add (fun l => 100 + l) ex_g [0] [1] = Ok (mkFrame 3 [mkCol TI64 0 [2; 1; 3]; mkCol TF64 101 [100; 70; 40]]) /\
  exists idx, group_index 6 6 ex_keys 1 = Ok (Some idx) /\ group_column agg_key (fun q => replicate q 0) (fun q => replicate q 0) ex_key idx = Ok [1; 2; 3] /\
    group_column (agg_sum 0 Nat.add) (fun q => replicate q 0) (fun q => replicate q 0) ex_val idx = Ok [70; 100; 40].
Proof. split; [vm_compute; done|]. eexists. split; [vm_compute; reflexivity|]. by vm_compute. Qed.
(** A group id that is one too large passes the check of the aggregation and is used as an index. *)
Theorem C61_agg_bound_refuted {V} (zero v : V) (add : V -> V -> V) (m : nat) : col_agg zero add [v] [Z.of_nat m] m = UB.
Proof.
  unfold col_agg. cbn [length]. rewrite decide_False by (intros H; by apply H). cbn. rewrite decide_False by lia. rewrite Nat2Z.id. unfold rd. by rewrite lookup_ge_None_2 by (by rewrite replicate_length).
Qed.
Theorem C61_agg_bound {V} (zero v : V) (add : V -> V -> V) (m : nat) g : (g < 0 \/ Z.of_nat m < g)%Z -> col_agg zero add [v] [g] m = Throw.
Proof. intros Hg. unfold col_agg. cbn [length]. rewrite decide_False by (intros H; by apply H). cbn. by rewrite decide_True. Qed.

(** * Concrete cases *)
Theorem C61_ex_compare : rw_compare (fun n => replicate n 9%Z) (mkCmps Nat.eqb (fun a b => negb (a =? b)) (fun a b => b <? a) (fun a b => b <=? a) Nat.ltb Nat.leb) EwGe (mkDM [3; 1; 4; 2] 0 4 1 1) 3 = Ok (mkDM [1; 0; 1; 0]%Z 0 4 1 1) /\
  is_dense (mkDM [3; 1; 4; 2] 0 4 1 1) 4 1 (fun r _ => [3; 1; 4; 2] !!! r).
Proof.
  split; [vm_compute; done|]. apply tabulated_is_dense. split; [done|]. intros r c Hr Hc. replace (r * 1 + c) with r by lia. apply list_lookup_lookup_total_lt. cbn. lia.
Qed.
Theorem C61_ex_logical : let a := mkDM [1; 0; 1; 0]%Z 0 4 1 1 in let b := mkDM [1; 1; 0; 0]%Z 0 4 1 1 in
  rw_logical (fun n => replicate n 9%Z) 8 EwAnd a b = Ok (Some (mkDM [1; 0; 0; 0]%Z 0 4 1 1)) /\ rw_logical (fun n => replicate n 9%Z) 8 EwOr a b = Ok (Some (mkDM [1; 1; 1; 0]%Z 0 4 1 1)) /\ column a [1; 0; 1; 0]%Z /\ bits [1; 0; 1; 0]%Z.
Proof. split; [vm_compute; done|]. split; [vm_compute; done|]. split; [exact (of_col_column [1; 0; 1; 0]%Z)|]. repeat constructor; lia. Qed.
Theorem C61_ex_extract : rw_extract (fun n => replicate n 9) ex_l (mkDM [2; 0; 2]%Z 0 3 1 1) = Ok (mkFrame 3 [mkCol TI64 0 [1; 1; 1]; mkCol TF64 1 [30; 10; 30]]) /\
  rw_filter (fun n => replicate n 9%Z) (fun n => replicate n 9) ex_l (mkDM [0; 1; 1]%Z 0 3 1 1) = Ok (mkFrame 2 [mkCol TI64 0 [2; 1]; mkCol TF64 1 [20; 30]]).
Proof. split; vm_compute; done. Qed.
(** keys 1, 2, 1 on the left, 2, 5, 1 on the right *)
Definition ex_u : frame nat nat := mkFrame 3 [mkCol TStr 2 [5; 6; 7]; mkCol TI64 3 [2; 5; 1]].
Theorem C61_ex_join : rw_inner_join (fun n => replicate n 9%Z) (fun n => replicate n 9) ex_l ex_u 0 3 None = Ok (mkFrame 3 [mkCol TI64 0 [1; 2; 1]; mkCol TF64 1 [10; 20; 30]; mkCol TStr 2 [7; 5; 7]; mkCol TI64 3 [1; 2; 1]]) /\
  valid ex_l /\ valid ex_u /\ key_column ex_l 0 TI64 [1; 2; 1] /\ key_column ex_u 3 TI64 [2; 5; 1] /\ NoDup ((c_label <$> f_cols ex_l) ++ (c_label <$> f_cols ex_u)) /\ one_partner [1; 2; 1] [2; 5; 1] /\ matches [1; 2; 1] [2; 5; 1] [(0, 2); (1, 0); (2, 2)] /\ ~ one_partner [1; 2; 1] [1; 3; 1; 2].
Proof.
  assert (H1 : one_partner [1; 2; 1] [2; 5; 1]). { intros k i j _ Hi Hj. destruct i as [|[|[|i]]], j as [|[|[|j]]]; cbn in *; try done; try congruence; try (destruct i; done); try (destruct j; done). }
  split; [vm_compute; done|]. split; [apply C32_ex_hyps|]. split; [split; [by apply (bool_decide_unpack _)|]; intros c Hc; cbn in Hc; rewrite !elem_of_cons, elem_of_nil in Hc; destruct Hc as [-> | [-> | []]]; cbn; lia|]. split; [apply C32_ex_hyps|]. split; [by exists 1; eexists|]. split; [by apply (bool_decide_unpack _)|]. split; [done|]. split.
  - apply join_pairs_matches in H1. exact H1.
  - intros H. specialize (H 1 0 2 ltac:(left) eq_refl eq_refl). lia.
Qed.
Theorem C61_ex_group : let f := mkFrame 5 [mkCol TI64 0 [2; 1; 2; 1; 2]; mkCol TStr 1 [7; 7; 8; 7; 7]; mkCol TF64 2 [10; 20; 30; 40; 50]] in
  rw_group (fun n => replicate n 9%Z) (fun n => replicate n 9) 0 Nat.add (fun l => 100 + l) f [0; 1] [2] = Ok (mkFrame 3 [mkCol TI64 0 [2; 1; 2]; mkCol TStr 1 [7; 7; 8]; mkCol TF64 102 [60; 60; 30]]) /\
  firsts (same_key [[2; 1; 2; 1; 2]; [7; 7; 8; 7; 7]]) 5 = [0; 1; 2] /\ members (same_key [[2; 1; 2; 1; 2]; [7; 7; 8; 7; 7]]) 5 1 = [1; 3].
Proof. split; [vm_compute; done|]. split; vm_compute; done. Qed.
Theorem C61_ex_groups : weak_keys ex_skeys /\ (forall i j, i < 6 -> j < 6 -> same_key [m_buf ex_key] i j <-> lex_same ex_skeys i j) /\ members (same_key [m_buf ex_key]) 6 <$> firsts (same_key [m_buf ex_key]) 6 = [[0; 2; 5]; [1; 4]; [3]].
Proof.
  split; [constructor; [apply C31_ex_weak|constructor]|]. split; [|vm_compute; done]. intros i j Hi Hj. unfold same_key, lex_same, ex_skeys. rewrite !Forall_singleton. unfold same_by. cbn [s_lt s_val].
  assert (H : forall k, k < 6 -> m_buf ex_key !! k = Some (m_buf ex_key !!! k)) by (intros k Hk; apply list_lookup_lookup_total_lt; cbn; lia). rewrite (H i Hi), (H j Hj). generalize (m_buf ex_key !!! i) (m_buf ex_key !!! j). intros x y. rewrite !Nat.ltb_ge. split; [intros [= ->]; lia|]. intros [H1 H2]. f_equal. lia.
Qed.

Print Assumptions C61_compare. Print Assumptions C61_logical. Print Assumptions C61_extract. Print Assumptions C61_extract_rejects. Print Assumptions C61_filter. Print Assumptions C61_inner_join. Print Assumptions C61_inner_join_refuted. Print Assumptions C61_join_size_refuted.
Print Assumptions C61_semi_join. Print Assumptions C61_semi_size_refuted. Print Assumptions C61_group. Print Assumptions C61_group_same_groups. Print Assumptions C61_agg_bound_refuted. Print Assumptions C61_agg_bound.
