From stdpp Require Import base numbers sorting list list_numbers.
From Coq Require Import Lia.
From Verif Require Import CppBase Mem ListUtil CSRModel CSRSpec CSRProofs CSRView PipelineModel SinkSpec SinkProofs SparseLoops AggModel AggSpec.

(** ** Loops *)
Lemma for_up_foldl {St T} lo hi (body : nat -> St -> outcome St) (f : St -> T -> St) (g : nat -> T) s :
  (forall i s, lo <= i < hi -> body i s = Ok (f s (g i))) -> for_up lo hi body s = Ok (foldl f s (g <$> seq lo (hi - lo))).
Proof.
  unfold for_up. remember (hi - lo) as k eqn:Hk. revert lo s Hk. induction k as [|k IH]; intros lo s Hk Hb; [done|].
  cbn [forn seq]. rewrite Hb by lia. cbn [obind]. rewrite fmap_cons. cbn [foldl]. apply IH; [lia|]. intros i t Hi. apply Hb. lia.
Qed.
(** for(i = 0; i < n; i++) b[i] = f(i, b[i]) *)
Lemma for_up_modify {T} n (body : nat -> list T -> outcome (list T)) (f : nat -> T -> T) b : length b = n ->
  (forall i t b, i < n -> length b = n -> b !! i = Some t -> body i b = Ok (<[i := f i t]> b)) -> for_up 0 n body b = Ok (imap f b).
Proof.
  intros Hl Hb.
  destruct (for_up_inv (fun i b' => length b' = n /\ (forall j, j < i -> b' !! j = f j <$> b !! j) /\ (forall j, i <= j -> b' !! j = b !! j)) 0 n body b) as (b' & E & Hl' & H1 & H2).
  - lia.
  - split; [done|]. split; [intros; lia|done].
  - intros i b' Hi (Hl' & H1 & H2). destruct (lookup_lt_is_Some_2 b i) as [t Ht]; [lia|]. rewrite (Hb i t b') by (try done; try lia; by rewrite H2).
    eexists. split; [done|]. rewrite insert_length. split; [done|]. split.
    + intros j Hj. destruct (decide (j = i)) as [->|Hn]; [rewrite list_lookup_insert by lia; by rewrite Ht|]. rewrite list_lookup_insert_ne by done. apply H1. lia.
    + intros j Hj. rewrite list_lookup_insert_ne by lia. apply H2. lia.
  - rewrite E. f_equal. apply list_eq. intros j. rewrite list_lookup_imap. destruct (decide (j < n)) as [Hj|Hj]; [by apply H1|]. rewrite !lookup_ge_None_2 by lia. done.
Qed.
(** Repeated update of one element. *)
Lemma for_up_cell {T} lo hi (body : nat -> list T -> outcome (list T)) (f : T -> nat -> T) b r t : b !! r = Some t ->
  (forall i t b, lo <= i < hi -> b !! r = Some t -> body i b = Ok (<[r := f t i]> b)) -> for_up lo hi body b = Ok (<[r := foldl f t (seq lo (hi - lo))]> b).
Proof.
  unfold for_up. remember (hi - lo) as k eqn:Hk. revert lo b t Hk. induction k as [|k IH]; intros lo b t Hk Ht Hb.
  - cbn [forn seq foldl]. f_equal. by rewrite list_insert_id.
  - cbn [forn seq foldl]. rewrite (Hb lo t) by (done || lia). cbn [obind]. rewrite (IH (S lo) _ (f t lo)); [|lia| |].
    + f_equal. by rewrite list_insert_insert.
    + rewrite list_lookup_insert; [done|]. by eapply lookup_lt_Some.
    + intros i u b' Hi Hu. apply Hb; [lia|done].
Qed.
Lemma foldl_imap_lookup {T I} (f : I -> nat -> T -> T) (L : list I) (s : list T) c :
  foldl (fun s r => imap (f r) s) s L !! c = (fun t => foldl (fun t r => f r c t) t L) <$> s !! c.
Proof. revert s. induction L as [|r L IH]; intros s; cbn [foldl]; [by destruct (s !! c)|]. rewrite IH, list_lookup_imap. by destruct (s !! c). Qed.
Lemma foldl_imap_length {T I} (f : I -> nat -> T -> T) (L : list I) (s : list T) : length (foldl (fun s r => imap (f r) s) s L) = length s.
Proof. revert s. induction L as [|r L IH]; intros s; cbn [foldl]; [done|]. by rewrite IH, imap_length. Qed.

Lemma wr_insert {T} (b : list T) i v : i < length b -> wr b i v = Ok (<[i := v]> b).
Proof. intros Hi. by apply wr_Ok. Qed.

(** ** Reductions *)
Section reduce.
Context {V : Type} `{Val V} (op : V -> V -> V) (e : V) (HM : comm_monoid op e).
Local Lemma r_id a : op a e = a.
Proof. rewrite (cm_comm _ _ HM). apply HM. Qed.
Lemma reduce_app l l' : reduce op e (l ++ l') = op (reduce op e l) (reduce op e l').
Proof. unfold reduce. induction l as [|a l IH]; cbn [app foldr]; [symmetry; apply HM|]. rewrite IH. apply HM. Qed.
Lemma reduce_perm l l' : l ≡ₚ l' -> reduce op e l = reduce op e l'.
Proof.
  unfold reduce. induction 1 as [|a l l' Hp IH|a b l|l1 l2 l3 H1 IH1 H2 IH2]; cbn [foldr]; [done|by rewrite IH| |congruence].
  rewrite !(cm_assoc _ _ HM). by rewrite (cm_comm _ _ HM a b).
Qed.
Lemma reduce_one a : reduce op e [a] = a.
Proof. apply r_id. Qed.
Lemma foldl_reduce a l : foldl op a l = op a (reduce op e l).
Proof. revert a. induction l as [|b l IH]; intros a; cbn [foldl reduce foldr]; [by rewrite r_id|]. rewrite IH. symmetry. apply (cm_assoc _ _ HM). Qed.
Lemma foldl_reduce_g {T} (g : T -> V) a l : foldl (fun t v => op t (g v)) a l = op a (reduce op e (g <$> l)).
Proof. rewrite <- foldl_reduce. revert a. induction l as [|b l IH]; intros a; [done|]. rewrite fmap_cons. cbn [foldl]. apply IH. Qed.
Lemma reduce_concat ls : reduce op e (concat ls) = reduce op e (reduce op e <$> ls).
Proof. induction ls as [|l ls IH]; [done|]. cbn [concat]. rewrite reduce_app, IH. done. Qed.

Lemma agg_array_spec b s n l (extra : bool) : length l = n -> (forall i, i < n -> b !! (s + i) = l !! i) ->
  agg_array op b s n extra e = Ok (reduce op e (l ++ (if extra then [vzero] else []))).
Proof.
  intros Hl Hb. assert (Hrd : forall i v, l !! i = Some v -> rd b (s + i) = Ok v).
  { intros i v Hv. apply rd_Ok. rewrite Hb; [done|]. rewrite <- Hl. by eapply lookup_lt_Some. }
  unfold agg_array. match goal with |- context [let* agg := ?m in _] => assert (E : m = Ok (reduce op e l)) end.
  2:{ rewrite E. cbn [obind]. f_equal. rewrite reduce_app. destruct extra; [by rewrite reduce_one|]. symmetry. apply r_id. }
  destruct (decide (n = 0)) as [->|Hn]; [apply nil_length_inv in Hl; by subst|].
  pose proof (Nat.div_mod n 4 ltac:(lia)) as Hdm. pose proof (Nat.mod_upper_bound n 4 ltac:(lia)) as Hmu.
  set (q := n / 4) in *. set (k := n mod 4) in *. clearbody q k.
  match goal with |- context [for_up 0 q ?f (e, e, e, e)] => destruct (for_up_inv (fun i (st : V * V * V * V) => let '(a0, a1, a2, a3) := st in op (op a0 a1) (op a2 a3) = reduce op e (take (4 * i) l)) 0 q f (e, e, e, e)) as ([[[a0 a1] a2] a3] & E & Hst) end.
  - lia.
  - cbn [Nat.mul]. rewrite take_0. by rewrite !(cm_id _ _ HM).
  - intros i [[[a0 a1] a2] a3] Hi Hst.
    destruct (lookup_lt_is_Some_2 l (4 * i)) as [v0 H0]; [lia|]. destruct (lookup_lt_is_Some_2 l (4 * i + 1)) as [v1 H1]; [lia|].
    destruct (lookup_lt_is_Some_2 l (4 * i + 2)) as [v2 H2]; [lia|]. destruct (lookup_lt_is_Some_2 l (4 * i + 3)) as [v3 H3]; [lia|].
    cbn zeta. rewrite (Hrd _ _ H0), (Hrd _ _ H1), (Hrd _ _ H2), (Hrd _ _ H3). cbn [obind]. eexists. split; [done|].
    replace (4 * (1 + i)) with (S (S (S (S (4 * i))))) by lia.
    rewrite (take_S_r _ _ v3) by (rewrite <- H3; f_equal; lia). rewrite (take_S_r _ _ v2) by (rewrite <- H2; f_equal; lia).
    rewrite (take_S_r _ _ v1) by (rewrite <- H1; f_equal; lia). rewrite (take_S_r _ _ v0) by done.
    rewrite !reduce_app, !reduce_one, <- Hst.
    assert (Hx : forall p q r s, op (op p q) (op r s) = op (op p r) (op q s)).
    { intros p t r u. rewrite !(cm_assoc _ _ HM). f_equal. rewrite <- !(cm_assoc _ _ HM). f_equal. apply HM. }
    rewrite (Hx a0 v0), (Hx a2 v2), (Hx (op a0 a1)). rewrite <- !(cm_assoc _ _ HM). done.
  - rewrite E. cbn [obind].
    rewrite (for_up_foldl 0 k _ op (fun i => default e (l !! (q * 4 + i)))).
    2:{ intros i t Hi. destruct (lookup_lt_is_Some_2 l (q * 4 + i)) as [v Hv]; [lia|]. rewrite (Hrd _ _ Hv), Hv. done. }
    f_equal. rewrite foldl_reduce, Hst, <- reduce_app. f_equal. rewrite <- (take_drop (4 * q) l) at 2. f_equal. rewrite Nat.sub_0_r.
    apply list_eq. intros i. rewrite list_lookup_fmap, lookup_drop. destruct (decide (i < k)) as [Hi|Hi].
    + rewrite lookup_seq_lt by done. cbn [fmap option_fmap option_map]. destruct (lookup_lt_is_Some_2 l (q * 4 + i)) as [v Hv]; [lia|]. cbn [plus]. rewrite Hv. replace (4 * q + i) with (q * 4 + i) by lia. by rewrite Hv.
    + rewrite lookup_seq_ge by lia. symmetry. apply lookup_ge_None_2. lia.
Qed.

(** Padding with zeros. *)
Lemma reduce_zeros_safe k : (forall a, op vzero a = a) -> reduce op e (replicate k vzero) = e.
Proof. intros Hz. unfold reduce. induction k as [|k IH]; [done|]. cbn [replicate foldr]. by rewrite Hz. Qed.
Lemma reduce_zeros k : op vzero vzero = vzero -> k <> 0 -> reduce op e (replicate k vzero) = vzero.
Proof.
  intros Hz. unfold reduce. induction k as [|k IH]; [done|]. intros _. cbn [replicate foldr]. destruct k as [|k]; [apply r_id|]. by rewrite IH.
Qed.
End reduce.

Lemma pad_perm {I V} (G : I -> option V) (z : V) (L : list I) :
  ((fun x => default z (G x)) <$> L) ≡ₚ omap G L ++ replicate (length L - length (omap G L)) z.
Proof.
  assert (Hle : forall L : list I, length (omap G L) <= length L). { induction L0 as [|x L0 IH]; [done|]. cbn [omap list_omap]. destruct (G x); cbn [length]; lia. }
  induction L as [|x L IH]; [done|]. rewrite fmap_cons. cbn [omap list_omap]. destruct (G x) as [v|]; cbn [from_option id length].
  - cbn [app]. by rewrite IH.
  - rewrite Nat.sub_succ_l by apply Hle. cbn [replicate]. rewrite IH. apply Permutation_middle.
Qed.

Section cells.
Context {V : Type} `{Val V}.
Lemma omap_find m (l : row V) : row_ok m l -> omap (fun c => find_col c l) (seq 0 m) = l.*2.
Proof.
  intros Hok. transitivity ((ents (fun _ c => find_col c l) 0 m 0).*2); [|by rewrite (row_ents m l Hok)]. unfold ents. rewrite Nat.sub_0_r. generalize (seq 0 m). intros L.
  induction L as [|c L IH]; [done|]. cbn [omap list_omap]. destruct (find_col c l); cbn [fmap option_fmap option_map]; [rewrite fmap_cons; cbn [snd]; f_equal; exact IH|exact IH].
Qed.
Lemma row_cells_perm m (l : row V) : row_ok m l -> ((fun c => cell_in c l) <$> seq 0 m) ≡ₚ l.*2 ++ replicate (m - length l) vzero.
Proof.
  intros Hok. transitivity ((fun c => default vzero (find_col c l)) <$> seq 0 m).
  - apply reflexive_eq. apply list_fmap_ext. intros i c _. apply cell_in_find.
  - rewrite (pad_perm (fun c => find_col c l)). rewrite (omap_find m l Hok), seq_length, fmap_length. done.
Qed.
Lemma row_cells_cell m rs r (l : row V) : rs !! r = Some l -> row_cells m (cell rs) r = (fun c => cell_in c l) <$> seq 0 m.
Proof. intros Hr. unfold row_cells, cell. by rewrite Hr. Qed.
Lemma all_cells_perm n m rs : length rs = n -> Forall (row_ok m) rs ->
  all_cells n m (cell rs) ≡ₚ (concat rs).*2 ++ replicate (n * m - stored rs) vzero.
Proof.
  intros <- Hok. unfold all_cells.
  assert (E : row_cells m (cell rs) <$> seq 0 (length rs) = (fun l => (fun c => cell_in c l) <$> seq 0 m) <$> rs).
  { apply list_eq. intros r. rewrite !list_lookup_fmap. destruct (rs !! r) as [l|] eqn:Hr.
    - rewrite lookup_seq_lt by (by eapply lookup_lt_Some). cbn [fmap option_fmap option_map plus]. f_equal. by apply row_cells_cell.
    - rewrite lookup_seq_ge by (by apply lookup_ge_None). done. }
  rewrite E. clear E. induction Hok as [|l rs Hl Hok IH]; [done|]. rewrite fmap_cons. cbn [concat length]. rewrite (row_cells_perm m l Hl), IH, fmap_app.
  destruct (row_ok_length _ _ Hl) as [H1 _]. destruct (stored_uniform m rs Hok) as [H2 _]. unfold stored in *. cbn [concat]. rewrite app_length.
  replace (S (length rs) * m - (length l + length (concat rs))) with ((m - length l) + (length rs * m - length (concat rs))) by lia.
  rewrite replicate_add, <- !app_assoc. apply Permutation_app_head. rewrite !app_assoc. apply Permutation_app_tail. apply Permutation_app_comm.
Qed.
(** The values of column [c] among some entries. *)
Definition colvals (c : nat) (es : list (nat * V)) : list V := omap (fun e => if decide (fst e = c) then Some (snd e) else None) es.
Lemma colvals_app c es es' : colvals c (es ++ es') = colvals c es ++ colvals c es'.
Proof. unfold colvals. apply omap_app. Qed.
Lemma colvals_row m c (l : row V) : row_ok m l -> colvals c l = match find_col c l with Some v => [v] | None => [] end.
Proof.
  intros [Hs _]. unfold colvals. induction l as [|[k v] l IH]; [done|]. rewrite fmap_cons in Hs. apply StronglySorted_inv in Hs as [Hs Hf]. cbn [omap list_omap find_col fst snd].
  specialize (IH Hs). destruct (decide (k = c)) as [->|Hn]; [|done].
  assert (Hnone : find_col c l = None). { apply find_col_None. intros Hin. rewrite Forall_forall in Hf. specialize (Hf _ Hin). simpl in Hf. lia. }
  rewrite Hnone in IH. f_equal. exact IH.
Qed.
Lemma colvals_omap m c (rs : list (row V)) : Forall (row_ok m) rs -> colvals c (concat rs) = omap (fun r => colG rs c r) (seq 0 (length rs)).
Proof.
  intros Hok. assert (Hx : forall k all, (forall i, all !! (k + i) = rs !! i) -> colvals c (concat rs) = omap (fun r => colG all c r) (seq k (length rs))).
  { induction Hok as [|l rs Hl Hok IH]; intros k all Ha; [done|]. cbn [concat length seq omap list_omap]. rewrite colvals_app, (colvals_row m c l Hl).
    rewrite (IH (S k) all). 2:{ intros i. transitivity (all !! (k + S i)); [f_equal; lia|apply (Ha (S i))]. }
    unfold colG at 2. specialize (Ha 0). rewrite Nat.add_0_r in Ha. rewrite Ha. cbn. by destruct (find_col c l). }
  by apply Hx.
Qed.
Lemma col_cells_perm n m rs c : length rs = n -> Forall (row_ok m) rs ->
  col_cells n (cell rs) c ≡ₚ colvals c (concat rs) ++ replicate (n - length (colvals c (concat rs))) vzero.
Proof.
  intros <- Hok. unfold col_cells. transitivity ((fun r => default vzero (colG rs c r)) <$> seq 0 (length rs)).
  - apply reflexive_eq. apply list_fmap_ext. intros i r _. apply cell_colG.
  - rewrite (pad_perm (fun r => colG rs c r)). rewrite <- (colvals_omap m c rs Hok), seq_length. done.
Qed.

(** A loop that updates the element of the column of each entry. *)
Definition upd_cols {T} (f : nat -> T -> V -> T) (es : list (nat * V)) (st : list T) : list T := imap (fun c t => foldl (f c) t (colvals c es)) st.
Lemma upd_cols_length {T} (f : nat -> T -> V -> T) es st : length (upd_cols f es st) = length st.
Proof. apply imap_length. Qed.
Lemma upd_cols_snoc {T} (f : nat -> T -> V -> T) es c v st t : upd_cols f es st !! c = Some t ->
  <[c := f c t v]> (upd_cols f es st) = upd_cols f (es ++ [(c, v)]) st.
Proof.
  intros Ht. apply list_eq. intros j. unfold upd_cols in *. rewrite (list_lookup_imap _ st j). destruct (decide (j = c)) as [->|Hn].
  - rewrite list_lookup_insert by (by eapply lookup_lt_Some). rewrite list_lookup_imap in Ht. destruct (st !! c) as [t0|]; [|done]. injection Ht as <-. cbn [fmap option_fmap option_map]. f_equal.
    rewrite colvals_app. unfold colvals at 3. cbn [omap list_omap fst snd]. rewrite decide_True by done. by rewrite foldl_app.
  - rewrite list_lookup_insert_ne by done. rewrite list_lookup_imap. destruct (st !! j) as [t0|]; [|done]. cbn [fmap option_fmap option_map]. f_equal. f_equal.
    rewrite colvals_app. unfold colvals at 3. cbn [omap list_omap fst snd]. rewrite decide_False by done. by rewrite app_nil_r.
Qed.
Lemma upd_cols_app {T} (f : nat -> T -> V -> T) es es' st : upd_cols f es' (upd_cols f es st) = upd_cols f (es ++ es') st.
Proof.
  apply list_eq. intros j. unfold upd_cols. rewrite !list_lookup_imap. destruct (st !! j); [|done]. cbn [fmap option_fmap option_map]. by rewrite colvals_app, foldl_app.
Qed.
Lemma ofold_upd_cols {S T} (g : nat * V -> S -> outcome S) (es : list (nat * V)) (f : nat -> T -> V -> T) (st : list T) (inj : list T -> S) :
  Forall (fun e => fst e < length st) es ->
  (forall c v t st', length st' = length st -> st' !! c = Some t -> g (c, v) (inj st') = Ok (inj (<[c := f c t v]> st'))) ->
  ofold g es (inj st) = Ok (inj (upd_cols f es st)).
Proof.
  intros Hf Hg. destruct (ofold_inv (fun pre s => s = inj (upd_cols f pre st)) g es (inj st)) as (s' & E & ->); [| |done].
  - f_equal. unfold upd_cols. apply list_eq. intros j. rewrite list_lookup_imap. by destruct (st !! j).
  - intros pre [c v] post s E ->. rewrite E in Hf. apply Forall_app in Hf as [_ [Hc _]%Forall_cons]. cbn [fst] in Hc.
    destruct (lookup_lt_is_Some_2 (upd_cols f pre st) c) as [t Ht]; [by rewrite upd_cols_length|].
    rewrite (Hg c v t) by (try done; by rewrite upd_cols_length). eexists. split; [done|]. f_equal. by apply upd_cols_snoc.
Qed.
(** The same with two arrays. *)
Lemma ofold_upd_cols2 {T U} (g : nat * V -> list T * list U -> outcome (list T * list U)) (es : list (nat * V)) (f : nat -> T -> V -> T) (f' : nat -> U -> V -> U) st st2 :
  length st = length st2 -> Forall (fun e => fst e < length st) es ->
  (forall c v t u s s2, length s = length st -> length s2 = length st2 -> s !! c = Some t -> s2 !! c = Some u -> g (c, v) (s, s2) = Ok (<[c := f c t v]> s, <[c := f' c u v]> s2)) ->
  ofold g es (st, st2) = Ok (upd_cols f es st, upd_cols f' es st2).
Proof.
  intros Hl Hf Hg. destruct (ofold_inv (fun pre s => s = (upd_cols f pre st, upd_cols f' pre st2)) g es (st, st2)) as (s' & E & ->); [| |done].
  - f_equal; unfold upd_cols; apply list_eq; intros j; rewrite list_lookup_imap; [by destruct (st !! j)|by destruct (st2 !! j)].
  - intros pre [c v] post s E ->. rewrite E in Hf. apply Forall_app in Hf as [_ [Hc _]%Forall_cons]. cbn [fst] in Hc.
    destruct (lookup_lt_is_Some_2 (upd_cols f pre st) c) as [t Ht]; [by rewrite upd_cols_length|].
    destruct (lookup_lt_is_Some_2 (upd_cols f' pre st2) c) as [u Hu]; [rewrite upd_cols_length; lia|].
    rewrite (Hg c v t u) by (try done; by rewrite upd_cols_length). eexists. split; [done|]. f_equal; by apply upd_cols_snoc.
Qed.
End cells.

(** ** The cells *)
Lemma row_cells_length {V} m (x : nat -> nat -> V) r : length (row_cells m x r) = m.
Proof. unfold row_cells. by rewrite fmap_length, seq_length. Qed.
Lemma row_cells_lookup {V} m (x : nat -> nat -> V) r c : c < m -> row_cells m x r !! c = Some (x r c).
Proof. intros Hc. unfold row_cells. by apply (lookup_fseq (fun c => x r c)). Qed.
Lemma col_cells_length {V} n (x : nat -> nat -> V) c : length (col_cells n x c) = n.
Proof. unfold col_cells. by rewrite fmap_length, seq_length. Qed.
Lemma all_cells_uniform {V} n m (x : nat -> nat -> V) : Forall (fun l => length l = m) (row_cells m x <$> seq 0 n).
Proof. apply Forall_fmap, Forall_true. intros r. apply row_cells_length. Qed.
Lemma all_cells_length {V} n m (x : nat -> nat -> V) : length (all_cells n m x) = n * m.
Proof. unfold all_cells. rewrite (concat_uniform_length _ m) by apply all_cells_uniform. by rewrite fmap_length, seq_length. Qed.
Lemma all_cells_lookup {V} n m (x : nat -> nat -> V) r c : r < n -> c < m -> all_cells n m x !! (r * m + c) = Some (x r c).
Proof.
  intros Hr Hc. unfold all_cells. rewrite (concat_uniform _ m r c (row_cells m x r)); [by apply row_cells_lookup|apply all_cells_uniform|by apply (lookup_fseq (row_cells m x))|done].
Qed.
Lemma for2_foldl {St V} n m (x : nat -> nat -> V) (body : nat -> nat -> St -> outcome St) (f : St -> V -> St) s :
  (forall r c s, r < n -> c < m -> body r c s = Ok (f s (x r c))) -> for2 n m body s = Ok (foldl f s (all_cells n m x)).
Proof.
  intros Hb. unfold for2. rewrite (for_up_foldl 0 n _ (fun s r => foldl f s (row_cells m x r)) (fun r => r)).
  - f_equal. rewrite list_fmap_id, Nat.sub_0_r. unfold all_cells. generalize (seq 0 n). intros L. revert s. induction L as [|r L IH]; intros s; [done|]. rewrite fmap_cons. cbn [foldl concat]. by rewrite foldl_app, IH.
  - intros r t Hr. rewrite (for_up_foldl 0 m _ f (fun c => x r c)); [by rewrite Nat.sub_0_r|]. intros c u Hc. apply Hb; lia.
Qed.
Lemma seq_split_1 m : m <> 0 -> seq 0 m = 0 :: seq 1 (m - 1).
Proof. destruct m; [done|]. intros _. cbn [seq]. by rewrite Nat.sub_succ, Nat.sub_0_r. Qed.

Section kernels.
Context {V : Type} `{Val V} (A : arith V).

(** What [fits] gives for the pure reductions. *)
Lemma pure_facts o : fits A o -> isPure o = Ok true -> exists op ne (safe : bool), switchop A o = Ok op /\ binop A o = Ok op /\ neutral A o = Ok ne /\ comm_monoid op ne /\
  isSparseSafe o = Ok safe /\ (forall l, aggregate A o l = reduce op ne l) /\
  (forall l k, reduce op ne (l ++ replicate k vzero) = reduce op ne (l ++ (if negb safe && bool_decide (0 < k) then [vzero] else []))) /\ op vzero vzero = vzero.
Proof.
  intros Hf Hp. assert (Hx : forall op ne (safe : bool), comm_monoid op ne -> (if safe then forall a, op vzero a = a else op vzero vzero = vzero) ->
    (forall l k, reduce op ne (l ++ replicate k vzero) = reduce op ne (l ++ (if negb safe && bool_decide (0 < k) then [vzero] else []))) /\ op vzero vzero = vzero).
  { intros op ne safe HM Hz. split; [|destruct safe; auto]. intros l k. rewrite !(reduce_app op ne HM). f_equal. destruct safe; cbn [negb andb]; [by rewrite reduce_zeros_safe|].
    case_bool_decide as Hk; [rewrite (reduce_zeros op ne HM) by (done || lia); by rewrite (reduce_one op ne HM)|]. destruct k; [done|lia]. }
  destruct o; try done; cbn [fits] in Hf; eexists _, _, _; (split; [done|]); (split; [done|]); (split; [done|]).
  - split; [done|]. split; [done|]. split; [done|]. apply (Hx _ _ true Hf). apply Hf.
  - destruct Hf as [Hf Hz]. split; [done|]. split; [done|]. split; [done|]. by apply (Hx _ _ false Hf).
  - split; [done|]. split; [done|]. split; [done|]. apply (Hx _ _ false Hf). unfold amin. by destruct (alt A vzero vzero).
  - split; [done|]. split; [done|]. split; [done|]. apply (Hx _ _ false Hf). unfold amax. by destruct (alt A vzero vzero).
Qed.
Lemma unpure_facts o : fits A o -> isPure o = Ok false -> isSparseSafe o = Ok false /\ switchop A o = Ok (aadd A) /\ comm_monoid (aadd A) vzero /\
  (o = MEAN \/ ((o = VAR \/ o = STDDEV) /\ (forall a, amul A (asub A vzero a) (asub A vzero a) = amul A a a) /\
      (forall k a, amul A (amul A (aofnat A k) a) a = times A k (amul A a a)) /\ (forall k a, amul A (amul A a a) (aofnat A k) = times A k (amul A a a)))).
Proof. intros Hf Hp. destruct o; try done; cbn [fits] in Hf; [by auto| |]; destruct Hf as (HM & H1 & H2 & H3); (split; [done|]); (split; [done|]); (split; [done|]); right; auto. Qed.
Lemma pure_cases o : fits A o -> isPure o = Ok true \/ isPure o = Ok false.
Proof. intros Hf. destruct o; cbn in *; solve [by left|by right|done]. Qed.

Definition sqdev (mu v : V) : V := amul A (asub A v mu) (asub A v mu).
(** The deviations of the implicit zeros. *)
Lemma total_pad vals k mu : comm_monoid (aadd A) vzero -> (forall a, amul A (asub A vzero a) (asub A vzero a) = amul A a a) ->
  total A (sqdev mu <$> (vals ++ replicate k vzero)) = aadd A (total A (sqdev mu <$> vals)) (times A k (amul A mu mu)).
Proof.
  intros HM Hsq. unfold total. rewrite fmap_app, (reduce_app _ _ HM). f_equal. unfold times, total. f_equal. rewrite fmap_replicate. f_equal. apply Hsq.
Qed.
Lemma total_add_zero l k : comm_monoid (aadd A) vzero -> total A (l ++ replicate k vzero) = total A l.
Proof. intros HM. unfold total. rewrite (reduce_app _ _ HM), reduce_zeros_safe by apply HM. rewrite (cm_comm _ _ HM). apply HM. Qed.

Lemma aggAll_dense_spec o a n m x : fits A o -> is_dense a n m x -> aggAll_dense A o a = Ok (aggregate A o (all_cells n m x)).
Proof.
  intros Hf Hd. pose proof Hd as (Hn & Hm & Hsk & Hsz & Hx).
  assert (Hsum : forall op ne, comm_monoid op ne -> (if decide (m = m_skip a \/ n = 1) then agg_array op (m_buf a) (m_off a) (n * m) false ne
               else for_up 0 n (fun r agg => let* x := agg_array op (m_buf a) (m_off a + r * m_skip a) m false ne in Ok (op agg x)) ne) = Ok (reduce op ne (all_cells n m x))).
  { intros op ne HM. destruct (decide _) as [Hc|Hc].
    - rewrite (agg_array_spec op ne HM _ _ _ (all_cells n m x)); [by rewrite app_nil_r|apply all_cells_length|].
      intros i Hi. destruct (pos_split n m i Hi) as (r & c & Hr & Hcc & ->). rewrite all_cells_lookup by done. rewrite <- (Hx r c) by done. f_equal.
      destruct Hc as [<-| ->]; [lia|]. assert (r = 0) by lia. subst. lia.
    - rewrite (for_up_foldl 0 n _ (fun t r => op t (reduce op ne (row_cells m x r))) (fun r => r)).
      + rewrite list_fmap_id, Nat.sub_0_r, (foldl_reduce_g op ne HM), (cm_id _ _ HM). f_equal. unfold all_cells. rewrite (reduce_concat op ne HM). by rewrite <- list_fmap_compose.
      + intros r t Hr. rewrite (agg_array_spec op ne HM _ _ _ (row_cells m x r)); [by rewrite app_nil_r|apply row_cells_length|]. intros c Hcc. rewrite row_cells_lookup by done. apply Hx; [lia|done]. }
  unfold aggAll_dense. rewrite Hn, Hm. destruct (pure_cases o Hf) as [Hp|Hp]; rewrite Hp; cbn [obind].
  - destruct (pure_facts o Hf Hp) as (op & ne & safe & -> & _ & -> & HM & _ & Ha & _). cbn [obind]. rewrite (Hsum op ne HM). cbn [obind]. by rewrite Ha.
  - destruct (unpure_facts o Hf Hp) as (_ & -> & HM & Hcase). cbn [obind]. rewrite (Hsum _ _ HM). cbn [obind].
    change (reduce (aadd A) vzero (all_cells n m x)) with (total A (all_cells n m x)). set (L := all_cells n m x).
    assert (Hmean : adiv A (total A L) (m * n) = mean A L). { unfold mean. f_equal. unfold L. rewrite all_cells_length. lia. }
    rewrite Hmean. destruct (decide (o = MEAN)) as [->|Hne]; [done|].
    rewrite (for2_foldl n m x _ (fun t v => aadd A t (sqdev (mean A L) v))) by (intros r c t Hr Hc; by rewrite (dm_at_Ok _ _ _ _ _ _ Hd)).
    cbn [obind]. rewrite (foldl_reduce_g _ _ HM), (cm_id _ _ HM).
    assert (Hvar : adiv A (reduce (aadd A) vzero (sqdev (mean A L) <$> L)) (m * n) = variance A L). { unfold variance. f_equal. unfold L. rewrite all_cells_length. lia. }
    fold L. rewrite Hvar. destruct Hcase as [->|[[->| ->] _]]; [done| |]; by case_decide.
Qed.

Lemma aggAll_csr_spec o b h rs : fits A o -> shows b h rs -> aggAll_csr A o b h = Ok (aggregate A o (all_cells (h_rows h) (h_cols h) (cell rs))).
Proof.
  intros Hf Hs. destruct (shows_reads _ _ _ Hs) as (base & HR & _). pose proof (rd_ok _ _ _ _ HR) as Hok. pose proof (rd_rows _ _ _ _ HR) as Hlen.
  set (n := h_rows h) in *. set (m := h_cols h) in *. pose proof (all_cells_perm n m rs Hlen Hok) as Hperm. destruct (stored_uniform m rs Hok) as [Hst _]. rewrite Hlen in Hst.
  set (k := n * m - stored rs) in *. set (L := all_cells n m (cell rs)) in *. set (vals := (concat rs).*2) in *.
  assert (HlenL : length L = n * m) by apply all_cells_length.
  assert (Hvl : length vals = stored rs) by apply fmap_length.
  assert (Hrd : forall i, i < stored rs -> bvals b !! (base + i) = vals !! i) by apply (rd_vals _ _ _ _ HR).
  assert (Hoff : roff b h 0 = Ok base). { rewrite (rd_off _ _ _ _ HR) by lia. change (stored (take 0 rs)) with 0. by rewrite Nat.add_0_r. }
  assert (Hk : bool_decide (stored rs < n * m) = bool_decide (0 < k)) by (apply bool_decide_ext; lia).
  unfold aggAll_csr. fold n m. rewrite (reads_nnz _ _ _ _ HR), Hoff. destruct (pure_cases o Hf) as [Hp|Hp]; rewrite Hp; cbn [obind].
  - destruct (pure_facts o Hf Hp) as (op & ne & safe & -> & _ & -> & HM & -> & Ha & Hpad & _). cbn [obind].
    rewrite (agg_array_spec op ne HM _ _ _ vals) by done. f_equal. rewrite Ha, Hk, <- Hpad. symmetry. by apply (reduce_perm op ne HM).
  - destruct (unpure_facts o Hf Hp) as (-> & _ & HM & Hcase). cbn [obind negb andb].
    rewrite (agg_array_spec _ _ HM _ _ _ vals) by done. cbn [obind].
    match goal with |- context [adiv A ?t (n * m)] => assert (Hmean : adiv A t (n * m) = mean A L) end.
    { unfold mean. rewrite HlenL. f_equal. transitivity (total A vals). 
      - destruct (bool_decide _); [apply (total_add_zero vals 1 HM)|by rewrite app_nil_r].
      - rewrite <- (total_add_zero vals k HM). symmetry. by apply (reduce_perm _ _ HM). }
    rewrite Hmean. destruct (decide (o = MEAN)) as [->|Hne]; [done|]. destruct Hcase as [->|(Ho & Hsq & Ht1 & Ht2)]; [done|].
    rewrite (for_up_foldl 0 (stored rs) _ (fun t v => aadd A t (sqdev (mean A L) v)) (fun i => default vzero (vals !! i))).
    2:{ intros i t Hi. destruct (lookup_lt_is_Some_2 vals i) as [v Hv]; [lia|]. rewrite (rd_Ok (bvals b) (base + i) v) by (rewrite Hrd by lia; done). by rewrite Hv. }
    cbn [obind]. rewrite Nat.sub_0_r.
    assert (Hid : (fun i => default vzero (vals !! i)) <$> seq 0 (stored rs) = vals).
    { rewrite <- Hvl. apply list_eq. intros i. destruct (decide (i < length vals)) as [Hi|Hi].
      - rewrite (lookup_fseq (fun i => default vzero (vals !! i))) by done. destruct (lookup_lt_is_Some_2 vals i Hi) as [v Hv]. by rewrite Hv.
      - rewrite !lookup_ge_None_2; [done|lia|rewrite fmap_length, seq_length; lia]. }
    rewrite Hid, (foldl_reduce_g _ _ HM), (cm_id _ _ HM), Ht1.
    change (reduce (aadd A) vzero (sqdev (mean A L) <$> vals)) with (total A (sqdev (mean A L) <$> vals)). rewrite <- (total_pad vals k (mean A L) HM Hsq).
    assert (Hvar : adiv A (total A (sqdev (mean A L) <$> (vals ++ replicate k vzero))) (n * m) = variance A L).
    { unfold variance. rewrite HlenL. f_equal. symmetry. apply (reduce_perm _ _ HM). apply fmap_Permutation. exact Hperm. }
    rewrite Hvar. destruct Ho as [->| ->]; by case_decide.
Qed.

Lemma col_dense (res : list V) n (g : nat -> V) : length res = n -> (forall r, r < n -> res !! r = Some (g r)) -> is_dense (mkDM res 0 n 1 1) n 1 (fun r _ => g r).
Proof. intros Hl Hg. apply tabulated_is_dense. split; [lia|]. intros r c Hr Hc. rewrite <- Hg by done. f_equal. lia. Qed.
Lemma row_dense (res : list V) m (g : nat -> V) : length res = m -> (forall c, c < m -> res !! c = Some (g c)) -> is_dense (mkDM res 0 1 m m) 1 m (fun _ c => g c).
Proof. intros Hl Hg. apply tabulated_is_dense. split; [lia|]. intros r c Hr Hc. rewrite <- Hg by done. f_equal. lia. Qed.
Lemma imap_write {T} (f : nat -> T -> T) b i : imap f b !! i = f i <$> b !! i.
Proof. apply list_lookup_imap. Qed.

Lemma aggRow_dense_spec o junk a n m x : fits A o -> is_dense a n m x -> m <> 0 -> length junk = n ->
  exists res, aggRow_dense A o junk a = Ok res /\ is_dense res n 1 (fun r _ => aggregate A o (row_cells m x r)).
Proof.
  intros Hf Hd Hm0 Hj. pose proof Hd as (Hn & Hm & _).
  assert (Hsum : forall op ne, comm_monoid op ne -> exists res, for_up 0 n (fun r res =>
      let* v0 := dm_at a r 0 in
      let* agg := for_up 1 m (fun c agg => let* v := dm_at a r c in Ok (op agg v)) v0 in
      wr res r agg) junk = Ok res /\ length res = n /\ forall r, r < n -> res !! r = Some (reduce op ne (row_cells m x r))).
  { intros op ne HM. apply (for_up_write n _ (fun r => reduce op ne (row_cells m x r))); [done|]. intros r b Hr Hb. rewrite (dm_at_Ok _ _ _ _ _ _ Hd) by lia. cbn [obind].
    rewrite (for_up_foldl 1 m _ op (fun c => x r c)); [|intros c t Hc; by rewrite (dm_at_Ok _ _ _ _ _ _ Hd) by lia]. cbn [obind]. f_equal. rewrite (foldl_reduce op ne HM).
    unfold row_cells. rewrite (seq_split_1 m Hm0), fmap_cons. done. }
  destruct (pure_cases o Hf) as [Hp|Hp].
  - destruct (pure_facts o Hf Hp) as (op & ne & safe & _ & Hb & _ & HM & _ & Ha & _). destruct (Hsum op ne HM) as (res & E & Hl & Hr).
    exists (mkDM res 0 n 1 1). split; [|apply (col_dense res n (fun r => aggregate A o (row_cells m x r))); [done|]; intros r Hrn; rewrite Ha; auto].
    unfold aggRow_dense. rewrite Hn, Hm. destruct o; try done; cbn [obind isPure]; rewrite Hb; cbn [obind]; rewrite E; done.
  - destruct (unpure_facts o Hf Hp) as (_ & _ & HM & Hcase). destruct (Hsum _ _ HM) as (res & E & Hl & Hr).
    set (mu := fun r => mean A (row_cells m x r)).
    assert (Emean : for_up 0 n (fun r res => let* x := rd res r in wr res r (adiv A x m)) res = Ok (imap (fun _ t => adiv A t m) res)).
    { apply for_up_modify; [done|]. intros i t b Hi Hb Ht. rewrite (rd_Ok _ _ _ Ht). cbn [obind]. apply wr_insert. lia. }
    assert (Hmu : forall r, r < n -> imap (fun _ t => adiv A t m) res !! r = Some (mu r)).
    { intros r Hrn. rewrite list_lookup_imap, Hr by done. cbn [fmap option_fmap option_map]. f_equal. unfold mu, mean. by rewrite row_cells_length. }
    set (res1 := imap (fun _ t => adiv A t m) res) in *. assert (Hl1 : length res1 = n) by (unfold res1; by rewrite imap_length).
    destruct Hcase as [->|(Ho & _)].
    { exists (mkDM res1 0 n 1 1). split; [|by apply (col_dense res1 n mu)]. unfold aggRow_dense. rewrite Hn, Hm. cbn [isPure obind binop]. rewrite E. cbn [obind]. rewrite Emean. done. }
    assert (Etmp : for2 n m (fun r c tmp => let* v := dm_at a r c in let* mean := rd res1 r in let val := asub A v mean in
      let* t := rd tmp r in wr tmp r (aadd A t (amul A val val))) (replicate n vzero) =
      Ok (imap (fun r t => foldl (fun t c => aadd A t (sqdev (mu r) (x r c))) t (seq 0 m)) (replicate n vzero))).
    { unfold for2. apply for_up_modify; [by rewrite replicate_length|]. intros r t b Hrn Hb Ht.
      rewrite (for_up_cell 0 m _ (fun t c => aadd A t (sqdev (mu r) (x r c))) b r t Ht); [by rewrite Nat.sub_0_r|].
      intros c t' b' Hc Ht'. rewrite (dm_at_Ok _ _ _ _ _ _ Hd) by lia. cbn [obind]. rewrite (rd_Ok res1 r (mu r)) by auto. cbn [obind]. rewrite (rd_Ok _ _ _ Ht'). cbn [obind]. apply wr_insert. by eapply lookup_lt_Some. }
    assert (Htmp : forall r, r < n -> imap (fun r t => foldl (fun t c => aadd A t (sqdev (mu r) (x r c))) t (seq 0 m)) (replicate n vzero) !! r = Some (total A (sqdev (mu r) <$> row_cells m x r))).
    { intros r Hrn. rewrite list_lookup_imap, lookup_replicate_2 by done. cbn [fmap option_fmap option_map]. f_equal. rewrite (foldl_reduce_g (aadd A) vzero HM (fun c => sqdev (mu r) (x r c))), (cm_id _ _ HM).
      unfold row_cells. by rewrite <- list_fmap_compose. }
    set (tmp := imap _ (replicate n vzero)) in *. assert (Hlt : length tmp = n) by (unfold tmp; by rewrite imap_length, replicate_length).
    set (fin := fun v => if decide (o = STDDEV) then asqrt A v else v).
    destruct (for_up_inv (fun i (st : list V * list V) => length (fst st) = n /\ length (snd st) = n /\ (forall r, i <= r -> fst st !! r = tmp !! r) /\ (forall r, r < i -> snd st !! r = Some (fin (variance A (row_cells m x r))))) 0 n
      (fun r st => let '(tmp, res) := st in let* t := rd tmp r in let t := adiv A t m in let* tmp := wr tmp r t in
      let* res := wr res r (if decide (o = STDDEV) then asqrt A t else t) in Ok (tmp, res)) (tmp, res1)) as ([tmp' res2] & E2 & Hl2 & Hl3 & _ & H2).
    + lia.
    + cbn [fst snd]. split; [done|]. split; [done|]. split; [done|]. intros; lia.
    + intros r [t1 r1] Hrn (H1 & H2 & H3 & H4). cbn [fst snd] in *. rewrite (rd_Ok t1 r (total A (sqdev (mu r) <$> row_cells m x r))) by (rewrite H3 by lia; apply Htmp; lia). cbn [obind]. cbv zeta.
      rewrite wr_insert by lia. cbn [obind]. rewrite wr_insert by lia. cbn [obind]. eexists. split; [done|]. cbn [fst snd]. rewrite !insert_length. split; [done|]. split; [done|]. split.
      * intros r' Hr'. rewrite list_lookup_insert_ne by lia. apply H3. lia.
      * intros r' Hr'. destruct (decide (r' = r)) as [->|Hne]; [|rewrite list_lookup_insert_ne by done; apply H4; lia]. rewrite list_lookup_insert by lia. f_equal. unfold fin, variance, mu.
        rewrite row_cells_length. done.
    + exists (mkDM res2 0 n 1 1). split.
      * cbv zeta in Etmp, E2. unfold aggRow_dense. rewrite Hn, Hm. destruct Ho as [->| ->]; cbn [isPure obind binop]; rewrite E; cbn [obind]; rewrite Emean; cbn [obind]; (rewrite decide_False by done); rewrite Etmp; cbn [obind]; fold tmp; rewrite E2; done.
      * cbn [fst snd] in *. apply (col_dense res2 n); [done|]. intros r Hrn. rewrite H2 by done. f_equal. unfold fin. destruct Ho as [->| ->]; by case_decide.
Qed.

Lemma row_nnz_le (rs : list (row V)) m r l : Forall (row_ok m) rs -> rs !! r = Some l -> length l <= m.
Proof. intros Hok Hr. rewrite Forall_lookup in Hok. by apply (row_ok_length m l (Hok _ _ Hr)). Qed.

Lemma aggRow_csr_spec o junk b h rs : fits A o -> shows b h rs -> length junk = h_rows h ->
  exists res, aggRow_csr A o junk b h = Ok res /\ is_dense res (h_rows h) 1 (fun r _ => aggregate A o (row_cells (h_cols h) (cell rs) r)).
Proof.
  intros Hf Hs Hj. destruct (shows_reads _ _ _ Hs) as (base & HR & _). pose proof (rd_ok _ _ _ _ HR) as Hok. pose proof (rd_rows _ _ _ _ HR) as Hlen.
  set (n := h_rows h) in *. set (m := h_cols h) in *.
  assert (Hrow : forall r, r < n -> exists l, rs !! r = Some l /\ csr_row_nnz b h r = Ok (length l) /\ roff b h r = Ok (base + stored (take r rs)) /\ length l <= m /\
    row_cells m (cell rs) r ≡ₚ l.*2 ++ replicate (m - length l) vzero /\ (forall i, i < length l -> bvals b !! (base + stored (take r rs) + i) = l.*2 !! i)).
  { intros r Hr. destruct (lookup_lt_is_Some_2 rs r) as [l Hl]; [lia|]. exists l. split; [done|]. split; [by eapply reads_row_nnz|]. split; [apply (rd_off _ _ _ _ HR); lia|].
    split; [by eapply row_nnz_le|]. split.
    - rewrite (row_cells_cell m rs r l Hl). apply row_cells_perm. rewrite Forall_lookup in Hok. by eapply Hok.
    - intros i Hi. destruct (lookup_lt_is_Some_2 l i Hi) as [e He]. rewrite (proj2 (reads_entry _ _ _ _ _ _ _ _ HR Hl He)). by rewrite list_lookup_fmap, He. }
  unfold aggRow_csr. fold n m. destruct (pure_cases o Hf) as [Hp|Hp]; rewrite Hp; cbn [obind].
  - destruct (pure_facts o Hf Hp) as (op & ne & safe & -> & _ & -> & HM & -> & Ha & Hpad & _). cbn [obind].
    match goal with |- context [for_up 0 n ?f junk] => destruct (for_up_write n f (fun r => aggregate A o (row_cells m (cell rs) r)) junk Hj) as (res & E & Hl & Hr) end.
    + intros r b' Hr Hb'. destruct (Hrow r Hr) as (l & Hl & -> & -> & Hle & Hperm & Hv). cbn [obind].
      rewrite (agg_array_spec op ne HM _ _ _ l.*2) by (done || by rewrite fmap_length). cbn [obind]. f_equal. rewrite Ha, (reduce_perm op ne HM _ _ Hperm), Hpad.
      rewrite (bool_decide_ext (length l < m) (0 < m - length l)) by lia. done.
    + rewrite E. cbn [obind]. eexists. split; [done|]. by apply (col_dense res n (fun r => aggregate A o (row_cells m (cell rs) r))).
  - destruct (unpure_facts o Hf Hp) as (_ & _ & HM & Hcase).
    match goal with |- context [for_up 0 n ?f (0, replicate n vzero, junk)] =>
      destruct (for_up_inv (fun i (st : nat * list V * list V) => length (fst st).2 = n /\ length (snd st) = n /\ (o <> MEAN -> fst (fst st) = stored (take i rs)) /\
        (forall r, i <= r < n -> (fst st).2 !! r = Some vzero) /\ (forall r, r < i -> snd st !! r = Some (aggregate A o (row_cells m (cell rs) r)))) 0 n f (0, replicate n vzero, junk)) as ([[ctr tmp] res] & E & _ & Hl & _ & _ & Hr) end.
    + lia.
    + cbn [fst snd]. rewrite replicate_length. split; [done|]. split; [done|]. split; [done|]. split; [intros r Hr; apply lookup_replicate_2; lia|intros; lia].
    + intros r [[ctr tmp] res] Hr (H1 & H2 & H3 & H4 & H5). cbn [fst snd] in *. destruct (Hrow r) as (l & Hl & -> & -> & Hle & Hperm & Hv); [lia|]. cbn [obind].
      rewrite (agg_array_spec _ _ HM _ _ _ l.*2) by (done || by rewrite fmap_length). cbn [obind]. rewrite app_nil_r.
      assert (Hoff : roff b h 0 = Ok base). { rewrite (rd_off _ _ _ _ HR) by lia. change (stored (take 0 rs)) with 0. by rewrite Nat.add_0_r. }
      rewrite Hoff. cbn [obind]. cbv zeta.
      assert (Hmean : adiv A (reduce (aadd A) vzero l.*2) m = mean A (row_cells m (cell rs) r)).
      { unfold mean. rewrite row_cells_length. f_equal. unfold total. rewrite (reduce_perm _ _ HM _ _ Hperm). symmetry. apply (total_add_zero _ _ HM). }
      rewrite Hmean. set (mu := mean A (row_cells m (cell rs) r)). rewrite wr_insert by lia. cbn [obind]. destruct (decide (o = MEAN)) as [->|Hne].
      { eexists. split; [done|]. cbn [fst snd]. rewrite insert_length. split; [done|]. split; [done|]. split; [done|]. split; [intros r' Hr'; apply H4; lia|].
        intros r' Hr'. destruct (decide (r' = r)) as [->|Hn']; [rewrite list_lookup_insert by lia; done|]. rewrite list_lookup_insert_ne by done. apply H5. lia. }
      destruct Hcase as [?|(Ho & Hsq & Ht1 & Ht2)]; [done|]. rewrite (H3 Hne) in *.
      rewrite (for_up_cell (stored (take r rs)) (stored (take r rs) + length l) _ (fun t i => aadd A t (sqdev mu (default vzero (l.*2 !! (i - stored (take r rs)))))) tmp r vzero).
      2:{ apply H4. lia. }
      2:{ intros i t b' Hi Ht. destruct (lookup_lt_is_Some_2 l.*2 (i - stored (take r rs))) as [v Hvv]; [rewrite fmap_length; lia|].
          rewrite (rd_Ok (bvals b) (base + i) v). 2:{ rewrite <- Hvv, <- Hv by lia. f_equal. lia. }
          cbn [obind]. rewrite (rd_Ok _ _ _ Ht). cbn [obind]. rewrite Hvv. apply wr_insert. by eapply lookup_lt_Some. }
      cbn [obind]. assert (Hrn : r < length tmp) by lia. erewrite rd_Ok by (by apply list_lookup_insert). cbn [obind].
      rewrite (foldl_reduce_g (aadd A) vzero HM (fun i => sqdev mu (default vzero (l.*2 !! (i - stored (take r rs)))))), (cm_id _ _ HM).
      replace (stored (take r rs) + length l - stored (take r rs)) with (length l) by lia.
      assert (Hlist : (fun i => sqdev mu (default vzero (l.*2 !! (i - stored (take r rs))))) <$> seq (stored (take r rs)) (length l) = sqdev mu <$> l.*2).
      { apply list_eq. intros i. rewrite !list_lookup_fmap. destruct (decide (i < length l)) as [Hi|Hi].
        - rewrite lookup_seq_lt by done. destruct (lookup_lt_is_Some_2 l i Hi) as [e He]. rewrite He. cbn [fmap option_fmap option_map]. f_equal. f_equal.
          replace (stored (take r rs) + i - stored (take r rs)) with i by lia. by rewrite list_lookup_fmap, He.
        - rewrite lookup_seq_ge by lia. rewrite (lookup_ge_None_2 l) by lia. done. }
      rewrite Hlist, Ht1. change (reduce (aadd A) vzero (sqdev mu <$> l.*2)) with (total A (sqdev mu <$> l.*2)). rewrite <- (total_pad l.*2 (m - length l) mu HM Hsq).
      assert (Hvar : adiv A (total A (sqdev mu <$> (l.*2 ++ replicate (m - length l) vzero))) m = variance A (row_cells m (cell rs) r)).
      { unfold variance. rewrite row_cells_length. f_equal. symmetry. apply (reduce_perm _ _ HM). apply fmap_Permutation. exact Hperm. }
      rewrite Hvar. rewrite wr_insert by (rewrite insert_length; lia). cbn [obind]. rewrite wr_insert by (rewrite insert_length; lia). cbn [obind]. eexists. split; [done|]. cbn [fst snd]. rewrite !insert_length.
      split; [done|]. split; [done|]. split; [intros _; symmetry; by apply stored_take_S|]. split.
      * intros r' Hr'. rewrite !list_lookup_insert_ne by lia. apply H4. lia.
      * intros r' Hr'. destruct (decide (r' = r)) as [->|Hn']; [|rewrite !list_lookup_insert_ne by done; apply H5; lia]. rewrite list_lookup_insert by (rewrite insert_length; lia). f_equal.
        destruct Ho as [->| ->]; by case_decide.
    + rewrite E. cbn [obind]. eexists. split; [done|]. by apply (col_dense res n (fun r => aggregate A o (row_cells m (cell rs) r))).
Qed.

(** ** Columns *)
Lemma fold_col_list (f : nat -> nat -> V -> V) n m (s : list V) : length s = m -> forall body : nat -> list V -> outcome (list V),
  (forall r s, 1 <= r < n -> length s = m -> body r s = Ok (imap (f r) s)) -> for_up 1 n body s = Ok (foldl (fun s r => imap (f r) s) s (seq 1 (n - 1))).
Proof.
  intros Hs body Hb. unfold for_up. remember (n - 1) as k eqn:Hk. assert (Hx : forall lo s, length s = m -> 1 <= lo -> lo + k = n \/ k = 0 -> forn k lo body s = Ok (foldl (fun s r => imap (f r) s) s (seq lo k))).
  { clear Hk Hs s. induction k as [|k IH]; intros lo s Hs Hlo Hk; [done|]. cbn [forn seq foldl]. rewrite Hb by lia. cbn [obind]. apply IH; [by rewrite imap_length|lia|lia]. }
  apply Hx; [done|lia|lia].
Qed.

Lemma aggCol_dense_spec o junk junk2 a n m x : fits A o -> is_dense a n m x -> n <> 0 -> length junk = m ->
  exists res, aggCol_dense A o junk junk2 a = Ok res /\ is_dense res 1 m (fun _ c => aggregate A o (col_cells n x c)).
Proof.
  intros Hf Hd Hn0 Hj. pose proof Hd as (Hn & Hm & _).
  assert (Hsum : forall op ne, comm_monoid op ne -> exists res, (let* res := for_up 0 m (fun c res => let* v := dm_at a 0 c in wr res c v) junk in
    for_up 1 n (fun r res => for_up 0 m (fun c res => let* x := rd res c in let* v := dm_at a r c in wr res c (op x v)) res) res) = Ok res /\ length res = m /\
    forall c, c < m -> res !! c = Some (reduce op ne (col_cells n x c))).
  { intros op ne HM. destruct (for_up_write m (fun c res => let* v := dm_at a 0 c in wr res c v) (fun c => x 0 c) junk Hj) as (res & E & Hl & Hr).
    { intros c b' Hc Hb'. by rewrite (dm_at_Ok _ _ _ _ _ _ Hd) by lia. }
    rewrite E. cbn [obind]. rewrite (fold_col_list (fun r c t => op t (x r c)) n m res Hl).
    - eexists. split; [done|]. split; [by rewrite foldl_imap_length|]. intros c Hc. rewrite (foldl_imap_lookup (fun r c t => op t (x r c))), Hr by done. cbn [fmap option_fmap option_map]. f_equal.
      rewrite (foldl_reduce_g op ne HM (fun r => x r c)). unfold col_cells. rewrite (seq_split_1 n Hn0), fmap_cons. done.
    - intros r s Hr' Hs'. apply for_up_modify; [done|]. intros c t b' Hc Hb' Ht. rewrite (rd_Ok _ _ _ Ht). cbn [obind]. rewrite (dm_at_Ok _ _ _ _ _ _ Hd) by lia. cbn [obind]. apply wr_insert. lia. }
  destruct (pure_cases o Hf) as [Hp|Hp].
  - destruct (pure_facts o Hf Hp) as (op & ne & safe & _ & Hb & _ & HM & _ & Ha & _). destruct (Hsum op ne HM) as (res & E & Hl & Hr).
    exists (mkDM res 0 1 m m). split; [|apply (row_dense res m (fun c => aggregate A o (col_cells n x c))); [done|]; intros c Hc; rewrite Ha; auto].
    destruct (for_up 0 m (fun c res => let* v := dm_at a 0 c in wr res c v) junk) as [r0| |] eqn:E0; try done. cbn [obind] in E.
    unfold aggCol_dense. rewrite Hn, Hm. destruct o; try done; cbn [obind isPure]; rewrite Hb; cbn [obind]; rewrite E0; cbn [obind]; rewrite E; done.
  - destruct (unpure_facts o Hf Hp) as (_ & _ & HM & Hcase). destruct (Hsum _ _ HM) as (res & E & Hl & Hr).
    destruct (for_up 0 m (fun c res => let* v := dm_at a 0 c in wr res c v) junk) as [r0| |] eqn:E0; try done. cbn [obind] in E.
    set (mu := fun c => mean A (col_cells n x c)).
    assert (Emean : for_up 0 m (fun c res => let* x := rd res c in wr res c (adiv A x n)) res = Ok (imap (fun _ t => adiv A t n) res)).
    { apply for_up_modify; [done|]. intros i t b Hi Hb Ht. rewrite (rd_Ok _ _ _ Ht). cbn [obind]. apply wr_insert. lia. }
    assert (Hmu : forall c, c < m -> imap (fun _ t => adiv A t n) res !! c = Some (mu c)).
    { intros c Hc. rewrite list_lookup_imap, Hr by done. cbn [fmap option_fmap option_map]. f_equal. unfold mu, mean. by rewrite col_cells_length. }
    set (res1 := imap (fun _ t => adiv A t n) res) in *. assert (Hl1 : length res1 = m) by (unfold res1; by rewrite imap_length).
    destruct Hcase as [->|(Ho & _)].
    { exists (mkDM res1 0 1 m m). split; [|by apply (row_dense res1 m mu)]. unfold aggCol_dense. rewrite Hn, Hm. cbn [isPure obind binop]. rewrite E0. cbn [obind]. rewrite E. cbn [obind]. rewrite Emean. done. }
    assert (Etmp : for2 n m (fun r c tmp => let* v := dm_at a r c in let* mean := rd res1 c in let val := asub A v mean in
      let* t := rd tmp c in wr tmp c (aadd A t (amul A val val))) (replicate m vzero) =
      Ok (foldl (fun s r => imap (fun c t => aadd A t (sqdev (mu c) (x r c))) s) (replicate m vzero) (seq 0 n))).
    { unfold for2. assert (Hx : forall k lo s, length s = m -> lo + k <= n -> forn k lo (fun r s => for_up 0 m (fun c tmp => let* v := dm_at a r c in let* mean := rd res1 c in let val := asub A v mean in
      let* t := rd tmp c in wr tmp c (aadd A t (amul A val val))) s) s = Ok (foldl (fun s r => imap (fun c t => aadd A t (sqdev (mu c) (x r c))) s) s (seq lo k))).
      { induction k as [|k IH]; intros lo s Hs Hlo; [done|]. cbn [forn seq foldl].
        rewrite (for_up_modify m _ (fun c t => aadd A t (sqdev (mu c) (x lo c))) s Hs); [cbn [obind]; apply IH; [by rewrite imap_length|lia]|].
        intros c t b' Hc Hb' Ht. rewrite (dm_at_Ok _ _ _ _ _ _ Hd) by lia. cbn [obind]. rewrite (rd_Ok res1 c (mu c)) by auto. cbn [obind]. rewrite (rd_Ok _ _ _ Ht). cbn [obind]. apply wr_insert. lia. }
      unfold for_up at 1. rewrite Nat.sub_0_r. apply Hx; [by rewrite replicate_length|lia]. }
    set (tmp := foldl _ (replicate m vzero) (seq 0 n)) in *. assert (Hlt : length tmp = m) by (unfold tmp; by rewrite foldl_imap_length, replicate_length).
    assert (Htmp : forall c, c < m -> tmp !! c = Some (total A (sqdev (mu c) <$> col_cells n x c))).
    { intros c Hc. unfold tmp. rewrite (foldl_imap_lookup (fun r c t => aadd A t (sqdev (mu c) (x r c)))), lookup_replicate_2 by done. cbn [fmap option_fmap option_map]. f_equal.
      rewrite (foldl_reduce_g (aadd A) vzero HM (fun r => sqdev (mu c) (x r c))), (cm_id _ _ HM). unfold col_cells. by rewrite <- list_fmap_compose. }
    assert (Efin : for_up 0 m (fun c tmp => let* t := rd tmp c in let t := adiv A t n in wr tmp c (if decide (o = STDDEV) then asqrt A t else t)) tmp =
      Ok (imap (fun c t => if decide (o = STDDEV) then asqrt A (adiv A t n) else adiv A t n) tmp)).
    { apply for_up_modify; [done|]. intros c t b' Hc Hb' Ht. rewrite (rd_Ok _ _ _ Ht). cbn [obind]. apply wr_insert. lia. }
    set (fin := imap _ tmp) in *. assert (Hlf : length fin = m) by (unfold fin; by rewrite imap_length).
    destruct (copy_range_spec res1 0 fin 0 m) as (res2 & E2 & Hl2 & H2 & _); [lia|lia|].
    exists (mkDM res2 0 1 m m). split.
    + cbv zeta in Etmp, Efin. unfold aggCol_dense. rewrite Hn, Hm. destruct Ho as [->| ->]; cbn [isPure obind binop]; rewrite E0; cbn [obind]; rewrite E; cbn [obind]; rewrite Emean; cbn [obind]; (rewrite decide_False by done); rewrite Etmp; cbn [obind]; rewrite Efin; cbn [obind]; rewrite E2; done.
    + apply (row_dense res2 m); [lia|]. intros c Hc. specialize (H2 c Hc). cbn [plus] in H2. rewrite H2. unfold fin. rewrite list_lookup_imap, Htmp by done. cbn [fmap option_fmap option_map]. f_equal.
      unfold aggregate, variance. rewrite col_cells_length. destruct Ho as [->| ->]; by case_decide.
Qed.

Lemma upd_cols_at {T} (f : nat -> T -> V -> T) es st c t : st !! c = Some t -> upd_cols f es st !! c = Some (foldl (f c) t (colvals c es)).
Proof. intros Ht. unfold upd_cols. by rewrite list_lookup_imap, Ht. Qed.
Lemma foldl_count k (l : list V) : foldl (fun k (_ : V) => k + 1) k l = k + length l.
Proof. revert k. induction l as [|v l IH]; intros k; cbn [foldl length]; [lia|]. rewrite IH. lia. Qed.
Lemma foldl_last k (v : V) (l : list V) : length l <= 1 -> foldl (fun (_ : V) v => v) k l = match l with [] => k | v :: _ => v end.
Proof. destruct l as [|a [|b l]]; cbn; [done|done|lia]. Qed.
Lemma rs_cols m (rs : list (row V)) : Forall (row_ok m) rs -> Forall (fun e : nat * V => fst e < m) (concat rs).
Proof. intros Hok. apply Forall_concat. eapply Forall_impl; [exact Hok|]. intros l [_ Hf]. by apply Forall_fmap in Hf. Qed.

Lemma aggCol_csr_spec o b h rs : fits A o -> shows b h rs -> h_rows h <> 0 ->
  exists res, aggCol_csr A o b h = Ok res /\ is_dense res 1 (h_cols h) (fun _ c => aggregate A o (col_cells (h_rows h) (cell rs) c)).
Proof.
  intros Hf Hs Hn0. destruct (shows_reads _ _ _ Hs) as (base & HR & _). pose proof (rd_ok _ _ _ _ HR) as Hok. pose proof (rd_rows _ _ _ _ HR) as Hlen.
  set (n := h_rows h) in *. set (m := h_cols h) in *.
  assert (Hoff : roff b h 0 = Ok base). { rewrite (rd_off _ _ _ _ HR) by lia. change (stored (take 0 rs)) with 0. by rewrite Nat.add_0_r. }
  assert (Hent : forall i e, concat rs !! i = Some e -> rd (bcols b) (base + i) = Ok (fst e) /\ rd (bvals b) (base + i) = Ok (snd e)).
  { intros i e He. assert (Hi : i < stored rs) by (by eapply lookup_lt_Some). split; apply rd_Ok; [rewrite (rd_cols _ _ _ _ HR) by done|rewrite (rd_vals _ _ _ _ HR) by done]; by rewrite list_lookup_fmap, He. }
  pose proof (fun c => col_cells_perm n m rs c Hlen Hok) as Hperm. pose proof (rs_cols m rs Hok) as Hcols.
  set (es := concat rs) in *. set (N := fun c => length (colvals c es)).
  assert (HN : forall c, N c <= n). { intros c. specialize (Hperm c). apply Permutation_length in Hperm. rewrite col_cells_length, app_length in Hperm. unfold N. lia. }
  (* the first part: the reduction of every column *)
  set (part1 := fun (op : V -> V -> V) (safe : bool) =>
    let step := (fun i res => let* c := rd (bcols b) (base + i) in let* x := rd res c in let* v := rd (bvals b) (base + i) in wr res c (op x v)) in
    if (safe : bool) then for_up 0 (stored rs) step (replicate m vzero)
     else
       let* nnz0 := csr_row_nnz b h 0 in
       let* (res, hist) := for_up 0 nnz0 (fun i st => let '(res, hist) := st in
         let* c := rd (bcols b) (base + i) in let* v := rd (bvals b) (base + i) in let* res := wr res c v in
         let* k := rd hist c in let* hist := wr hist c (k + 1) in Ok (res, hist)) (replicate m vzero, replicate m 0) in
       if decide (1 < n) then
         let* (res, hist) := for_up nnz0 (stored rs) (fun i st => let '(res, hist) := st in
           let* c := rd (bcols b) (base + i) in let* res := step i res in
           let* k := rd hist c in let* hist := wr hist c (k + 1) in Ok (res, hist)) (res, hist) in
         for_up 0 m (fun c res => let* k := rd hist c in
           if decide (k < n) then let* x := rd res c in wr res c (op x vzero) else Ok res) res
       else Ok res).
  assert (Hpart1 : forall op ne (safe : bool), comm_monoid op ne -> (safe = true -> ne = vzero) -> op vzero vzero = vzero ->
    exists res, part1 op safe = Ok res /\ length res = m /\ forall c, c < m -> res !! c = Some (reduce op ne (col_cells n (cell rs) c))).
  { intros op ne safe HM Hsafe Hzz. unfold part1. destruct safe.
    - rewrite (for_up_ofold _ (fun e res => let* x := rd res (fst e) in wr res (fst e) (op x (snd e))) es 0 (stored rs)).
      2:{ done. }
      2:{ intros i e st He. destruct (Hent i e He) as [H1 H2]. cbn [plus]. rewrite H1, H2. done. }
      rewrite (ofold_upd_cols _ es (fun _ t v => op t v) (replicate m vzero) (fun st => st)).
      + eexists. split; [done|]. rewrite upd_cols_length, replicate_length. split; [done|]. intros c Hc. erewrite upd_cols_at by (by apply lookup_replicate_2). f_equal.
        rewrite (foldl_reduce op ne HM). rewrite (reduce_perm op ne HM _ _ (Hperm c)), (reduce_app op ne HM). rewrite (Hsafe eq_refl) in *.
        rewrite reduce_zeros_safe by apply HM. rewrite (cm_comm _ _ HM). done.
      + rewrite replicate_length. done.
      + intros c v t st' Hl Ht. cbn [fst snd]. rewrite (rd_Ok _ _ _ Ht). cbn [obind]. apply wr_insert. by eapply lookup_lt_Some.
    - assert (Hex : exists l0 rs', rs = l0 :: rs') by (destruct rs as [|l0 rs']; [cbn in Hlen; lia|by exists l0, rs']). destruct Hex as (l0 & rs' & Ers). assert (Hl0 : rs !! 0 = Some l0) by (by rewrite Ers).
      rewrite (reads_row_nnz _ _ _ _ _ _ HR Hl0). cbn [obind].
      assert (Ees : es = l0 ++ concat rs') by (unfold es; rewrite Ers; done).
      assert (Hok0 : row_ok m l0) by (rewrite Forall_lookup in Hok; by apply (Hok 0)).
      assert (Hc1 : forall c, length (colvals c l0) <= 1). { intros c. rewrite (colvals_row m c l0 Hok0). destruct (find_col c l0); cbn; lia. }
      rewrite Ees in Hcols. apply Forall_app in Hcols as [Hcols0 Hcols1].
      rewrite (for_up_ofold _ (fun e st => let '(res, hist) := st in let* res := wr res (fst e) (snd e) in let* k := rd hist (fst e) in let* hist := wr hist (fst e) (k + 1) in Ok (res, hist)) l0 0 (length l0)).
      2:{ done. }
      2:{ intros i e [r1 h1] He. destruct (Hent i e) as [H1 H2]; [rewrite Ees; by apply lookup_app_l_Some|]. cbn [plus]. rewrite H1, H2. done. }
      rewrite (ofold_upd_cols2 _ l0 (fun _ _ v => v) (fun _ k _ => k + 1) (replicate m vzero) (replicate m 0)).
      2:{ by rewrite !replicate_length. }
      2:{ by rewrite replicate_length. }
      2:{ intros c v t u s s2 Hs1 Hs2 Ht Hu. cbn [fst snd]. rewrite wr_insert by (by eapply lookup_lt_Some). cbn [obind]. rewrite (rd_Ok _ _ _ Hu). cbn [obind]. rewrite wr_insert by (by eapply lookup_lt_Some). done. }
      cbn [obind].
      assert (Hr1 : forall c, c < m -> upd_cols (fun _ _ v => v) l0 (replicate m vzero) !! c = Some (cell_in c l0)).
      { intros c Hc. erewrite upd_cols_at by (by apply lookup_replicate_2). f_equal. rewrite foldl_last by done. rewrite (colvals_row m c l0 Hok0), cell_in_find. by destruct (find_col c l0). }
      assert (Hcell : forall c, col_cells n (cell rs) c = cell_in c l0 :: ((fun r => cell rs r c) <$> seq 1 (n - 1))).
      { intros c. unfold col_cells. rewrite (seq_split_1 n Hn0), fmap_cons. f_equal. unfold cell. by rewrite Hl0. }
      destruct (decide (1 < n)) as [Hn1|Hn1].
      + rewrite (for_up_ofold _ (fun e st => let '(res, hist) := st in let* res := (let* x := rd res (fst e) in wr res (fst e) (op x (snd e))) in let* k := rd hist (fst e) in let* hist := wr hist (fst e) (k + 1) in Ok (res, hist)) (concat rs') (length l0) (stored rs)).
        2:{ rewrite Ers. unfold stored. cbn [concat]. apply app_length. }
        2:{ intros i e [r1 h1] He. destruct (Hent (length l0 + i) e) as [H1 H2]; [rewrite Ees, lookup_app_r by lia; rewrite <- He; f_equal; lia|]. rewrite H1, H2. done. }
        rewrite (ofold_upd_cols2 _ (concat rs') (fun _ t v => op t v) (fun _ k _ => k + 1)).
        2:{ by rewrite !upd_cols_length, !replicate_length. }
        2:{ by rewrite upd_cols_length, replicate_length. }
        2:{ intros c v t u s s2 Hs1 Hs2 Ht Hu. cbn [fst snd]. rewrite (rd_Ok _ _ _ Ht). cbn [obind]. rewrite wr_insert by (by eapply lookup_lt_Some). cbn [obind]. rewrite (rd_Ok _ _ _ Hu). cbn [obind]. rewrite wr_insert by (by eapply lookup_lt_Some). done. }
        cbn [obind].
        assert (Hh : forall c, c < m -> upd_cols (fun _ k (_ : V) => k + 1) (concat rs') (upd_cols (fun _ k (_ : V) => k + 1) l0 (replicate m 0)) !! c = Some (N c)).
        { intros c Hc. rewrite upd_cols_app, <- Ees. erewrite upd_cols_at by (by apply lookup_replicate_2). f_equal. by rewrite foldl_count. }
        rewrite (for_up_modify m _ (fun c t => if decide (N c < n) then op t vzero else t)).
        2:{ by rewrite !upd_cols_length, replicate_length. }
        2:{ intros c t b' Hc Hb' Ht. rewrite (rd_Ok _ _ _ (Hh c Hc)). cbn [obind]. destruct (decide (N c < n)); [rewrite (rd_Ok _ _ _ Ht); cbn [obind]; apply wr_insert; lia|]. by rewrite list_insert_id. }
        eexists. split; [done|]. rewrite imap_length, !upd_cols_length, replicate_length. split; [done|]. intros c Hc. rewrite list_lookup_imap.
        erewrite upd_cols_at by (by apply Hr1). cbn [fmap option_fmap option_map]. f_equal. rewrite (foldl_reduce op ne HM).
        rewrite (reduce_perm op ne HM _ _ (Hperm c)), (reduce_app op ne HM). fold (N c). rewrite Ees, colvals_app, (reduce_app op ne HM), (colvals_row m c l0 Hok0), cell_in_find.
        destruct (find_col c l0) as [v|] eqn:Hfc; cbn [from_option id]; unfold id.
        * rewrite (reduce_one op ne HM). case_decide as Hk; [rewrite (reduce_zeros op ne HM) by (done || lia); done|]. replace (n - N c) with 0 by lia. cbn [replicate reduce foldr]. by rewrite (cm_comm _ _ HM _ ne), (cm_id _ _ HM).
        * assert (Hlt : N c < n).
          { unfold N. rewrite Ees, colvals_app, app_length, (colvals_row m c l0 Hok0), Hfc. cbn [length plus].
            assert (Hok' : Forall (row_ok m) rs') by (rewrite Ers in Hok; by apply Forall_cons in Hok as [_ ?]).
            rewrite (colvals_omap m c rs' Hok'). assert (Hx : forall L : list nat, length (omap (fun r => colG rs' c r) L) <= length L).
            { induction L as [|q L IH]; [done|]. cbn [omap list_omap]. destruct (colG rs' c q); cbn [length]; lia. }
            specialize (Hx (seq 0 (length rs'))). rewrite seq_length in Hx. rewrite Ers in Hlen. cbn [length] in Hlen. lia. }
          rewrite decide_True by done. rewrite (reduce_zeros op ne HM) by (done || lia). cbn [reduce foldr]. change (foldr op ne (colvals c (concat rs'))) with (reduce op ne (colvals c (concat rs'))).
          rewrite (cm_id _ _ HM). rewrite (cm_comm _ _ HM vzero). rewrite <- (cm_assoc _ _ HM), Hzz. done.
      + eexists. split; [done|]. rewrite upd_cols_length, replicate_length. split; [done|]. intros c Hc. rewrite Hr1 by done. f_equal. rewrite Hcell. replace (n - 1) with 0 by lia. cbn [seq fmap list_fmap reduce foldr].
        by rewrite (cm_comm _ _ HM _ ne), (cm_id _ _ HM). }
  destruct (pure_cases o Hf) as [Hp|Hp].
  - destruct (pure_facts o Hf Hp) as (op & ne & safe & _ & Hb & Hne & HM & Hsafe & Ha & _ & Hzz).
    destruct (Hpart1 op ne safe HM) as (res & E & Hl & Hr); [destruct o; by inversion Hsafe; subst; try done; inversion Hne|done|].
    exists (mkDM res 0 1 m m). split; [|apply (row_dense res m (fun c => aggregate A o (col_cells n (cell rs) c))); [done|]; intros c Hc; rewrite Ha; auto].
    unfold aggCol_csr. fold n m. rewrite Hp. cbn [obind]. rewrite Hb. cbn [obind]. rewrite Hoff. cbn [obind]. rewrite (reads_nnz _ _ _ _ HR). cbn [obind]. rewrite Hsafe. cbn [obind].
    unfold part1 in E. cbv zeta in E |- *. rewrite E. done.
  - destruct (unpure_facts o Hf Hp) as (Hsafe & _ & HM & Hcase).
    destruct (Hpart1 (aadd A) vzero false HM) as (res & E & Hl & Hr); [done|apply HM|].
    set (mu := fun c => mean A (col_cells n (cell rs) c)).
    assert (Emean : for_up 0 m (fun c res => let* x := rd res c in wr res c (adiv A x n)) res = Ok (imap (fun _ t => adiv A t n) res)).
    { apply for_up_modify; [done|]. intros i t b' Hi Hb Ht. rewrite (rd_Ok _ _ _ Ht). cbn [obind]. apply wr_insert. lia. }
    assert (Hmu : forall c, c < m -> imap (fun _ t => adiv A t n) res !! c = Some (mu c)).
    { intros c Hc. rewrite list_lookup_imap, Hr by done. cbn [fmap option_fmap option_map]. f_equal. unfold mu, mean. by rewrite col_cells_length. }
    set (res1 := imap (fun _ t => adiv A t n) res) in *. assert (Hl1 : length res1 = m) by (unfold res1; by rewrite imap_length).
    unfold aggCol_csr. fold n m. rewrite Hp. cbn [obind binop]. rewrite Hoff. cbn [obind]. rewrite (reads_nnz _ _ _ _ HR). cbn [obind]. rewrite Hsafe. cbn [obind].
    unfold part1 in E. cbv zeta in E |- *. rewrite E. cbn [obind]. rewrite Emean. cbn [obind].
    destruct (decide (o = MEAN)) as [->|Hne].
    { eexists. split; [done|]. by apply (row_dense res1 m mu). }
    destruct Hcase as [?|(Ho & Hsq & Ht1 & Ht2)]; [done|].
    rewrite (for_up_ofold _ (fun e st => let '(tmp, cnt) := st in let* mean := rd res1 (fst e) in let* t := rd tmp (fst e) in let* tmp := wr tmp (fst e) (aadd A t (sqdev mean (snd e))) in
      let* k := rd cnt (fst e) in let* cnt := wr cnt (fst e) (k + 1) in Ok (tmp, cnt)) es 0 (stored rs)).
    2:{ done. }
    2:{ intros i e [r1 h1] He. destruct (Hent i e He) as [H1 H2]. cbn [plus]. rewrite H1, H2. done. }
    rewrite (ofold_upd_cols2 _ es (fun c t v => aadd A t (sqdev (mu c) v)) (fun _ k _ => k + 1) (replicate m vzero) (replicate m 0)).
    2:{ by rewrite !replicate_length. }
    2:{ by rewrite replicate_length. }
    2:{ intros c v t u s s2 Hs1 Hs2 Ht Hu. cbn [fst snd]. assert (Hc : c < m) by (apply lookup_lt_Some in Ht; rewrite Hs1, replicate_length in Ht; done). rewrite (rd_Ok _ _ _ (Hmu c Hc)). cbn [obind].
        rewrite (rd_Ok _ _ _ Ht). cbn [obind]. rewrite wr_insert by (by eapply lookup_lt_Some). cbn [obind]. rewrite (rd_Ok _ _ _ Hu). cbn [obind]. rewrite wr_insert by (by eapply lookup_lt_Some). done. }
    cbn [obind].
    assert (Hcnt : forall c, c < m -> upd_cols (fun _ k (_ : V) => k + 1) es (replicate m 0) !! c = Some (N c)).
    { intros c Hc. erewrite upd_cols_at by (by apply lookup_replicate_2). f_equal. by rewrite foldl_count. }
    set (cnt := upd_cols (fun _ k (_ : V) => k + 1) es (replicate m 0)) in *.
    rewrite (for_up_modify m _ (fun c t => let t := adiv A (aadd A t (times A (n - N c) (amul A (mu c) (mu c)))) n in if decide (o = STDDEV) then asqrt A t else t)).
    2:{ by rewrite upd_cols_length, replicate_length. }
    2:{ intros c t b' Hc Hb' Ht. rewrite (rd_Ok _ _ _ Ht). cbn [obind]. rewrite (rd_Ok _ _ _ (Hmu c Hc)). cbn [obind]. rewrite (rd_Ok _ _ _ (Hcnt c Hc)). cbn [obind]. rewrite Ht2. apply wr_insert. lia. }
    cbn [obind]. set (fin := imap _ (upd_cols _ es (replicate m vzero))). assert (Hlf : length fin = m) by (unfold fin; by rewrite imap_length, upd_cols_length, replicate_length).
    destruct (copy_range_spec res1 0 fin 0 m) as (res2 & E2 & Hl2 & H2 & _); [lia|lia|]. rewrite E2. cbn [obind]. eexists. split; [done|].
    apply (row_dense res2 m); [lia|]. intros c Hc. specialize (H2 c Hc). cbn [plus] in H2. rewrite H2. unfold fin. rewrite list_lookup_imap. erewrite upd_cols_at by (by apply lookup_replicate_2). cbn [fmap option_fmap option_map]. f_equal.
    cbv zeta. rewrite (foldl_reduce_g (aadd A) vzero HM (sqdev (mu c))), (cm_id _ _ HM).
    change (reduce (aadd A) vzero (sqdev (mu c) <$> colvals c es)) with (total A (sqdev (mu c) <$> colvals c es)). rewrite <- (total_pad (colvals c es) (n - N c) (mu c) HM Hsq).
    assert (Hvar : adiv A (total A (sqdev (mu c) <$> (colvals c es ++ replicate (n - N c) vzero))) n = variance A (col_cells n (cell rs) c)).
    { unfold variance. rewrite col_cells_length. f_equal. symmetry. apply (reduce_perm _ _ HM). apply fmap_Permutation. apply Hperm. }
    rewrite Hvar. destruct Ho as [->| ->]; by case_decide.
Qed.

(** ** Positions of the best value *)
Section best.
Variable better : V -> V -> bool.
Hypothesis HW : weak_order better.
Definition scan_step (g : nat -> V) (st : V * nat) (i : nat) : V * nat := if better (g i) (fst st) then (g i, i) else st.
Definition scan_inv (g : nat -> V) (k : nat) (st : V * nat) : Prop :=
  snd st < k /\ fst st = g (snd st) /\ (forall j, j < k -> better (g j) (fst st) = false) /\ (forall j, j < snd st -> better (fst st) (g j) = true).
Lemma scan_inv_step g k st : scan_inv g k st -> scan_inv g (S k) (scan_step g st k).
Proof.
  destruct HW as [Has Hco]. intros (H1 & H2 & H3 & H4). unfold scan_step. destruct (better (g k) (fst st)) eqn:Hb; unfold scan_inv; cbn [fst snd].
  - split; [lia|]. split; [done|]. split.
    + intros j Hj. destruct (better (g j) (g k)) eqn:Hjk; [|done]. destruct (decide (j = k)) as [->|Hne]; [by rewrite (Has _ _ Hjk) in Hjk|].
      destruct (Hco _ _ (fst st) Hjk) as [Hx|Hx]; [rewrite (H3 j) in Hx by lia; done|]. by rewrite (Has _ _ Hx) in Hb.
    + intros j Hj. destruct (Hco _ _ (g j) Hb) as [Hx|Hx]; [done|]. by rewrite (H3 j) in Hx by lia.
  - split; [lia|]. split; [done|]. split; [|done]. intros j Hj. destruct (decide (j = k)) as [->|Hne]; [done|]. apply H3. lia.
Qed.
Lemma scan_inv_init g : scan_inv g 1 (g 0, 0).
Proof.
  unfold scan_inv. cbn [fst snd]. split; [lia|]. split; [done|]. split; [|intros; lia]. intros j Hj. assert (j = 0) by lia. subst. destruct (better (g 0) (g 0)) eqn:Hb; [|done]. by rewrite (proj1 HW _ _ Hb) in Hb.
Qed.
Lemma scan_inv_best g k st : scan_inv g k st -> first_best better (g <$> seq 0 k) (snd st).
Proof.
  intros (H1 & H2 & H3 & H4). exists (fst st). split; [rewrite (lookup_fseq g) by done; by rewrite H2|]. split.
  - intros j w Hw. assert (Hj : j < k) by (apply lookup_lt_Some in Hw; by rewrite fmap_length, seq_length in Hw). rewrite (lookup_fseq g) in Hw by done. injection Hw as <-. auto.
  - intros j w Hj Hw. rewrite (lookup_fseq g) in Hw by lia. injection Hw as <-. auto.
Qed.
End best.

Lemma aggRow_idx_spec o junk a n m x : o = IDXMIN \/ o = IDXMAX -> weak_order (better_of A o) -> is_dense a n m x -> m <> 0 -> length junk = n ->
  exists res pos, aggRow_dense A o junk a = Ok res /\ is_dense res n 1 (fun r _ => aofnat A (pos r)) /\ forall r, r < n -> first_best (better_of A o) (row_cells m x r) (pos r).
Proof.
  intros Ho HW Hd Hm0 Hj. pose proof Hd as (Hn & Hm & _). set (bt := better_of A o) in *.
  set (pos := fun r => snd (foldl (scan_step bt (fun c => x r c)) (x r 0, 0) (seq 1 (m - 1)))).
  destruct (for_up_write n (fun r res =>
      let* v0 := dm_at a r 0 in
      let* (_, best) := for_up 1 m (fun c st => let '(bv, bi) := st in
        let* v := dm_at a r c in Ok (if bt v bv then (v, c) else (bv, bi))) (v0, 0) in
      wr res r (aofnat A best)) (fun r => aofnat A (pos r)) junk Hj) as (res & E & Hl & Hr).
  - intros r b' Hr Hb'. rewrite (dm_at_Ok _ _ _ _ _ _ Hd) by lia. cbn [obind]. rewrite (for_up_foldl 1 m _ (scan_step bt (fun c => x r c)) (fun c => c)).
    + rewrite list_fmap_id. cbn [obind]. unfold pos. by destruct (foldl _ _ _).
    + intros c [bv bi] Hc. rewrite (dm_at_Ok _ _ _ _ _ _ Hd) by lia. cbn [obind]. unfold scan_step. cbn [fst]. done.
  - exists (mkDM res 0 n 1 1), pos. split; [|split; [by apply (col_dense res n (fun r => aofnat A (pos r)))|]].
    + unfold aggRow_dense. rewrite Hn, Hm. unfold bt, better_of in E. destruct Ho as [->| ->]; rewrite E; done.
    + intros r Hrn. apply scan_inv_best. replace m with (1 + (m - 1)) at 1 by lia. 
      assert (Hx : forall k lo st, scan_inv bt (fun c => x r c) lo st -> scan_inv bt (fun c => x r c) (lo + k) (foldl (scan_step bt (fun c => x r c)) st (seq lo k))).
      { induction k as [|k IH]; intros lo st Hst; [by rewrite Nat.add_0_r|]. cbn [seq foldl]. replace (lo + S k) with (S lo + k) by lia. apply IH. by apply scan_inv_step. }
      apply Hx. by apply (scan_inv_init bt HW (fun c => x r c)).
Qed.

Lemma aggCol_idx_spec o junk junk2 a n m x : o = IDXMIN \/ o = IDXMAX -> weak_order (better_of A o) -> aofnat A 0 = vzero -> is_dense a n m x -> n <> 0 -> length junk = m -> length junk2 = m ->
  exists res pos, aggCol_dense A o junk junk2 a = Ok res /\ is_dense res 1 m (fun _ c => aofnat A (pos c)) /\ forall c, c < m -> first_best (better_of A o) (col_cells n x c) (pos c).
Proof.
  intros Ho HW Hz Hd Hn0 Hj Hj2. pose proof Hd as (Hn & Hm & Hsk & Hsz & Hx). set (bt := better_of A o) in *.
  destruct (copy_range_spec junk2 0 (m_buf a) (m_off a) m) as (tmp0 & E0 & Hlt0 & Ht0 & _); [lia| |].
  { destruct Hsz as [?|Hsz]; [done|]. revert Hsz. generalize ((n - 1) * m_skip a). lia. }
  destruct (for_up_write m (fun c res => wr res c vzero) (fun _ => vzero) junk Hj) as (res0 & E1 & Hlr0 & Hr0); [done|].
  match type of E1 with ?t = _ => set (loop1 := t) in * end.
  set (body := fun (r : nat) (st : list V * list V) => for_up 0 m (fun c st => let '(tmp, res) := st in
      let* v := dm_at a r c in let* t := rd tmp c in
      if bt v t then
        let* tmp := wr tmp c v in let* res := wr res c (aofnat A r) in Ok (tmp, res)
      else Ok (tmp, res)) st).
  set (P := fun k (st : list V * list V) => length (fst st) = m /\ length (snd st) = m /\ forall c, c < m -> exists s, fst st !! c = Some (fst s) /\ snd st !! c = Some (aofnat A (snd s)) /\ scan_inv bt (fun r => x r c) k s).
  destruct (for_up_inv P 1 n body (tmp0, res0)) as ([tmp res] & E2 & _ & Hl & Hres).
  - lia.
  - unfold P. cbn [fst snd]. split; [lia|]. split; [lia|]. intros c Hc. exists (x 0 c, 0). cbn [fst snd]. split; [|split; [|by apply (scan_inv_init bt HW (fun r => x r c))]].
    + specialize (Ht0 c Hc). cbn [plus] in Ht0. rewrite Ht0. rewrite <- (Hx 0 c) by lia. f_equal. lia.
    + rewrite Hr0 by done. by rewrite Hz.
  - intros r st Hr HP. unfold body.
    destruct (for_up_inv (fun j (st : list V * list V) => length (fst st) = m /\ length (snd st) = m /\ forall c, c < m -> exists s, fst st !! c = Some (fst s) /\ snd st !! c = Some (aofnat A (snd s)) /\
      scan_inv bt (fun r => x r c) (if decide (c < j) then S r else r) s) 0 m (fun c st => let '(tmp, res) := st in
      let* v := dm_at a r c in let* t := rd tmp c in
      if bt v t then
        let* tmp := wr tmp c v in let* res := wr res c (aofnat A r) in Ok (tmp, res)
      else Ok (tmp, res)) st) as (st' & E & H1 & H2 & H3).
    + lia.
    + destruct HP as (H1 & H2 & H3). split; [done|]. split; [done|]. intros c Hc. rewrite decide_False by lia. auto.
    + intros j [t1 r1] Hjm (H1 & H2 & H3). cbn [fst snd] in *. rewrite (dm_at_Ok _ _ _ _ _ _ Hd) by lia. cbn [obind]. destruct (H3 j) as (s & Hs1 & Hs2 & Hs3); [lia|]. rewrite decide_False in Hs3 by lia.
      rewrite (rd_Ok _ _ _ Hs1). cbn [obind]. pose proof (scan_inv_step bt HW _ _ _ Hs3) as Hs4. unfold scan_step in Hs4. destruct (bt (x r j) (fst s)) eqn:Hb.
      * rewrite wr_insert by lia. cbn [obind]. rewrite wr_insert by lia. cbn [obind]. eexists. split; [done|]. cbn [fst snd]. rewrite !insert_length. split; [done|]. split; [done|]. intros c Hc.
        destruct (decide (c = j)) as [->|Hne].
        -- exists (x r j, r). cbn [fst snd]. rewrite !list_lookup_insert by lia. rewrite decide_True by lia. done.
        -- rewrite !list_lookup_insert_ne by done. destruct (H3 c Hc) as (s' & ? & ? & Hs'). exists s'. split; [done|]. split; [done|]. destruct (decide (c < j)), (decide (c < 1 + j)); (done || lia).
      * eexists. split; [done|]. cbn [fst snd]. split; [done|]. split; [done|]. intros c Hc. destruct (decide (c = j)) as [->|Hne].
        -- exists s. rewrite decide_True by lia. done.
        -- destruct (H3 c Hc) as (s' & ? & ? & Hs'). exists s'. split; [done|]. split; [done|]. destruct (decide (c < j)), (decide (c < 1 + j)); (done || lia).
    + exists st'. split; [done|]. unfold P. split; [done|]. split; [done|]. intros c Hc. destruct (H3 c Hc) as (s & ? & ? & Hs). rewrite decide_True in Hs by done. exists s. done.
  - assert (Hn1 : 1 <= n) by lia. cbn [fst snd] in *. 
    assert (Hchoice : exists pos, forall c, c < m -> res !! c = Some (aofnat A (pos c)) /\ first_best bt (col_cells n x c) (pos c)).
    { assert (Hk : forall k, k <= m -> exists pos, forall c, c < k -> res !! c = Some (aofnat A (pos c)) /\ first_best bt (col_cells n x c) (pos c)).
      { induction k as [|k IH]; intros Hk; [exists (fun _ => 0); intros; lia|]. destruct IH as (pos & Hpos); [lia|]. destruct (Hres k) as (s & _ & Hs2 & Hs3); [lia|].
        exists (fun c => if decide (c = k) then snd s else pos c). intros c Hc. destruct (decide (c = k)) as [->|Hne]; [|apply Hpos; lia]. split; [done|]. by apply (scan_inv_best bt (fun r => x r k)). }
      by apply Hk. }
    destruct Hchoice as (pos & Hpos). exists (mkDM res 0 1 m m), pos. split; [|split; [apply (row_dense res m (fun c => aofnat A (pos c))); [done|]; intros c Hc; by apply Hpos|intros c Hc; by apply Hpos]].
    unfold aggCol_dense. rewrite Hn, Hm. unfold body, bt, better_of in E2. destruct Ho as [->| ->]; rewrite E0; cbn [obind]; fold loop1; rewrite E1; cbn [obind]; rewrite E2; done.
Qed.

(** ** Cumulative aggregation *)
Lemma aggCum_dense_spec o junk a n m x : fits A o -> isPure o = Ok true -> is_dense a n m x -> n <> 0 -> length junk = n * m ->
  exists res, aggCum_dense A o junk a = Ok res /\ is_dense res n m (fun r c => aggregate A o (col_cells (S r) x c)).
Proof.
  intros Hf Hp Hd Hn0 Hj. pose proof Hd as (Hn & Hm & _). destruct (pure_facts o Hf Hp) as (op & ne & safe & _ & Hb & _ & HM & _ & Ha & _).
  unfold aggCum_dense. rewrite Hn, Hm, Hp. cbn [obind negb]. rewrite Hb. cbn [obind].
  set (G := fun r c => reduce op ne (col_cells (S r) x c)).
  assert (HG0 : forall c, G 0 c = x 0 c). { intros c. unfold G, col_cells. cbn. by rewrite (cm_comm _ _ HM), (cm_id _ _ HM). }
  assert (HGS : forall r c, G (S r) c = op (G r c) (x (S r) c)).
  { intros r c. unfold G, col_cells. rewrite (seq_S (S r)), fmap_app, (reduce_app op ne HM). f_equal. cbn. by rewrite (cm_comm _ _ HM), (cm_id _ _ HM). }
  match goal with |- context [for_up 0 m ?f junk] => destruct (for_up_inv (fun i b => length b = n * m /\ forall c, c < i -> b !! c = Some (x 0 c)) 0 m f junk) as (res0 & E0 & Hl0 & H0) end.
  - lia.
  - split; [done|]. intros; lia.
  - intros c b' Hc (Hl & Hv). rewrite (dm_at_Ok _ _ _ _ _ _ Hd) by lia. cbn [obind]. assert (Hlt : c < n * m) by nia. rewrite wr_insert by lia. eexists. split; [done|]. rewrite insert_length. split; [done|].
    intros c' Hc'. destruct (decide (c' = c)) as [->|Hne]; [by rewrite list_lookup_insert by lia|]. rewrite list_lookup_insert_ne by done. apply Hv. lia.
  - rewrite E0. cbn [obind].
    match goal with |- context [for_up 1 n ?f res0] => destruct (for_up_inv (fun i b => length b = n * m /\ forall r c, r < i -> c < m -> b !! (r * m + c) = Some (G r c)) 1 n f res0) as (res & E & Hl & H1) end.
    + lia.
    + split; [done|]. intros r c Hr Hc. assert (r = 0) by lia. subst. cbn [Nat.mul plus]. rewrite H0 by done. by rewrite HG0.
    + intros r b Hr (Hl & Hv).
      match goal with |- context [for_up 0 m ?f b] => destruct (for_up_inv (fun i b' => length b' = n * m /\ (forall r' c, r' < r -> c < m -> b' !! (r' * m + c) = Some (G r' c)) /\ forall c, c < i -> b' !! (r * m + c) = Some (G r c)) 0 m f b) as (b' & E & Hl' & H1 & H2) end.
      * lia.
      * split; [done|]. split; [done|]. intros; lia.
      * intros c b' Hc (Hl' & H1 & H2). rewrite (rd_Ok b' ((r - 1) * m + c) (G (r - 1) c)) by (apply H1; lia). cbn [obind]. rewrite (dm_at_Ok _ _ _ _ _ _ Hd) by lia. cbn [obind].
        assert (Hlt : r * m + c < n * m) by (apply pos_lt; lia). rewrite wr_insert by lia. eexists. split; [done|]. rewrite insert_length. split; [done|]. split.
        -- intros r' c' Hr' Hc'. rewrite list_lookup_insert_ne; [by apply H1|]. intros Heq. apply pos_inj in Heq as [? _]; lia.
        -- intros c' Hc'. destruct (decide (c' = c)) as [->|Hne]; [|rewrite list_lookup_insert_ne by lia; apply H2; lia]. rewrite list_lookup_insert by lia. f_equal.
           destruct r as [|r]; [lia|]. rewrite HGS. by replace (S r - 1) with r by lia.
      * exists b'. split; [done|]. split; [done|]. intros r' c Hr' Hc. destruct (decide (r' = r)) as [->|Hne]; [by apply H2|]. apply H1; [lia|done].
    + rewrite E. cbn [obind]. eexists. split; [done|]. apply tabulated_is_dense. split; [done|]. intros r c Hr Hc. rewrite Ha. by apply H1.
Qed.
End kernels.
