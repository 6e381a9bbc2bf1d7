(** Proofs about the matrix multiplication kernels. *)
From stdpp Require Import base numbers sorting list list_numbers.
From Coq Require Import Lia.
From Verif Require Import CppBase Mem DenseModel DenseSpec DenseProofs CSRModel CSRSpec CSRProofs CSRView SinkSpec SinkProofs SparseLoops AggModel AggSpec AggProofs TransposeProofs MatMulModel MatMulSpec.

Section mm.
Context {V : Type} `{Val V} (A : arith V).
Local Notation "x +' y" := (aadd A x y) (at level 50, left associativity).
Local Notation "x *' y" := (amul A x y) (at level 40, left associativity).

Lemma cell_in_out c (l : row V) : c ∉ l.*1 -> cell_in c l = vzero.
Proof. intros Hn. rewrite cell_in_find. by apply find_col_None in Hn as ->. Qed.

(** Summing over the entries of a row is summing over all columns. *)
Lemma sum_entries (y : nat -> V) (l : row V) : zero_laws A -> forall a k s, StronglySorted lt l.*1 -> Forall (fun c => a <= c < a + k) l.*1 ->
  foldl (fun s e => s +' snd e *' y (fst e)) s l = foldl (fun s c => s +' cell_in c l *' y c) s (seq a k).
Proof.
  intros [Hz _] a k. revert a l. induction k as [|k IH]; intros a l s Hs Hf.
  - destruct l as [|[c v] l]; [done|]. rewrite fmap_cons in Hf. apply Forall_cons in Hf as [Hc _]. lia.
  - cbn [seq foldl]. destruct l as [|[c v] l].
    + cbn [cell_in]. rewrite Hz. apply (IH (S a) []); [constructor|constructor].
    + rewrite fmap_cons in Hs, Hf. apply StronglySorted_inv in Hs as [Hs Hlt]. apply Forall_cons in Hf as [Hc Hf]. cbn [fst] in *.
      destruct (decide (c = a)) as [->|Hne].
      * cbn [foldl cell_in fst snd]. rewrite decide_True by done.
        assert (Hf' : Forall (fun c => S a <= c < S a + k) l.*1). { apply Forall_forall. intros x Hx. rewrite Forall_forall in Hf, Hlt. specialize (Hf x Hx). specialize (Hlt x Hx). simpl in *. lia. }
        rewrite (IH (S a) l _ Hs Hf'). generalize (s +' v *' y a). intros t.
        assert (He : forall q, Forall (fun c => S a <= c) q -> forall t, foldl (fun s c => s +' cell_in c l *' y c) t q = foldl (fun s c => s +' cell_in c ((a, v) :: l) *' y c) t q).
        { induction q as [|c q IHq]; intros Hq t'; [done|]. apply Forall_cons in Hq as [Hc' Hq]. cbn [foldl cell_in]. rewrite decide_False by lia. by apply IHq. }
        apply He. apply Forall_seq. lia.
      * cbn [seq foldl]. rewrite (cell_in_out a). 2:{ rewrite fmap_cons. apply not_elem_of_cons. cbn [fst]. split; [lia|]. intros Hx. rewrite Forall_forall in Hlt. specialize (Hlt a Hx). lia. }
        rewrite Hz. apply (IH (S a) ((c, v) :: l)).
        { rewrite fmap_cons. constructor; done. }
        { rewrite fmap_cons. cbn [fst]. constructor; [lia|]. apply Forall_forall. intros x Hx. rewrite Forall_forall in Hf, Hlt. specialize (Hf x Hx). specialize (Hlt x Hx). simpl in *. lia. }
Qed.

(** The entries of row [r] in a list of triples. *)
Definition row_part (r : nat) (ts : list (nat * nat * V)) : row V := omap (fun t => if decide (t.1.1 = r) then Some (t.1.2, t.2) else None) ts.
Lemma row_part_snoc r ts t : row_part r (ts ++ [t]) = if decide (t.1.1 = r) then row_part r ts ++ [(t.1.2, t.2)] else row_part r ts.
Proof. unfold row_part. rewrite omap_app. cbn [omap list_omap]. destruct (decide (t.1.1 = r)); cbn; [done|]. by rewrite app_nil_r. Qed.
Lemma row_part_triples r k (rs : list (row V)) : row_part r (triples_from k rs) = if decide (k <= r) then default [] (rs !! (r - k)) else [].
Proof.
  revert k. induction rs as [|l rs IH]; intros k; [by destruct (decide (k <= r))|]. rewrite triples_cons. unfold row_part in *. rewrite omap_app, IH.
  assert (Hl : omap (fun t : nat * nat * V => if decide (t.1.1 = r) then Some (t.1.2, t.2) else None) ((fun e => (k, fst e, snd e)) <$> l) = if decide (k = r) then l else []).
  { clear. induction l as [|[c v] l IHl]; [by destruct (decide (k = r))|]. rewrite fmap_cons. cbn [omap list_omap fst snd]. destruct (decide (k = r)); cbn; rewrite IHl; done. }
  rewrite Hl. destruct (decide (k = r)) as [->|Hn].
  - rewrite decide_False, decide_True by lia. rewrite Nat.sub_diag. cbn. by rewrite app_nil_r.
  - destruct (decide (S k <= r)); [rewrite decide_True by lia; replace (r - k) with (S (r - S k)) by lia; done|]. by rewrite decide_False by lia.
Qed.

(** What the product is for a sparse left operand. *)
Lemma prod_rows K (rs : list (row V)) y r j : zero_laws A -> Forall (row_ok K) rs ->
  foldl (fun s e => s +' snd e *' y (fst e) j) vzero (default [] (rs !! r)) = prod A K (cell rs) y r j.
Proof.
  intros Hz Hok. unfold prod, cell. destruct (rs !! r) as [l|] eqn:E; cbn [default].
  - rewrite Forall_lookup in Hok. destruct (Hok _ _ E) as [Hs Hf]. rewrite (sum_entries (fun c => y c j) l Hz 0 K); [done|done|]. eapply Forall_impl; [exact Hf|]. simpl. lia.
  - cbn [id foldl]. assert (Hg : forall q s, s = foldl (fun s k => s +' vzero *' y k j) s q); [|apply Hg].
    induction q as [|k q IHq]; intros s; [done|]. cbn [foldl]. destruct Hz as [Hz ?]. rewrite Hz. apply IHq.
Qed.

Lemma zero_tab n m (junk : list V) : length junk = n * m -> exists res, DenseModel.fill_range junk 0 (n * m) vzero = Ok res /\ tabulated n m (fun _ _ => vzero) res.
Proof.
  intros Hj. unfold DenseModel.fill_range. destruct (for_up_write (n * m) (fun i b => wr b i vzero) (fun _ => vzero) junk Hj) as (b & E & Hl & Hb); [done|].
  exists b. split; [done|]. split; [done|]. intros r c Hr Hc. apply Hb. by apply pos_lt.
Qed.

Lemma row_step n K m x rhs (G : nat -> nat -> V) res r c v : is_dense rhs K m x -> tabulated n m G res -> r < n -> c < K ->
  exists res', for_up 0 m (fun j res => let* t := rd res (r * m + j) in let* y := dm_at rhs c j in wr res (r * m + j) (t +' v *' y)) res = Ok res' /\
    tabulated n m (fun r' j => if decide (r' = r) then G r j +' v *' x c j else G r' j) res'.
Proof.
  intros Hd [Hl HG] Hr Hc.
  match goal with |- context [for_up 0 m ?f res] => destruct (for_up_inv (fun j res' => tabulated n m (fun r' j' => if decide (r' = r /\ j' < j) then G r j' +' v *' x c j' else G r' j') res') 0 m f res) as (res' & E & Ht) end.
  - lia.
  - split; [done|]. intros r' j' Hr' Hj'. rewrite decide_False by lia. auto.
  - intros j s Hj [Hs HS]. rewrite (rd_Ok _ _ _ (HS r j Hr (proj2 Hj))). cbn [obind]. rewrite decide_False by lia. rewrite (dm_at_Ok _ K m x) by (done || lia). cbn [obind].
    rewrite wr_Ok by (rewrite Hs; apply pos_lt; lia). eexists. split; [done|]. split; [by rewrite insert_length|]. intros r' j' Hr' Hj'.
    destruct (decide (r' = r /\ j' = j)) as [[-> ->]|Hne].
    + rewrite decide_True by lia. apply list_lookup_insert. rewrite Hs. apply pos_lt; lia.
    + rewrite list_lookup_insert_ne by (intros Eq; apply pos_inj in Eq; lia). rewrite HS by done. f_equal.
      destruct (decide (r' = r /\ j' < j)); [by rewrite decide_True by lia|by rewrite decide_False by lia].
  - exists res'. split; [done|]. destruct Ht as [L T]. split; [done|]. intros r' j' Hr' Hj'. rewrite T by done. f_equal.
    destruct (decide (r' = r)) as [->|]; [by rewrite decide_True by lia|by rewrite decide_False by lia].
Qed.

Lemma mm_rowwise_spec junk b h rs rhs m x : zero_laws A -> shows b h rs -> is_dense rhs (h_cols h) m x -> length junk = h_rows h * m ->
  exists res, mm_rowwise A junk b h rhs = Ok res /\ tabulated (h_rows h) m (prod A (h_cols h) (cell rs) x) res.
Proof.
  intros Hz Hs Hd Hj. destruct (shows_reads _ _ _ Hs) as (base & HR & _). pose proof (rd_ok _ _ _ _ HR) as Hok. pose proof Hd as (_ & Em & _).
  unfold mm_rowwise. rewrite Em. destruct (zero_tab (h_rows h) m junk Hj) as (res0 & -> & H0). cbn [obind].
  rewrite (entries_loop2 b h base rs _ (fun t res => for_up 0 m (fun j res => let* u := rd res (t.1.1 * m + j) in let* y := dm_at rhs t.1.2 j in wr res (t.1.1 * m + j) (u +' t.2 *' y)) res) _ HR).
  2:{ intros r a i c v t Hr Ec Ev Hc. cbn [fst snd]. rewrite (rd_Ok _ _ _ Ec). cbn [obind]. apply for_up_ext. intros j s Hj'. destruct (rd s (r * m + j)); cbn [obind]; [|done|done]. by rewrite (rd_Ok _ _ _ Ev). }
  pose proof (triples_pos (h_cols h) rs 0 Hok) as Hp. rewrite (rd_rows _ _ _ _ HR) in Hp.
  edestruct (ofold_inv (fun pre res => tabulated (h_rows h) m (fun r j => foldl (fun s e => s +' snd e *' x (fst e) j) vzero (row_part r pre)) res)) as (res & E & Ht); cycle 2.
  - exists res. split; [exact E|]. destruct Ht as [L T]. split; [done|]. intros r j Hr Hjm. rewrite T by done. f_equal. unfold triples. rewrite row_part_triples. rewrite decide_True by lia. rewrite Nat.sub_0_r.
    by apply prod_rows.
  - exact H0.
  - intros pre t post s Et HT. change (triples_from 0 rs) with (triples rs) in Hp. rewrite Et in Hp. apply Forall_app in Hp as [_ Hp]. apply Forall_cons in Hp as [[Hp1 Hp2] _].
    destruct (row_step (h_rows h) (h_cols h) m x rhs _ s t.1.1 t.1.2 t.2 Hd HT) as (s' & E' & L' & T'); [lia|done|]. exists s'. split; [done|]. split; [done|].
    intros r j Hr Hjm. rewrite T' by done. f_equal. rewrite row_part_snoc. destruct (decide (r = t.1.1)) as [->|Hn].
    + rewrite decide_True by done. by rewrite foldl_app.
    + by rewrite decide_False by congruence.
Qed.

(** The updates of one row. *)
Definition upd_of (m : nat) (x : nat -> nat -> V) (r : nat) (l : row V) : list (nat * V) :=
  concat ((fun e => (fun j => (r * m + j, snd e *' x (fst e) j)) <$> seq 0 m) <$> l).
Lemma row_updates_spec b h base rs rhs m x r l : csr_reads b h base rs -> is_dense rhs (h_cols h) m x -> rs !! r = Some l ->
  row_updates A b h rhs r = Ok (upd_of m x r l).
Proof.
  intros HR Hd Hl. assert (Hr : r < length rs) by (by eapply lookup_lt_Some). pose proof Hd as (_ & Em & _). unfold row_updates. rewrite Em, (reads_row_nnz _ _ _ _ _ _ HR Hl). cbn [obind].
  rewrite (rd_off _ _ _ _ HR) by lia. cbn [obind]. pose proof (rd_ok _ _ _ _ HR) as Hok. rewrite Forall_lookup in Hok. destruct (Hok _ _ Hl) as [_ Hf].
  rewrite (for_up_ofold _ (fun e us => Ok (us ++ ((fun j => (r * m + j, snd e *' x (fst e) j)) <$> seq 0 m))) l 0).
  - unfold upd_of. assert (Hg : forall l us, ofold (fun e us => Ok (us ++ ((fun j => (r * m + j, snd e *' x (fst e) j)) <$> seq 0 m))) l us = Ok (us ++ concat ((fun e => (fun j => (r * m + j, snd e *' x (fst e) j)) <$> seq 0 m) <$> l))).
    { clear. induction l as [|e l IH]; intros us; [cbn; by rewrite app_nil_r|]. cbn [ofold obind]. rewrite IH, fmap_cons. cbn [concat]. by rewrite app_assoc. }
    rewrite Hg. done.
  - lia.
  - intros i e us Hi. destruct (reads_entry _ _ _ _ _ _ _ _ HR Hl Hi) as [Ec Ev]. cbn [Nat.add]. rewrite (rd_Ok _ _ _ Ec). cbn [obind].
    assert (Hc : fst e < h_cols h). { rewrite Forall_fmap, Forall_lookup in Hf. apply (Hf _ _ Hi). }
    rewrite (for_up_foldl 0 m _ (fun us j => us ++ [(r * m + j, snd e *' x (fst e) j)]) id).
    + f_equal. rewrite Nat.sub_0_r, list_fmap_id. generalize (seq 0 m). intros q. clear. revert us. induction q as [|j q IH]; intros us; [cbn; by rewrite app_nil_r|]. cbn [foldl]. rewrite IH, fmap_cons. by rewrite <- app_assoc.
    + intros j s Hj. cbn [id]. rewrite (rd_Ok _ _ _ Ev). cbn [obind]. rewrite (dm_at_Ok _ (h_cols h) m x) by (done || lia). done.
Qed.
Lemma upd_of_pos m x r l : Forall (fun u => r * m <= fst u < r * m + m) (upd_of m x r l).
Proof. apply Forall_concat, Forall_fmap, Forall_forall. intros e _. cbn. apply Forall_fmap, Forall_seq. cbn. lia. Qed.
Lemma colvals_none p (us : list (nat * V)) : Forall (fun u => fst u <> p) us -> colvals p us = [].
Proof. induction 1 as [|u us Hu Hf IH]; [done|]. unfold colvals in *. cbn [omap list_omap]. rewrite decide_False by done. exact IH. Qed.
Lemma upd_of_at m x r l j : j < m -> colvals (r * m + j) (upd_of m x r l) = (fun e => snd e *' x (fst e) j) <$> l.
Proof.
  intros Hj. unfold upd_of. induction l as [|e l IH]; [done|]. rewrite !fmap_cons. cbn [concat]. rewrite colvals_app, IH.
  assert (Hs : forall a k, colvals (r * m + j) ((fun j => (r * m + j, snd e *' x (fst e) j)) <$> seq a k) = if decide (a <= j < a + k) then [snd e *' x (fst e) j] else []).
  { intros a k. revert a. induction k as [|k IHk]; intros a; [by rewrite decide_False by lia|]. cbn [seq]. rewrite fmap_cons. unfold colvals in *. cbn [omap list_omap fst snd].
    rewrite IHk. destruct (decide (a = j)) as [->|Hn].
    - rewrite decide_True by done. rewrite decide_False, decide_True by lia. done.
    - rewrite decide_False by lia. destruct (decide (S a <= j < S a + k)); [by rewrite decide_True by lia|by rewrite decide_False by lia]. }
  rewrite Hs, decide_True by lia. done.
Qed.

(** Interleavings. [own p] is the iteration that updates position [p], [target p] its final value. *)
Record pinv (N : nat) (own : nat -> nat) (target : nat -> V) (ts : list thread) (res : list V) : Prop := mkPI {
  pi_len : length res = N;
  pi_own : forall i t, ts !! i = Some t -> Forall (fun u => own (fst u) = i /\ fst u < N) (t_todo t);
  pi_reg : forall i t v, ts !! i = Some t -> t_reg t = Some v -> exists p d us, t_todo t = (p, d) :: us /\ res !! p = Some v;
  pi_val : forall p, p < N -> exists v, res !! p = Some v /\ foldl (aadd A) v (match ts !! own p with Some t => colvals p (t_todo t) | None => [] end) = target p
}.
Lemma step_inv N own target ts res i t : pinv N own target ts res -> ts !! i = Some t ->
  exists t' res', thread_step A t res = Ok (t', res') /\ pinv N own target (<[i := t']> ts) res'.
Proof.
  intros [Hl Ho Hr Hv] Hi. assert (Hil : i < length ts) by (by eapply lookup_lt_Some). unfold thread_step. destruct t as [reg todo]. cbn [t_todo t_reg]. destruct todo as [|[p d] us].
  { exists (mkT reg []), res. split; [done|]. rewrite list_insert_id by done. by split. }
  pose proof (Ho _ _ Hi) as Hoi. cbn [t_todo] in Hoi. pose proof Hoi as Hoi0. apply Forall_cons in Hoi0 as [[Hop HpN] Hous]. cbn [fst] in *. destruct (Hv p HpN) as (v & Ev & Et).
  destruct reg as [w|].
  - destruct (Hr _ _ w Hi eq_refl) as (p' & d' & us' & E & Ew). cbn [t_todo] in E. injection E as <- <- <-. rewrite Ev in Ew. injection Ew as <-.
    rewrite wr_Ok by lia. cbn [obind]. eexists _, _. split; [done|]. split.
    + by rewrite insert_length.
    + intros j t Hj. destruct (decide (j = i)) as [->|Hn].
      * rewrite list_lookup_insert in Hj by done. injection Hj as <-. done.
      * rewrite list_lookup_insert_ne in Hj by done. by apply Ho.
    + intros j t u Hj Hu. destruct (decide (j = i)) as [->|Hn].
      * rewrite list_lookup_insert in Hj by done. injection Hj as <-. done.
      * rewrite list_lookup_insert_ne in Hj by done. destruct (Hr _ _ u Hj Hu) as (q & e & us2 & Eq & Equ). exists q, e, us2. split; [done|].
        rewrite list_lookup_insert_ne; [done|]. intros <-. pose proof (Ho _ _ Hj) as Hoj. rewrite Eq in Hoj. apply Forall_cons in Hoj as [[Hoj _] _]. cbn [fst] in Hoj. congruence.
    + intros q Hq. destruct (decide (q = p)) as [->|Hqp].
      * exists (v +' d). split; [apply list_lookup_insert; lia|]. rewrite Hop, list_lookup_insert by done. cbn [t_todo]. rewrite <- Et, Hop, Hi. cbn [t_todo].
        unfold colvals. cbn [omap list_omap fst snd]. rewrite decide_True by done. done.
      * destruct (Hv q Hq) as (u & Eu & Eut). exists u. split; [by rewrite list_lookup_insert_ne by done|]. rewrite <- Eut. destruct (decide (own q = i)) as [Eo|Hn].
        -- rewrite Eo, list_lookup_insert, Hi by done. cbn [t_todo]. unfold colvals. cbn [omap list_omap fst snd]. by rewrite decide_False by done.
        -- by rewrite list_lookup_insert_ne by done.
  - rewrite (rd_Ok _ _ _ Ev). cbn [obind]. eexists _, _. split; [done|]. split.
    + done.
    + intros j t Hj. destruct (decide (j = i)) as [->|Hn].
      * rewrite list_lookup_insert in Hj by done. injection Hj as <-. done.
      * rewrite list_lookup_insert_ne in Hj by done. by apply Ho.
    + intros j t u Hj Hu. destruct (decide (j = i)) as [->|Hn].
      * rewrite list_lookup_insert in Hj by done. injection Hj as <-. injection Hu as <-. by exists p, d, us.
      * rewrite list_lookup_insert_ne in Hj by done. by apply (Hr j t).
    + intros q Hq. destruct (Hv q Hq) as (u & Eu & Eut). exists u. split; [done|]. rewrite <- Eut. destruct (decide (own q = i)) as [Eo|Hn].
      * by rewrite Eo, list_lookup_insert, Hi by done.
      * by rewrite list_lookup_insert_ne by done.
Qed.
(** Memory accesses left. *)
Definition work (t : @thread V) : nat := match t_todo t with [] => 0 | us => 2 * length us - (match t_reg t with Some _ => 1 | None => 0 end) end.
Lemma step_work t res t' res' : thread_step A t res = Ok (t', res') -> work t' = work t - 1.
Proof.
  unfold thread_step, work. destruct t as [reg [|[p d] us]]; cbn [t_todo t_reg]; [by intros [= <- _]|]. destruct reg as [w|].
  - destruct (wr res p (w +' d)) eqn:E; cbn [obind]; [|done|done]. intros [= <- _]. cbn [t_todo t_reg length]. destruct us as [|u us]; cbn [length]; lia.
  - destruct (rd res p) eqn:E; cbn [obind]; [|done|done]. intros [= <- _]. cbn [t_todo t_reg length]. lia.
Qed.
Lemma run_inv N own target sched : forall ts res, pinv N own target ts res ->
  exists ts' res', run A sched ts res = Ok (ts', res') /\ pinv N own target ts' res' /\ length ts' = length ts /\
    forall i t, ts !! i = Some t -> exists t', ts' !! i = Some t' /\ work t' = work t - count_occ Nat.eq_dec sched i.
Proof.
  induction sched as [|i sched IH]; intros ts res Hp.
  - exists ts, res. split; [done|]. split; [done|]. split; [done|]. intros i t Hi. exists t. split; [done|]. cbn. lia.
  - cbn [run]. destruct (ts !! i) as [t|] eqn:Hi.
    + destruct (step_inv _ _ _ _ _ _ _ Hp Hi) as (t1 & res1 & E & Hp1). rewrite E. cbn [obind]. destruct (IH _ _ Hp1) as (ts' & res' & E' & Hp' & Hl & Hw). exists ts', res'. split; [done|].
      split; [done|]. split; [by rewrite Hl, insert_length|]. intros j u Hj. assert (Hil : i < length ts) by (by eapply lookup_lt_Some). cbn [count_occ]. destruct (decide (j = i)) as [->|Hn].
      * rewrite Hi in Hj. injection Hj as <-. destruct (Hw i t1) as (t' & Ht' & Hw'); [by apply list_lookup_insert|]. exists t'. split; [done|]. rewrite Hw', (step_work _ _ _ _ E).
        destruct (Nat.eq_dec i i); [lia|done].
      * destruct (Hw j u) as (t' & Ht' & Hw'); [by rewrite list_lookup_insert_ne by done|]. exists t'. split; [done|]. destruct (Nat.eq_dec i j); [congruence|done].
    + destruct (IH _ _ Hp) as (ts' & res' & E' & Hp' & Hl & Hw). exists ts', res'. split; [done|]. split; [done|]. split; [done|]. intros j u Hj. destruct (Hw j u Hj) as (t' & Ht' & Hw').
      exists t'. split; [done|]. rewrite Hw'. cbn [count_occ]. destruct (Nat.eq_dec i j) as [->|]; [congruence|done].
Qed.
Definition finished (ts : list (@thread V)) : Prop := Forall (fun t => t_todo t = []) ts.
Lemma work_0 t : work t = 0 -> t_todo t = [].
Proof. unfold work. destruct (t_todo t) as [|u us]; [done|]. cbn [length]. destruct (t_reg t); lia. Qed.
Lemma finished_target N own target ts res : pinv N own target ts res -> finished ts -> forall p, p < N -> res !! p = Some (target p).
Proof.
  intros Hp Hf p HpN. destruct (pi_val _ _ _ _ _ Hp p HpN) as (v & Ev & Et). rewrite Ev. f_equal. rewrite <- Et. destruct (ts !! own p) as [t|] eqn:E; [|done].
  unfold finished in Hf. rewrite Forall_lookup in Hf. by rewrite (Hf _ _ E).
Qed.

(** The threads of both parallel variants: iteration [i] handles the rows from [lo i] up to [hi i]. *)
Lemma par_threads_spec b h base rs rhs m x : csr_reads b h base rs -> is_dense rhs (h_cols h) m x ->
  par_threads A b h rhs = Ok ((fun r => mkT None (upd_of m x r (default [] (rs !! r)))) <$> seq 0 (h_rows h)).
Proof.
  intros HR Hd. unfold par_threads. rewrite (for_up_foldl 0 (h_rows h) _ (fun ts t => ts ++ [t]) (fun r => mkT None (upd_of m x r (default [] (rs !! r))))).
  - f_equal. rewrite Nat.sub_0_r. 
    assert (Hg : forall l (acc : list (@thread V)), foldl (fun ts t => ts ++ [t]) acc l = acc ++ l); [|apply Hg].
    induction l as [|t l IH]; intros acc; [by rewrite app_nil_r|]. cbn [foldl]. rewrite IH. by rewrite <- app_assoc.
  - intros r ts Hr. destruct (lookup_lt_is_Some_2 rs r) as [l Hl]; [rewrite (rd_rows _ _ _ _ HR); lia|]. rewrite (row_updates_spec b h base rs rhs m x r l HR Hd Hl). cbn [obind]. by rewrite Hl.
Qed.
Lemma par_rows m x (L : nat -> row V) a k r j : j < m ->
  colvals (r * m + j) (concat ((fun r => upd_of m x r (L r)) <$> seq a k)) = if decide (a <= r < a + k) then (fun e => snd e *' x (fst e) j) <$> L r else [].
Proof.
  intros Hj. revert a. induction k as [|k IH]; intros a; [by rewrite decide_False by lia|]. cbn [seq]. rewrite fmap_cons. cbn [concat]. rewrite colvals_app, IH. destruct (decide (a = r)) as [->|Hn].
  - rewrite upd_of_at by done. rewrite decide_False, decide_True by lia. by rewrite app_nil_r.
  - rewrite colvals_none.
    + cbn [app]. destruct (decide (S a <= r < S a + k)); [by rewrite decide_True by lia|by rewrite decide_False by lia].
    + eapply Forall_impl; [apply upd_of_pos|]. cbn. intros u Hu E. rewrite E in Hu. apply Hn. destruct (Nat.lt_total a r) as [?|[?|?]]; [|done|]; nia.
Qed.
Lemma foldl_fmap {T U} (f : T -> U -> T) {W} (g : W -> U) l s : foldl f s (g <$> l) = foldl (fun s w => f s (g w)) s l.
Proof. revert s. induction l as [|w l IH]; intros s; [done|]. rewrite fmap_cons. cbn [foldl]. apply IH. Qed.
Lemma upd_of_length m x r l : length (upd_of m x r l) = length l * m.
Proof. unfold upd_of. induction l as [|e l IH]; [done|]. rewrite fmap_cons. cbn [concat]. rewrite app_length, IH, fmap_length, seq_length. done. Qed.

(** [T] iterations; iteration [i] handles the [len i] rows from [lo i] on; row [r] belongs to iteration [g r]. *)
Lemma par_run K m n (rs : list (row V)) x (T : nat) (lo len g : nat -> nat) res0 sched : zero_laws A -> Forall (row_ok K) rs -> length rs = n ->
  tabulated n m (fun _ _ => vzero) res0 ->
  (forall r, r < n -> g r < T /\ lo (g r) <= r < lo (g r) + len (g r)) -> (forall i r, i < T -> lo i <= r < lo i + len i -> g r = i /\ r < n) ->
  exists ts' res', run A sched ((fun i => mkT None (concat ((fun r => upd_of m x r (default [] (rs !! r))) <$> seq (lo i) (len i)))) <$> seq 0 T) res0 = Ok (ts', res') /\ length ts' = T /\
    (finished ts' -> tabulated n m (prod A K (cell rs) x) res') /\
    ((forall i, i < T -> 2 * (len i * (K * m)) <= count_occ Nat.eq_dec sched i) -> finished ts').
Proof.
  intros Hz Hok Hn [Hl0 H0] Hg Hg'. set (F := fun r => upd_of m x r (default [] (rs !! r))).
  assert (Hts : forall i t, ((fun i => mkT None (concat (F <$> seq (lo i) (len i)))) <$> seq 0 T) !! i = Some t -> i < T /\ t = mkT None (concat (F <$> seq (lo i) (len i)))).
  { intros i t Hi. assert (i < T) by (apply lookup_lt_Some in Hi; by rewrite fmap_length, seq_length in Hi). rewrite (lookup_fseq (fun i => mkT None (concat (F <$> seq (lo i) (len i))))) in Hi by done. injection Hi as <-. done. }
  assert (Hp : pinv (n * m) (fun p => g (p / m)) (fun p => prod A K (cell rs) x (p / m) (p mod m)) ((fun i => mkT None (concat (F <$> seq (lo i) (len i)))) <$> seq 0 T) res0).
  { split; [done| | |].
    - intros i t (Hi & ->)%Hts. cbn [t_todo]. apply Forall_concat, Forall_fmap, Forall_forall. intros r Hr. apply elem_of_seq in Hr. destruct (Hg' i r Hi Hr) as [Eg Hr']. cbn.
      unfold F. eapply Forall_impl; [apply upd_of_pos|]. cbn. intros u Hu. assert (m <> 0) by lia.
      assert (Ed : u.1 / m = r). { symmetry. apply (Nat.div_unique (u.1) m r (u.1 - r * m)); lia. } rewrite Ed. split; [done|]. pose proof (pos_lt n m r (u.1 - r * m) Hr'). lia.
    - by intros i t v (Hi & ->)%Hts.
    - intros p Hpn. destruct (pos_split n m p Hpn) as (r & j & Hr & Hj & ->). assert (m <> 0) by lia.
      assert (Ed : (r * m + j) / m = r) by (symmetry; apply (Nat.div_unique _ m r j); lia). assert (Em : (r * m + j) mod m = j) by (symmetry; apply (Nat.mod_unique _ m r j); lia).
      rewrite Ed, Em. exists vzero. split; [auto|]. destruct (Hg r Hr) as [HgT Hlo]. rewrite (lookup_fseq (fun i => mkT None (concat (F <$> seq (lo i) (len i))))) by done. cbn [t_todo]. unfold F.
      rewrite par_rows, decide_True by (done || lia). rewrite foldl_fmap. by apply prod_rows. }
  destruct (run_inv _ _ _ sched _ _ Hp) as (ts' & res' & E & Hp' & Hl & Hw). exists ts', res'. split; [exact E|]. rewrite fmap_length, seq_length in Hl. split; [done|]. split.
  - intros Hf. pose proof (finished_target _ _ _ _ _ Hp' Hf) as Ht. split; [apply Hp'|]. intros r j Hr Hj. rewrite Ht by (by apply pos_lt). f_equal. assert (m <> 0) by lia. f_equal.
    + symmetry. apply (Nat.div_unique _ m r j); lia.
    + symmetry. apply (Nat.mod_unique _ m r j); lia.
  - intros Hc. apply Forall_lookup. intros i t Hi. assert (HiT : i < T) by (rewrite <- Hl; by eapply lookup_lt_Some).
    destruct (Hw i (mkT None (concat (F <$> seq (lo i) (len i))))) as (t' & Ht' & Hw'); [by rewrite (lookup_fseq (fun i => mkT None (concat (F <$> seq (lo i) (len i))))) by done|].
    rewrite Hi in Ht'. injection Ht' as <-. apply work_0. rewrite Hw'. specialize (Hc i HiT).
    assert (Hlen : length (concat (F <$> seq (lo i) (len i))) <= len i * (K * m)).
    { generalize (lo i) (len i). intros a k. revert a. induction k as [|k IH]; intros a; [cbn; lia|]. cbn [seq]. rewrite fmap_cons. cbn [concat]. rewrite app_length. specialize (IH (S a)).
      assert (length (F a) <= K * m); [|cbn; lia]. unfold F. rewrite upd_of_length. apply Nat.mul_le_mono_r. destruct (rs !! a) as [l|] eqn:El; cbn; [|lia]. rewrite Forall_lookup in Hok. apply (row_ok_length K l). by apply (Hok a). }
    unfold work. cbn [t_todo t_reg]. revert Hlen. generalize (concat (F <$> seq (lo i) (len i))). intros [|u us] Hlen; [done|]. lia.
Qed.

Lemma mm_parallel_spec sched junk b h rs rhs m x : zero_laws A -> shows b h rs -> is_dense rhs (h_cols h) m x -> length junk = h_rows h * m ->
  exists ts res, mm_parallel A sched junk b h rhs = Ok (ts, res) /\ length ts = h_rows h /\
    (finished ts -> tabulated (h_rows h) m (prod A (h_cols h) (cell rs) x) res) /\
    ((forall i, i < h_rows h -> 2 * (h_cols h * m) <= count_occ Nat.eq_dec sched i) -> finished ts).
Proof.
  intros Hz Hs Hd Hj. destruct (shows_reads _ _ _ Hs) as (base & HR & _). pose proof Hd as (_ & Em & _). unfold mm_parallel. rewrite Em.
  destruct (zero_tab (h_rows h) m junk Hj) as (res0 & -> & H0). cbn [obind]. rewrite (par_threads_spec b h base rs rhs m x HR Hd). cbn [obind].
  destruct (par_run (h_cols h) m (h_rows h) rs x (h_rows h) id (fun _ => 1) id res0 sched Hz (rd_ok _ _ _ _ HR) (rd_rows _ _ _ _ HR) H0) as (ts & res & E & Hl & H1 & H2).
  - intros r Hr. cbn. lia.
  - intros i r Hi Hr. cbn in *. lia.
  - exists ts, res. split.
    + rewrite <- E. f_equal. apply fseq_ext. intros i Hi. cbn [id seq fmap list_fmap concat]. by rewrite app_nil_r.
    + split; [done|]. split; [done|]. intros Hc. apply H2. intros i Hi. specialize (Hc i Hi). lia.
Qed.

Lemma block_updates_spec bs b h base rs rhs m x k : csr_reads b h base rs -> is_dense rhs (h_cols h) m x ->
  block_updates A bs b h rhs k = Ok (concat ((fun r => upd_of m x r (default [] (rs !! r))) <$> seq (k * bs) ((k * bs + bs) `min` h_rows h - k * bs))).
Proof.
  intros HR Hd. unfold block_updates. rewrite (for_up_foldl _ _ _ (fun us u => us ++ u) (fun r => upd_of m x r (default [] (rs !! r)))).
  - f_equal. generalize (seq (k * bs) ((k * bs + bs) `min` h_rows h - k * bs)). intros q.
    assert (Hg : forall l (acc : list (nat * V)), foldl (fun us u => us ++ u) acc l = acc ++ concat l); [|apply Hg].
    induction l as [|t l IH]; intros acc; [by rewrite app_nil_r|]. cbn [foldl]. rewrite IH. cbn [concat]. by rewrite <- app_assoc.
  - intros r us Hr. destruct (lookup_lt_is_Some_2 rs r) as [l Hl]; [rewrite (rd_rows _ _ _ _ HR); lia|]. rewrite (row_updates_spec b h base rs rhs m x r l HR Hd Hl). cbn [obind]. by rewrite Hl.
Qed.
Lemma mm_blocked_spec bs sched junk b h rs rhs m x : zero_laws A -> bs <> 0 -> shows b h rs -> is_dense rhs (h_cols h) m x -> length junk = h_rows h * m ->
  exists ts res, mm_blocked A bs sched junk b h rhs = Ok (ts, res) /\ length ts = (h_rows h + bs - 1) / bs /\
    (finished ts -> tabulated (h_rows h) m (prod A (h_cols h) (cell rs) x) res) /\
    ((forall i, i < (h_rows h + bs - 1) / bs -> 2 * (bs * (h_cols h * m)) <= count_occ Nat.eq_dec sched i) -> finished ts).
Proof.
  intros Hz Hbs Hs Hd Hj. destruct (shows_reads _ _ _ Hs) as (base & HR & _). pose proof Hd as (_ & Em & _). unfold mm_blocked. rewrite Em.
  destruct (zero_tab (h_rows h) m junk Hj) as (res0 & -> & H0). cbn [obind].
  set (T := (h_rows h + bs - 1) / bs). set (len := fun k => (k * bs + bs) `min` h_rows h - k * bs).
  assert (ET : blk_threads A bs b h rhs = Ok ((fun i => mkT None (concat ((fun r => upd_of m x r (default [] (rs !! r))) <$> seq (i * bs) (len i)))) <$> seq 0 T)).
  { unfold blk_threads. fold T. rewrite (for_up_foldl 0 T _ (fun ts t => ts ++ [t]) (fun i => mkT None (concat ((fun r => upd_of m x r (default [] (rs !! r))) <$> seq (i * bs) (len i))))).
    - f_equal. rewrite Nat.sub_0_r. assert (Hg : forall l (acc : list (@thread V)), foldl (fun ts t => ts ++ [t]) acc l = acc ++ l); [|apply Hg].
      induction l as [|t l IH]; intros acc; [by rewrite app_nil_r|]. cbn [foldl]. rewrite IH. by rewrite <- app_assoc.
    - intros k ts Hk. rewrite (block_updates_spec bs b h base rs rhs m x k HR Hd). done. }
  rewrite ET. cbn [obind].
  destruct (par_run (h_cols h) m (h_rows h) rs x T (fun i => i * bs) len (fun r => r / bs) res0 sched Hz (rd_ok _ _ _ _ HR) (rd_rows _ _ _ _ HR) H0) as (ts & res & E & Hl & H1 & H2).
  - intros r Hr. pose proof (Nat.div_mod r bs Hbs) as Ediv. pose proof (Nat.mod_upper_bound r bs Hbs) as Hmod. unfold len, T.
    assert (r / bs < (h_rows h + bs - 1) / bs). { apply Nat.div_le_lower_bound; [done|]. lia. } split; [done|]. lia.
  - intros i r Hi Hr. unfold len in Hr. split; [|lia]. symmetry. apply (Nat.div_unique r bs i (r - i * bs)); lia.
  - exists ts, res. split; [exact E|]. split; [done|]. split; [done|]. intros Hc. apply H2. intros i Hi. specialize (Hc i Hi). etransitivity; [|exact Hc]. apply Nat.mul_le_mono_l, Nat.mul_le_mono_r. unfold len. lia.
Qed.

(** ** Dense times sparse. *)
Lemma sum_entries_r (y : nat -> V) (l : row V) : zero_laws A -> forall a k s, StronglySorted lt l.*1 -> Forall (fun c => a <= c < a + k) l.*1 ->
  foldl (fun s e => s +' y (fst e) *' snd e) s l = foldl (fun s c => s +' y c *' cell_in c l) s (seq a k).
Proof.
  intros [_ Hz] a k. revert a l. induction k as [|k IH]; intros a l s Hs Hf.
  - destruct l as [|[c v] l]; [done|]. rewrite fmap_cons in Hf. apply Forall_cons in Hf as [Hc _]. lia.
  - cbn [seq foldl]. destruct l as [|[c v] l].
    + cbn [cell_in]. rewrite Hz. apply (IH (S a) []); [constructor|constructor].
    + rewrite fmap_cons in Hs, Hf. apply StronglySorted_inv in Hs as [Hs Hlt]. apply Forall_cons in Hf as [Hc Hf]. cbn [fst] in *.
      destruct (decide (c = a)) as [->|Hne].
      * cbn [foldl cell_in fst snd]. rewrite decide_True by done.
        assert (Hf' : Forall (fun c => S a <= c < S a + k) l.*1). { apply Forall_forall. intros x Hx. rewrite Forall_forall in Hf, Hlt. specialize (Hf x Hx). specialize (Hlt x Hx). simpl in *. lia. }
        rewrite (IH (S a) l _ Hs Hf'). generalize (s +' y a *' v). intros t.
        assert (He : forall q, Forall (fun c => S a <= c) q -> forall t, foldl (fun s c => s +' y c *' cell_in c l) t q = foldl (fun s c => s +' y c *' cell_in c ((a, v) :: l)) t q).
        { induction q as [|c q IHq]; intros Hq t'; [done|]. apply Forall_cons in Hq as [Hc' Hq]. cbn [foldl cell_in]. rewrite decide_False by lia. by apply IHq. }
        apply He. apply Forall_seq. lia.
      * cbn [seq foldl]. rewrite (cell_in_out a). 2:{ rewrite fmap_cons. apply not_elem_of_cons. cbn [fst]. split; [lia|]. intros Hx. rewrite Forall_forall in Hlt. specialize (Hlt a Hx). lia. }
        rewrite Hz. apply (IH (S a) ((c, v) :: l)).
        { rewrite fmap_cons. constructor; done. }
        { rewrite fmap_cons. cbn [fst]. constructor; [lia|]. apply Forall_forall. intros x Hx. rewrite Forall_forall in Hf, Hlt. specialize (Hf x Hx). specialize (Hlt x Hx). simpl in *. lia. }
Qed.
Lemma prod_cols m (rs : list (row V)) x r c : zero_laws A -> Forall (row_ok m) rs -> 
  foldl (fun s e => s +' x r (fst e) *' snd e) vzero (tcol (triples rs) c) = prod A (length rs) x (cell rs) r c.
Proof.
  intros Hz Hok. rewrite (tcol_triples m) by done. pose proof (ents_ok (colG rs) (length rs) c) as [Hs Hf].
  rewrite (sum_entries_r (fun k => x r k) _ Hz 0 (length rs)); [|done|eapply Forall_impl; [exact Hf|]; simpl; lia].
  unfold prod. assert (He : forall q s, Forall (fun k => k < length rs) q -> foldl (fun s k => s +' x r k *' cell_in k (ents (colG rs) 0 (length rs) c)) s q = foldl (fun s k => s +' x r k *' cell rs k c) s q).
  { induction q as [|k q IH]; intros s Hq; [done|]. apply Forall_cons in Hq as [Hk Hq]. cbn [foldl]. rewrite IH by done. f_equal. f_equal. f_equal. rewrite cell_in_find, find_col_ents, decide_True by lia. by rewrite cell_colG. }
  apply He. apply Forall_seq. lia.
Qed.

Lemma mm_dense_csr_spec ta tb lhs b h rs n x : zero_laws A -> is_dense lhs n (h_rows h) x -> shows b h rs ->
  exists res, mm_dense_csr A ta tb lhs b h = Ok res /\ is_dense res n (h_cols h) (prod A (h_rows h) x (cell rs)).
Proof.
  intros Hz Hd Hs. destruct (shows_reads _ _ _ Hs) as (base & HR & _). pose proof (rd_ok _ _ _ _ HR) as Hok. pose proof Hd as (En & Em & _). unfold mm_dense_csr. rewrite En, Em.
  rewrite decide_False by tauto. set (m := h_cols h). pose proof (triples_pos m rs 0 Hok) as Hp. rewrite (rd_rows _ _ _ _ HR) in Hp. change (triples_from 0 rs) with (triples rs) in Hp.
  match goal with |- context [for_up 0 n ?f _] => destruct (for_up_inv (fun i res => tabulated n m (fun r c => if decide (r < i) then prod A (h_rows h) x (cell rs) r c else vzero) res) 0 n f (replicate (n * m) vzero)) as (res & E & Ht) end.
  - lia.
  - split; [apply replicate_length|]. intros r c Hr Hc. apply lookup_replicate_2. by apply pos_lt.
  - intros i res [_ Hi] HT.
    rewrite (for_up_ext 0 (h_rows h) _ (fun k res => let* nnz := csr_row_nnz b h k in let* a := roff b h k in for_up 0 nnz (fun j res =>
          let* c := rd (bcols b) (a + j) in let* t := rd res (i * m + c) in let* v := rd (bvals b) (a + j) in wr res (i * m + c) (t +' x i k *' v)) res)).
    2:{ intros k s Hk. rewrite (dm_at_Ok _ n (h_rows h) x) by (done || lia). done. }
    rewrite (entries_loop2 b h base rs _ (fun t res => let* u := rd res (i * m + t.1.2) in wr res (i * m + t.1.2) (u +' x i t.1.1 *' t.2)) _ HR).
    2:{ intros r a j c v t Hr Ec Ev Hc. cbn [fst snd]. rewrite (rd_Ok _ _ _ Ec). cbn [obind]. destruct (rd t (i * m + c)); cbn [obind]; [|done|done]. by rewrite (rd_Ok _ _ _ Ev). }
    edestruct (ofold_inv (fun pre res => tabulated n m (fun r c => if decide (r < i) then prod A (h_rows h) x (cell rs) r c else if decide (r = i) then foldl (fun s e => s +' x i (fst e) *' snd e) vzero (tcol pre c) else vzero) res)) as (res' & E & Ht); cycle 2.
    + exists res'. split; [exact E|]. destruct Ht as [L T]. split; [done|]. intros r c Hr Hc. rewrite T by done. f_equal. destruct (decide (r < i)); [by rewrite decide_True by lia|].
      destruct (decide (r = i)) as [->|]; [|by rewrite decide_False by lia]. rewrite decide_True by lia. rewrite (prod_cols m) by done. by rewrite (rd_rows _ _ _ _ HR).
    + destruct HT as [L T]. split; [done|]. intros r c Hr Hc. rewrite T by done. f_equal. destruct (decide (r < i)); [done|]. by destruct (decide (r = i)).
    + intros pre [[k c] v] post s Et [L T]. rewrite Et in Hp. apply Forall_app in Hp as [_ Hp]. apply Forall_cons in Hp as [[Hp1 Hp2] _]. cbn [fst snd] in *.
      rewrite (rd_Ok _ _ _ (T i c Hi Hp2)). cbn [obind]. rewrite decide_False, decide_True by lia. rewrite wr_Ok by (rewrite L; by apply pos_lt). eexists. split; [done|].
      split; [by rewrite insert_length|]. intros r c' Hr Hc'. destruct (decide (r = i /\ c' = c)) as [[-> ->]|Hne].
      * rewrite decide_False, decide_True by lia. rewrite list_lookup_insert by (rewrite L; by apply pos_lt). f_equal. rewrite tcol_snoc, decide_True by done. by rewrite foldl_app.
      * rewrite list_lookup_insert_ne by (intros Eq; apply pos_inj in Eq; lia). rewrite T by done. f_equal. destruct (decide (r < i)); [done|]. destruct (decide (r = i)) as [->|]; [|done].
        rewrite tcol_snoc. by rewrite decide_False by tauto.
  - rewrite E. cbn [obind]. eexists. split; [done|]. apply tabulated_is_dense. destruct Ht as [L T]. split; [done|]. intros r c Hr Hc. rewrite T by done. by rewrite decide_True by done.
Qed.

(** ** Through get. *)
Lemma for2_appends n m (P : nat -> nat -> V) st : 
  for2 n m (fun r c st => let '(res, h) := st in dm_append vzero res h r c (P r c)) st = dm_appends vzero (fst st) (snd st) (concat ((fun r => (fun c => (r, c, P r c)) <$> seq 0 m) <$> seq 0 n)).
Proof.
  assert (Happ : forall l l' b h, dm_appends vzero b h (l ++ l') = let* (b', h') := dm_appends (V:=V) vzero b h l in dm_appends vzero b' h' l').
  { induction l as [|[[r c] v] l IH]; intros l' b h; [done|]. cbn [app dm_appends]. destruct (dm_append vzero b h r c v) as [[b1 h1]| |]; cbn [obind]; [apply IH|done|done]. }
  assert (Hrow : forall r k a st, forn k a (fun c st => let '(res, h) := st in dm_append vzero res h r c (P r c)) st = dm_appends vzero (fst st) (snd st) ((fun c => (r, c, P r c)) <$> seq a k)).
  { intros r k. induction k as [|k IH]; intros a [b h]; [done|]. cbn [forn seq]. rewrite fmap_cons. cbn [dm_appends fst snd]. destruct (dm_append vzero b h r a (P r a)) as [[b1 h1]| |]; cbn [obind]; [apply (IH (S a) (b1, h1))|done|done]. }
  assert (Hall : forall k a st, forn k a (fun r s => for_up 0 m (fun c s => let '(res, h) := s in dm_append vzero res h r c (P r c)) s) st = dm_appends vzero (fst st) (snd st) (concat ((fun r => (fun c => (r, c, P r c)) <$> seq 0 m) <$> seq a k))).
  { induction k as [|k IH]; intros a [b h]; [done|]. cbn [forn seq]. rewrite fmap_cons. cbn [concat fst snd]. rewrite Happ. unfold for_up at 1. rewrite Nat.sub_0_r, Hrow. cbn [fst snd].
    destruct (dm_appends vzero b h ((fun c => (a, c, P a c)) <$> seq 0 m)) as [[b1 h1]| |]; cbn [obind]; [|done|done]. apply (IH (S a) (b1, h1)). }
  unfold for2. unfold for_up at 1. rewrite Nat.sub_0_r. apply Hall.
Qed.
Lemma all_hist_sorted n m (P : nat -> nat -> V) a : dense_row_major (concat ((fun r => (fun c => (r, c, P r c)) <$> seq 0 m) <$> seq a n)).
Proof.
  revert a. induction n as [|n IH]; intros a; [constructor|]. cbn [seq]. rewrite fmap_cons. cbn [concat].
  assert (Hr : forall k c0, StronglySorted (fun e1 e2 : nat * nat * V => match e1, e2 with (r1, c1, _), (r2, c2, _) => r1 < r2 \/ (r1 = r2 /\ c1 < c2) end) (((fun c => (a, c, P a c)) <$> seq c0 k) ++ concat ((fun r => (fun c => (r, c, P r c)) <$> seq 0 m) <$> seq (S a) n))).
  { induction k as [|k IHk]; intros c0; [apply IH|]. cbn [seq]. rewrite fmap_cons. cbn [app]. constructor; [apply IHk|]. apply Forall_app. split.
    - apply Forall_fmap, Forall_seq. cbn. lia.
    - apply Forall_concat, Forall_fmap, Forall_seq. intros r Hr. cbn. apply Forall_fmap, Forall_seq. cbn. lia. }
  apply Hr.
Qed.
Lemma wanted_all n m (P : nat -> nat -> V) r c : r < n -> c < m -> wanted vzero (concat ((fun r => (fun c => (r, c, P r c)) <$> seq 0 m) <$> seq 0 n)) r c = P r c.
Proof.
  intros Hr Hc. assert (Hw : forall hist : list (nat * nat * V), (r, c, P r c) ∈ hist -> Forall (fun e => e = (fst (fst e), snd (fst e), P (fst (fst e)) (snd (fst e)))) hist -> wanted vzero hist r c = P r c).
  { induction hist as [|[[r' c'] v] hist IH]; [by intros ?%elem_of_nil|]. intros Hin Hf. apply Forall_cons in Hf as [E Hf]. cbn [fst snd] in E. injection E as ->. cbn [wanted]. destruct (decide (r' = r /\ c' = c)) as [[-> ->]|Hn]; [done|].
    apply IH; [|done]. apply elem_of_cons in Hin as [E|]; [|done]. injection E as -> ->. tauto. }
  apply Hw.
  - apply elem_of_concat. exists ((fun c => (r, c, P r c)) <$> seq 0 m). split; [apply elem_of_list_fmap; exists c; split; [done|]; apply elem_of_seq; lia|].
    apply elem_of_list_fmap. exists r. split; [done|]. apply elem_of_seq. lia.
  - apply Forall_concat, Forall_fmap, Forall_forall. intros r' _. cbn. apply Forall_fmap, Forall_forall. done.
Qed.
Lemma mm_generic_spec (ta tb : bool) (junk : list V) lr lc lget rr rc rget x y : 
  (forall r k, r < lr -> k < lc -> lget r k = Ok (x r k)) -> (forall k c, k < rr -> c < rc -> rget k c = Ok (y k c)) ->
  (if ta then lr else lc) = (if tb then rc else rr) -> length junk = (if ta then lc else lr) * (if tb then rr else rc) ->
  exists res, mm_generic A ta tb junk lr lc lget rr rc rget = Ok res /\
    is_dense res (if ta then lc else lr) (if tb then rr else rc)
      (prod A (if ta then lr else lc) (if ta then fun r k => x k r else x) (if tb then fun k c => y c k else y)).
Proof.
  intros Hx Hy HK Hj. unfold mm_generic. set (R := if ta then lc else lr) in *. set (C := if tb then rr else rc) in *. set (K := if ta then lr else lc) in *. rewrite decide_False by tauto.
  set (x' := if ta then fun r k => x k r else x). set (y' := if tb then fun k c => y c k else y).
  assert (Hfit : DenseProofs.fits junk (dm_new R C)). { split; [done|]. intros r c [Hr Hc]. unfold addr. cbn in *. rewrite Hj. by apply pos_lt. }
  destruct (append_all_ok vzero junk (dm_new R C) (concat ((fun r => (fun c => (r, c, prod A K x' y' r c)) <$> seq 0 C) <$> seq 0 R)) Hfit (all_hist_sorted R C _ 0)) as (b' & h' & E & Hl & E1 & E2 & E3 & E4 & Hw & _).
  { apply Forall_concat, Forall_fmap, Forall_seq. intros r Hr. cbn. apply Forall_fmap, Forall_seq. intros c Hc. unfold in_h. cbn. lia. }
  { left. done. }
  unfold dm_append_all in E. destruct (dm_prepareAppend vzero junk (dm_new R C)) as [[b0 h0]| |] eqn:E0; cbn [obind] in E |- *; [|done|done].
  match goal with |- context [for2 R C ?f (b0, h0)] => assert (EL : for2 R C f (b0, h0) = for2 R C (fun r c st => let '(res, h) := st in dm_append vzero res h r c (prod A K x' y' r c)) (b0, h0)) end.
  { unfold for2. apply for_up_ext. intros r s Hr. apply for_up_ext. intros c [b h] Hc.
    rewrite (for_up_foldl 0 K _ (fun s k => s +' x' r k *' y' k c) id).
    - cbn [obind]. rewrite Nat.sub_0_r, list_fmap_id. done.
    - intros k t Hk. subst x' y' R C K. cbn [id]. destruct ta, tb; cbn in HK |- *; rewrite Hx by lia; cbn [obind]; rewrite Hy by lia; done. }
  rewrite EL, for2_appends. cbn [fst snd]. destruct (dm_appends vzero b0 h0 _) as [[b1 h1]| |]; cbn [obind] in E |- *; [|done|done]. rewrite E. cbn [obind]. eexists. split; [done|].
  cbn in E1, E2, E3, E4. unfold is_dense. cbn. rewrite E1, E2, E3, E4. split; [done|]. split; [done|]. split; [done|]. split; [rewrite Hl, Hj; nia|]. intros r c Hr Hc. specialize (Hw r c). unfold in_h, addr in Hw. cbn in Hw. cbn [Nat.add]. rewrite Hw by done.
  by rewrite wanted_all by done.
Qed.

(** ** Sparse times sparse. *)
Lemma mm_scan_spec cols col (l : row V) : forall a, StronglySorted lt l.*1 -> (forall i e, l !! i = Some e -> cols !! (a + i) = Some (fst e)) ->
  exists i, mm_scan (length l) cols a (a + length l) col = Ok (a + i) /\ i <= length l /\
    find_col col l = match l !! i with Some e => if decide (fst e = col) then Some (snd e) else None | None => None end.
Proof.
  induction l as [|[c v] l IH]; intros a Hs Hc; [exists 0; split; [cbn; by rewrite Nat.add_0_r|done]|]. rewrite fmap_cons in Hs. apply StronglySorted_inv in Hs as [Hs Hlt]. cbn [fst] in Hlt.
  cbn [length mm_scan]. rewrite decide_True by lia. assert (E0 : cols !! a = Some c) by (pose proof (Hc 0 (c, v) eq_refl) as E0; by rewrite Nat.add_0_r in E0). rewrite (rd_Ok _ _ _ E0). cbn [obind]. destruct (decide (c < col)) as [Hcc|Hcc].
  - destruct (IH (a + 1) Hs) as (i & E & Hi & Hf). { intros i e He. rewrite <- (Hc (S i) e) by done. f_equal. lia. }
    exists (S i). replace (a + S (length l)) with (a + 1 + length l) by lia. rewrite E. split; [f_equal; lia|]. split; [cbn; lia|]. cbn [find_col lookup list_lookup]. rewrite decide_False by lia. exact Hf.
  - exists 0. split; [by rewrite Nat.add_0_r|]. split; [lia|]. cbn [find_col lookup list_lookup fst snd]. destruct (decide (c = col)); [done|]. apply find_col_None. intros Hin. rewrite Forall_forall in Hlt. specialize (Hlt _ Hin). lia.
Qed.

Lemma mm_dot_spec lb lh lrs rb rh rrs row col : zero_laws A -> shows lb lh lrs -> shows rb rh rrs -> h_cols lh = h_rows rh -> row < h_rows lh ->
  mm_dot A lb lh rb rh row col = Ok (prod A (h_cols lh) (cell lrs) (cell rrs) row col).
Proof.
  intros Hz Hsl Hsr HK Hr. destruct (shows_reads _ _ _ Hsl) as (bl & HL & _). destruct (shows_reads _ _ _ Hsr) as (br & HR & _).
  destruct (lookup_lt_is_Some_2 lrs row) as [l Hl]; [rewrite (rd_rows _ _ _ _ HL); lia|]. unfold mm_dot. rewrite (rd_off _ _ _ _ HL) by (rewrite (rd_rows _ _ _ _ HL); lia). cbn [obind].
  rewrite (rd_off _ _ _ _ HL) by (rewrite (rd_rows _ _ _ _ HL); lia). cbn [obind]. replace (row + 1) with (S row) by lia. rewrite (stored_take_S _ _ _ Hl).
  pose proof (rd_ok _ _ _ _ HL) as Hok. rewrite Forall_lookup in Hok. destruct (Hok _ _ Hl) as [_ Hcl].
  rewrite (for_up_ofold _ (fun e s => Ok (s +' snd e *' cell rrs (fst e) col)) l).
  - assert (Hg : forall l s, ofold (fun e s => Ok (s +' snd e *' cell rrs (fst e) col)) l s = Ok (foldl (fun s e => s +' snd e *' cell rrs (fst e) col) s l)).
    { clear. induction l as [|e l IH]; intros s; [done|]. cbn [ofold obind foldl]. apply IH. }
    rewrite Hg. f_equal. rewrite <- (prod_rows (h_cols lh) lrs (cell rrs) row col Hz (rd_ok _ _ _ _ HL)). by rewrite Hl.
  - lia.
  - intros i e s Hi. destruct (reads_entry _ _ _ _ _ _ _ _ HL Hl Hi) as [Ec Ev]. rewrite (rd_Ok _ _ _ Ec). cbn [obind].
    assert (Hk : fst e < length rrs). { rewrite (rd_rows _ _ _ _ HR), <- HK. rewrite Forall_fmap, Forall_lookup in Hcl. apply (Hcl _ _ Hi). }
    destruct (lookup_lt_is_Some_2 rrs (fst e) Hk) as [l2 Hl2]. rewrite !(rd_off _ _ _ _ HR) by lia. cbn [obind]. replace (fst e + 1) with (S (fst e)) by lia. rewrite (stored_take_S _ _ _ Hl2).
    replace (br + (stored (take (fst e) rrs) + length l2) - (br + stored (take (fst e) rrs))) with (length l2) by lia.
    pose proof (rd_ok _ _ _ _ HR) as Hok2. rewrite Forall_lookup in Hok2. destruct (Hok2 _ _ Hl2) as [Hs2 _].
    destruct (mm_scan_spec (bcols rb) col l2 (br + stored (take (fst e) rrs)) Hs2) as (i2 & E & Hi2 & Hf). { intros q e2 He2. apply (reads_entry _ _ _ _ _ _ _ _ HR Hl2 He2). }
    replace (br + (stored (take (fst e) rrs) + length l2)) with (br + stored (take (fst e) rrs) + length l2) by lia. rewrite E. cbn [obind].
    unfold cell at 1. rewrite Hl2, cell_in_find, Hf. destruct Hz as [_ Hz2]. destruct (l2 !! i2) as [e2|] eqn:He2.
    + pose proof (lookup_lt_Some _ _ _ He2) as Hlt2. rewrite decide_True by lia. destruct (reads_entry _ _ _ _ _ _ _ _ HR Hl2 He2) as [Ec2 Ev2]. rewrite (rd_Ok _ _ _ Ec2). cbn [obind].
      destruct (decide (fst e2 = col)); [|cbn [default]; by rewrite Hz2]. rewrite (rd_Ok _ _ _ Ev). cbn [obind]. rewrite (rd_Ok _ _ _ Ev2). done.
    + apply lookup_ge_None in He2. rewrite decide_False by lia. cbn [default]. by rewrite Hz2.
Qed.

Lemma csr_set_zero_absent b h rows r c v : viszero vzero = true -> covers b h rows -> no_zeros rows -> r < h_rows h -> c < h_cols h ->
  viszero v = true -> cell rows (h_off h + r) c = vzero -> csr_set b h r c v = Ok b.
Proof.
  intros Hv0 Hcov Hnz Hr Hc Hv Hcell. pose proof (stored_lookup_alloc _ _ _ Hcov) as Halloc.
  destruct Hcov as [Hst Hok Hin Hal Hmax]. unfold csr_set. rewrite !decide_False by lia.
  destruct (lookup_lt_is_Some_2 rows (h_off h + r)) as [l Hl]; [lia|].
  assert (Hlok : row_ok (h_cols h) l) by (eapply Forall_lookup_1; eauto).
  assert (Hlz : Forall (fun e => viszero (snd e) = false) l) by (eapply Forall_lookup_1; eauto).
  unfold cell in Hcell. rewrite Hl in Hcell.
  destruct (split_at _ _ _ Hl) as (pre & post & -> & Hp).
  destruct (find_row b h pre l post r c (h_cols h) Hst Hp Hlok) as (-> & -> & l1 & l2 & -> & H1 & H2 & Hlb). cbn [obind].
  replace (length (concat pre) + length (l1 ++ l2) - length (concat pre)) with (length (l1 ++ l2)) by lia.
  rewrite Hlb by done. cbn [obind]. rewrite Halloc. cbn [obind]. rewrite app_length.
  assert (Hl1 : Forall (fun x => x <> c) (l1.*1)) by (eapply Forall_impl; [exact H1|]; simpl; lia).
  rewrite cell_in_app in Hcell by done. destruct l2 as [|[k w] l2].
  - rewrite decide_True by (cbn; lia). cbn [obind]. by rewrite Hv.
  - rewrite decide_False by (simpl; lia). destruct (stores_cols_lookup b pre l1 (k, w) l2 post Hst) as [E1 E2]. simpl in E1, E2.
    rewrite (rd_Ok _ _ _ E1). cbn [obind]. cbn [cell_in] in Hcell. destruct (decide (k = c)) as [->|Hn].
    + subst w. apply Forall_app in Hlz as [_ Hlz]. apply Forall_cons in Hlz as [Hlz _]. cbn in Hlz. congruence.
    + rewrite bool_decide_eq_true_2 by done. by rewrite Hv.
Qed.

Lemma prod_nonzero K (lrs rrs : list (row V)) r c : zero_laws A -> (forall k, K <= k -> colG lrs k r = None) ->
  prod A K (cell lrs) (cell rrs) r c = vzero \/ exists k v w, colG lrs k r = Some v /\ colG rrs c k = Some w.
Proof.
  intros [Hz1 Hz2] _. unfold prod. assert (Hg : forall q s, foldl (fun s k => s +' cell lrs r k *' cell rrs k c) s q = s \/ exists k v w, colG lrs k r = Some v /\ colG rrs c k = Some w); [|apply Hg].
  induction q as [|k q IH]; intros s; [by left|]. cbn [foldl]. destruct (colG lrs k r) as [v|] eqn:E1.
  - destruct (colG rrs c k) as [w|] eqn:E2; [right; by exists k, v, w|]. rewrite (cell_colG rrs k c), E2. cbn [default]. rewrite Hz2. apply IH.
  - rewrite (cell_colG lrs r k), E1. cbn [default]. rewrite Hz1. apply IH.
Qed.

(** There are at most as many non-zero cells in the product as pairs of stored entries. *)
Lemma prod_capacity K m (lrs rrs : list (row V)) (D : list (nat * nat)) : viszero vzero = true -> zero_laws A -> Forall (row_ok K) lrs -> Forall (row_ok m) rrs -> NoDup D ->
  Forall (fun p => viszero (prod A K (cell lrs) (cell rrs) (fst p) (snd p)) = false) D -> length D <= stored lrs * stored rrs.
Proof.
  intros Hv0 Hz HL HR Hnd Hf.
  set (L := concat ((fun t : nat * nat * V => (fun u : nat * nat * V => (t.1.1, u.1.2)) <$> triples rrs) <$> triples lrs)).
  assert (HlL : length L = stored lrs * stored rrs).
  { unfold L. rewrite <- (triples_length 0 lrs), <- (triples_length 0 rrs). fold (triples rrs). change (triples_from 0 lrs) with (triples lrs). change (triples_from 0 rrs) with (triples rrs). generalize (triples lrs). intros T. induction T as [|t T IH]; [done|].
    rewrite fmap_cons. cbn [concat length]. rewrite app_length, fmap_length, IH. lia. }
  rewrite <- HlL. apply submseteq_length. apply NoDup_submseteq; [done|]. intros [r c] Hin. rewrite Forall_forall in Hf. specialize (Hf _ Hin). cbn [fst snd] in Hf.
  destruct (prod_nonzero K lrs rrs r c Hz) as [E|(k & v & w & Ev & Ew)].
  - intros k Hk. by apply (colG_out K).
  - rewrite E in Hf. congruence.
  - unfold L. apply elem_of_concat. exists ((fun u : nat * nat * V => (r, u.1.2)) <$> triples rrs). split.
    + apply elem_of_list_fmap. exists (k, c, w). split; [done|]. by apply (elem_of_triples m).
    + apply elem_of_list_fmap. exists (r, k, v). split; [done|]. by apply (elem_of_triples K).
Qed.
Lemma triples_nodup m (rs : list (row V)) : Forall (row_ok m) rs -> NoDup ((triples rs).*1).
Proof.
  intros Hok. pose proof (triples_sorted m rs 0 Hok) as Hs. change (triples_from 0 rs) with (triples rs) in Hs.
  apply (NoDup_fmap_1 (fun p : nat * nat => p.1 * m + p.2)). induction Hs as [|t T Hs IH Hf]; [constructor|]. rewrite !fmap_cons. constructor; [|done].
  intros (p & Ep & (u & -> & Hu)%elem_of_list_fmap)%elem_of_list_fmap. rewrite Forall_forall in Hf. specialize (Hf u Hu). cbn in *. lia.
Qed.

Lemma mm_csr_csr_spec ta tb lb lh lrs rb rh rrs : viszero vzero = true -> zero_laws A -> shows lb lh lrs -> shows rb rh rrs -> h_cols lh = h_rows rh ->
  exists b h rows, mm_csr_csr A ta tb lb lh rb rh = Ok (b, h) /\ h_rows h = h_rows lh /\ h_cols h = h_cols rh /\ shows b h rows /\ no_zeros rows /\
    forall r c, r < h_rows lh -> c < h_cols rh -> csr_get b h r c = Ok (norm (prod A (h_cols lh) (cell lrs) (cell rrs) r c)).
Proof.
  intros Hv0 Hz Hsl Hsr HK. destruct (shows_reads _ _ _ Hsl) as (bl & HL & _). destruct (shows_reads _ _ _ Hsr) as (br & HR & _).
  unfold mm_csr_csr. rewrite decide_False by tauto. rewrite (reads_nnz _ _ _ _ HL). cbn [obind]. rewrite (reads_nnz _ _ _ _ HR). cbn [obind]. unfold csr_new.
  set (n := h_rows lh). set (m := h_cols rh). set (cap := stored lrs * stored rrs). set (h := mkH 0 n m n false cap 0). set (P := prod A (h_cols lh) (cell lrs) (cell rrs)).
  match goal with |- context [for2 n m ?f ?bini] => destruct (for2_inv (fun row col b => exists rows, covers b h rows /\ length rows = n /\ no_zeros rows /\
    forall r c, r < n -> c < m -> colG rows c r = if decide (r < row \/ r = row /\ c < col) then (if viszero (P r c) then None else Some (P r c)) else None) n m f bini) as (b' & E & rows & Hcov & Hlen & Hnz & Hcell) end.
  - exists (replicate n []). split.
    + split; cbn.
      * split; [|].
        -- cbn. assert (Hg : forall k, replicate (k + 1) 0 = offsets 0 (replicate k ([] : row V))); [|apply Hg]. induction k as [|k IH]; [done|]. cbn [Nat.add replicate offsets length]. f_equal. exact IH.
        -- exists (replicate cap 0), (replicate cap vzero). assert (Hg : concat (replicate n ([] : row V)) = []) by (induction n; done). rewrite Hg. cbn. split; [done|]. split; [done|]. by rewrite !replicate_length.
      * apply Forall_replicate. split; constructor.
      * done.
      * by rewrite replicate_length.
      * by rewrite replicate_length.
    + split; [apply replicate_length|]. split; [apply Forall_replicate; constructor|]. intros r c Hr Hc. rewrite decide_False by lia. unfold colG. by rewrite lookup_replicate_2.
  - intros row col b Hr Hc (rows & Hcov & Hlen & Hnz & Hcell). rewrite (mm_dot_spec lb lh lrs rb rh rrs row col Hz Hsl Hsr HK Hr). cbn [obind]. fold P.
    assert (Hc0 : colG rows col row = None) by (rewrite Hcell by done; by rewrite decide_False by lia).
    destruct (viszero (P row col)) eqn:Ev.
    + exists b. split.
      * apply (csr_set_zero_absent b h rows); try done. cbn. by rewrite cell_colG, Hc0.
      * exists rows. split; [done|]. split; [done|]. split; [done|]. intros r c Hrn Hcm. rewrite Hcell by done. destruct (decide (r = row /\ c = col)) as [[-> ->]|Hn].
        -- rewrite decide_False, decide_True by lia. by rewrite Ev.
        -- destruct (decide (r < row \/ r = row /\ c < col)); [by rewrite decide_True by lia|by rewrite decide_False by lia].
    + assert (Hcap : stored rows < h_max h).
      { change (h_max h) with cap. pose proof (cov_rows _ _ _ Hcov) as Hok. assert (HD : length ((row, col) :: (triples rows).*1) <= cap).
        { apply (prod_capacity (h_cols lh) m); try done; [apply HL|apply HR| |].
          - constructor; [|by apply (triples_nodup m)]. intros ([[r c] v] & Ep & Hin)%elem_of_list_fmap. cbn in Ep. injection Ep as <- <-. apply (elem_of_triples m) in Hin; [|done]. congruence.
          - constructor; [done|]. apply Forall_fmap, Forall_forall. intros [[r c] v] Hin. cbn.
            pose proof (triples_pos m rows 0 Hok) as Hpos. rewrite Forall_forall in Hpos. specialize (Hpos _ Hin). cbn in Hpos. rewrite Hlen in Hpos. apply (elem_of_triples m) in Hin; [|done]. rewrite Hcell in Hin by lia.
            fold P. destruct (decide _); [|done]. by destruct (viszero (P r c)). }
        cbn [length] in HD. rewrite fmap_length in HD. unfold triples in HD. rewrite triples_length in HD. lia. }
      destruct (csr_set_spec b h rows row col (P row col) Hcov Hr Hc Hcap) as (b' & l' & E & Hcov' & Hl' & Hnz' & _). exists b'. split; [done|]. cbn [h h_off Nat.add] in *. exists (<[row := l']> rows).
      split; [done|]. split; [by rewrite insert_length|]. specialize (Hnz' Hnz). split; [done|]. intros r c Hrn Hcm. unfold colG. destruct (decide (r = row)) as [->|Hn].
      * rewrite list_lookup_insert by lia. specialize (Hl' c). rewrite cell_colG, Hcell, cell_in_find, Ev in Hl' by done.
        assert (Hlz : Forall (fun e => viszero (snd e) = false) l') by (unfold no_zeros in Hnz'; rewrite Forall_lookup in Hnz'; apply (Hnz' row); apply list_lookup_insert; lia).
        destruct (find_col c l') as [w|] eqn:Ef.
        -- apply find_col_Some in Ef. rewrite Forall_forall in Hlz. specialize (Hlz _ Ef). cbn in Hlz, Hl'. destruct (decide (c = col)) as [->|Hcn].
           ++ rewrite decide_True by lia. rewrite Ev. by subst w.
           ++ destruct (decide (row < row \/ row = row /\ c < col)); [rewrite decide_True by lia|].
              ** destruct (viszero (P row c)); cbn in Hl'; subst w; [congruence|done].
              ** cbn in Hl'. subst w. congruence.
        -- cbn in Hl'. destruct (decide (c = col)) as [->|Hcn].
           ++ rewrite decide_True by lia. rewrite Ev. rewrite <- Hl' in Ev. congruence.
           ++ destruct (decide (row < row \/ row = row /\ c < col)); [rewrite decide_True by lia|by rewrite decide_False by lia].
              destruct (viszero (P row c)) eqn:Ez; [done|]. cbn in Hl'. rewrite <- Hl' in Ez. congruence.
      * rewrite list_lookup_insert_ne by done. fold (colG rows c r). rewrite Hcell by done. destruct (decide (r < row \/ r = row /\ c < col)); [by rewrite decide_True by lia|by rewrite decide_False by lia].
  - intros r b Hr (rows & Hcov & Hlen & Hnz & Hcell). exists rows. split; [done|]. split; [done|]. split; [done|]. intros r' c' Hr' Hc'. rewrite Hcell by done.
    destruct (decide (r' < r \/ r' = r /\ c' < m)); [by rewrite decide_True by lia|by rewrite decide_False by lia].
  - rewrite E. cbn [obind]. exists b', h, rows. split; [done|]. split; [done|]. split; [done|]. assert (Hsh : shows b' h rows) by (apply shows_all; done). split; [done|]. split; [done|].
    intros r c Hr Hc. rewrite (shows_cell _ _ rows) by done. f_equal. rewrite cell_colG, Hcell by done. rewrite decide_True by (left; done). fold P. unfold norm. by destruct (viszero (P r c)).
Qed.
End mm.
