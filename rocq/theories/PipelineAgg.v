(** Proofs about the aggregating combines of vectorized pipelines. *)
From stdpp Require Import base numbers sorting list list_numbers.
From Coq Require Import Lia.
From Verif Require Import CppBase Mem DenseModel PipelineModel PipelineSpec PipelineProofs.

Lemma is_dense_ext {V} (a : dmat V) n m x y : (forall r c, r < n -> c < m -> x r c = y r c) -> is_dense a n m x -> is_dense a n m y.
Proof. intros H (H1 & H2 & H3 & H4 & H5). repeat split; try done. intros r c Hr Hc. rewrite <- H by done. by apply H5. Qed.
Lemma is_dense_fun {V} (a : dmat V) n m x y r c : is_dense a n m x -> is_dense a n m y -> r < n -> c < m -> x r c = y r c.
Proof. intros (_ & _ & _ & _ & H1) (_ & _ & _ & _ & H2) Hr Hc. pose proof (H1 r c Hr Hc). pose proof (H2 r c Hr Hc). congruence. Qed.

Lemma ew_inplace_spec {V} (op : V -> V -> V) a b p q x y : is_dense a p q x -> is_dense b p q y ->
  exists r, ew_inplace op a b = Ok r /\ is_dense r p q (fun i j => op (x i j) (y i j)).
Proof.
  intros (Ha1 & Ha2 & Ha3 & Ha4 & Ha5) (Hb1 & Hb2 & Hb3 & Hb4 & Hb5). unfold ew_inplace. rewrite decide_True by (split; congruence).
  rewrite Ha1, Ha2.
  assert (Hinj : forall r c r' c', c < q -> c' < q -> m_off a + r * m_skip a + c = m_off a + r' * m_skip a + c' -> r = r' /\ c = c').
  { intros r c r' c' Hc Hc' E. apply (pos_inj (m_skip a)); lia. }
  destruct (for2_inv (fun r c buf => length buf = length (m_buf a) /\
      forall r' c', r' < p -> c' < q -> buf !! (m_off a + r' * m_skip a + c') =
        Some (if decide (r' < r \/ (r' = r /\ c' < c)) then op (x r' c') (y r' c') else x r' c')) p q
      (fun r c b0 => let* x0 := rd b0 (m_off a + r * m_skip a + c) in let* y0 := rd (m_buf b) (m_off b + r * m_skip b + c) in
                    wr b0 (m_off a + r * m_skip a + c) (op x0 y0)) (m_buf a)) as (buf & E & Hl & Hbuf).
  - split; [done|]. intros r' c' Hr Hc. rewrite decide_False by lia. by apply Ha5.
  - intros r c s Hr Hc [Hl Hs]. pose proof (Hs r c Hr Hc) as Hrc. rewrite decide_False in Hrc by lia. rewrite (rd_Ok _ _ _ Hrc). cbn [obind].
    rewrite (rd_Ok _ _ _ (Hb5 r c Hr Hc)). cbn [obind]. rewrite wr_Ok by (by eapply lookup_lt_Some). eexists. split; [done|]. rewrite insert_length. split; [done|].
    intros r' c' Hr' Hc'. destruct (decide (r' = r /\ c' = c)) as [[-> ->]|Hne].
    + rewrite list_lookup_insert by (by eapply lookup_lt_Some). by rewrite decide_True by lia.
    + rewrite list_lookup_insert_ne.
      * rewrite Hs by done. f_equal. destruct (decide (r' < r \/ (r' = r /\ c' < c))) as [H1|H1]; destruct (decide (r' < r \/ (r' = r /\ c' < 1 + c))) as [H2|H2]; try done; exfalso; lia.
      * intros E. apply Hinj in E; [|done|done]. naive_solver.
  - intros r s Hr [Hl Hs]. split; [done|]. intros r' c' Hr' Hc'. rewrite Hs by done. f_equal.
    destruct (decide (r' < r \/ (r' = r /\ c' < q))) as [H1|H1]; destruct (decide (r' < 1 + r \/ (r' = 1 + r /\ c' < 0))) as [H2|H2]; try done; exfalso; lia.
  - rewrite E. cbn [obind]. eexists. split; [done|]. split; [done|]. split; [done|]. split; [done|]. cbn [m_buf m_off m_skip]. split; [by rewrite Hl|].
    intros r c Hr Hc. rewrite Hbuf by done. by rewrite decide_True by lia.
Qed.

Section agg.
Context {V : Type} (op : V -> V -> V) (Hassoc : forall x y z, op x (op y z) = op (op x y) z) (Hcomm : forall x y, op x y = op y x).

Definition fold1 (l : list V) : option V := match l with [] => None | x :: l' => Some (foldl op x l') end.
Lemma foldl_op x y l : foldl op (op x y) l = op x (foldl op y l).
Proof. revert y. induction l as [|z l IH]; intros y; simpl; [done|]. rewrite <- Hassoc. apply IH. Qed.
Lemma foldl_perm l l' : l ≡ₚ l' -> forall x, foldl op x l = foldl op x l'.
Proof.
  induction 1 as [| y l l' _ IH | y z l | l1 l2 l3 _ IH1 _ IH2]; intros x; simpl; [done|apply IH| |by rewrite IH1].
  by rewrite <- !Hassoc, (Hcomm y z).
Qed.
Lemma fold1_perm l l' : l ≡ₚ l' -> fold1 l = fold1 l'.
Proof.
  induction 1 as [| y l l' H IH | y z l | l1 l2 l3 _ IH1 _ IH2]; simpl; [done| |by rewrite Hcomm|by rewrite IH1].
  f_equal. by apply foldl_perm.
Qed.
Lemma fold1_app l1 l2 x y : fold1 l1 = Some x -> fold1 l2 = Some y -> fold1 (l1 ++ l2) = Some (op x y).
Proof.
  destruct l1 as [|a l1], l2 as [|b l2]; simpl; [done..|]. intros [= <-] [= <-]. f_equal. rewrite foldl_app. simpl. by rewrite foldl_op.
Qed.
Lemma aggr_fold1 f a k : fold1 (f <$> seq a (S k)) = Some (aggr op f a k).
Proof.
  induction k as [|k IH]; [done|]. rewrite seq_S, fmap_app. cbn [aggr]. apply fold1_app; [apply IH|done].
Qed.
Lemma aggr_shift (f g : nat -> V) a b k : (forall i, i <= k -> f (a + i) = g (b + i)) -> aggr op f a k = aggr op g b k.
Proof.
  intros H. induction k as [|k IH]; cbn [aggr]; [specialize (H 0); rewrite !Nat.add_0_r in H; apply H; lia|]. rewrite H by lia. f_equal. apply IH. intros i Hi. apply H. lia.
Qed.

Context (body : list (list (list V)) -> outcome (dmat V)) (valid : list (list (list V)) -> Prop) (ins : list (pinput V)) (p q n bs : nat) (h : list (list (list V)) -> nat -> nat -> V).
Notation splits := (pi_split <$> ins).
Definition contrib (i j t : nat) : V := h (all_seen splits (pi_rows <$> ins) t) i j.
Context (Hbody : aggregating body valid splits op p q h) (Hcompat : compatible valid splits (pi_rows <$> ins) n) (Hbs : 0 < bs).

Lemma batch_agg r r2 : r < r2 <= n -> exists xs out, func_inputs r r2 ins = Ok xs /\ body xs = Ok out /\
  is_dense out p q (fun i j => aggr op (contrib i j) r (r2 - r - 1)).
Proof.
  intros Hr. destruct (func_inputs_seen valid ins n r r2 Hcompat Hr) as (xs & E & Hc & Hs). destruct (Hbody xs (r2 - r)) as (out & Eo & Hd); [lia|done|].
  exists xs, out. split; [done|]. split; [done|]. eapply is_dense_ext; [|exact Hd]. intros i j Hi Hj. apply aggr_shift. intros t Ht. unfold contrib. rewrite Hs by lia. done.
Qed.

(** The rows in a list have been aggregated into the matrix [a]. *)
Definition holds_rows (init : nat -> nat -> list V) (a : dmat V) (rows : list nat) : Prop :=
  exists x, is_dense a p q x /\ forall i j, i < p -> j < q -> fold1 (init i j ++ (contrib i j <$> rows)) = Some (x i j).

Lemma agg_loop_spec fuel : forall r ru acc rows, ru <= n -> r <= ru -> ru - r <= fuel ->
  (match acc with None => rows = [] /\ r < ru | Some a => holds_rows (fun _ _ => []) a rows end) ->
  exists a, agg_loop body op ins bs fuel r ru acc = Ok (Some a) /\ holds_rows (fun _ _ => []) a (rows ++ seq r (ru - r)).
Proof.
  induction fuel as [|fuel IH]; intros r ru acc rows Hn Hr Hf Hacc; cbn [agg_loop].
  - rewrite decide_False by lia. replace (ru - r) with 0 by lia. destruct acc as [a|]; [|lia]. exists a. split; [done|]. cbn [seq]. by rewrite app_nil_r.
  - destruct (decide (r < ru)) as [Hlt|Hge].
    2:{ replace (ru - r) with 0 by lia. destruct acc as [a|]; [|lia]. exists a. split; [done|]. cbn [seq]. by rewrite app_nil_r. }
    destruct (batch_agg r (Nat.min (r + bs) ru)) as (xs & out & -> & Eo & Hd); [lia|]. cbn [obind]. rewrite Eo. cbn [obind].
    set (r2 := Nat.min (r + bs) ru) in *.
    assert (Hnew : exists a', acc_agg op acc out = Ok a' /\ holds_rows (fun _ _ => []) a' (rows ++ seq r (r2 - r))).
    { assert (Hf1 : forall i j, fold1 (contrib i j <$> seq r (r2 - r)) = Some (aggr op (contrib i j) r (r2 - r - 1))).
      { intros i j. replace (r2 - r) with (S (r2 - r - 1)) at 1 by lia. apply aggr_fold1. }
      destruct acc as [a|]; cbn [acc_agg].
      - destruct Hacc as (x & Hx & Hrows). destruct (ew_inplace_spec op a out p q _ _ Hx Hd) as (a' & E & Ha'). exists a'. split; [done|].
        eexists. split; [exact Ha'|]. intros i j Hi Hj. cbn [app]. rewrite fmap_app. apply fold1_app; [by apply (Hrows i j)|apply Hf1].
      - destruct Hacc as [-> _]. exists out. split; [done|]. eexists. split; [exact Hd|]. intros i j Hi Hj. apply Hf1. }
    destruct Hnew as (a' & -> & Ha'). cbn [obind].
    destruct (decide (r + bs <= ru)) as [Hle|Hgt].
    + destruct (IH (r + bs) ru (Some a') (rows ++ seq r (r2 - r))) as (a & E & Ha); [lia..|done|]. exists a. split; [done|].
      rewrite <- app_assoc in Ha. replace (seq r (ru - r)) with (seq r (r2 - r) ++ seq (r + bs) (ru - (r + bs))); [done|].
      replace (ru - r) with ((r2 - r) + (ru - (r + bs))) by lia. rewrite seq_app. f_equal. f_equal. lia.
    + exists a'. split; [destruct fuel; cbn [agg_loop]; by rewrite decide_False by lia|]. replace ru with r2 by lia. exact Ha'.
Qed.

Definition rows_of (ts : list (nat * nat)) : list nat := concat ((fun t => seq (fst t) (snd t - fst t)) <$> ts).
Lemma run_agg_spec (init : nat -> nat -> list V) ts : (forall t, t ∈ ts -> fst t < snd t <= n) -> forall res rows,
  (match res with None => rows = [] /\ ts <> [] /\ forall i j, init i j = [] | Some a => holds_rows init a rows end) ->
  exists a, run_agg body op ins bs res ts = Ok (Some a) /\ holds_rows init a (rows ++ rows_of ts).
Proof.
  induction ts as [|t ts IH]; intros Ht res rows Hres.
  { destruct res as [a|]; [|naive_solver]. exists a. split; [done|]. unfold rows_of. simpl. by rewrite app_nil_r. }
  destruct (Ht t) as [Ht1 Ht2]; [left|]. cbn [run_agg]. unfold task_agg.
  destruct (agg_loop_spec (snd t - fst t) (fst t) (snd t) None []) as (l & -> & Hl); [lia..|done|]. cbn [obind app] in Hl |- *.
  assert (Hres' : exists a', match res with None => Ok (Some l) | Some a => let* a' := ew_inplace op a l in Ok (Some a') end = Ok (Some a') /\
            holds_rows init a' (rows ++ seq (fst t) (snd t - fst t))).
  { destruct Hl as (y & Hy & Hly). destruct res as [a|].
    - destruct Hres as (x & Hx & Hrows). destruct (ew_inplace_spec op a l p q _ _ Hx Hy) as (a' & -> & Ha'). exists a'. split; [done|]. eexists. split; [exact Ha'|].
      intros i j Hi Hj. rewrite fmap_app, app_assoc. apply fold1_app; [by apply Hrows|]. by apply (Hly i j).
    - destruct Hres as (-> & _ & Hin). exists l. split; [done|]. exists y. split; [done|]. intros i j Hi Hj. rewrite Hin. by apply (Hly i j). }
  destruct Hres' as (a' & -> & Ha'). cbn [obind]. destruct (IH) with (res := Some a') (rows := rows ++ seq (fst t) (snd t - fst t)) as (a & E & Ha); [intros t' ?; apply Ht; by right|done|].
  exists a. split; [done|]. unfold rows_of in *. rewrite fmap_cons. cbn [concat]. by rewrite app_assoc.
Qed.
End agg.

Lemma rows_of_cover n ts : tasks_cover n ts -> rows_of ts ≡ₚ seq 0 n.
Proof.
  intros [Ht Hc]. unfold rows_of. apply NoDup_Permutation; [|apply NoDup_seq|].
  - assert (Hdis : forall i j t t' r, ts !! i = Some t -> ts !! j = Some t' -> fst t <= r < snd t -> fst t' <= r < snd t' -> i = j).
    { intros i j t t' r Hi Hj H1 H2. destruct (Hc r) as (k & tk & Hk & Hkr & Hu).
      - assert (t ∈ ts) as Hin by (by eapply elem_of_list_lookup_2). specialize (Ht t Hin). lia.
      - transitivity k; [by eapply Hu|symmetry; by eapply Hu]. }
    clear Ht Hc. induction ts as [|t ts IH]; [constructor|]. rewrite fmap_cons. cbn [concat]. apply NoDup_app. split; [apply NoDup_seq|]. split.
    + intros r Hr%elem_of_seq Hr2. apply elem_of_concat in Hr2 as (l & Hr2 & Hl). apply elem_of_list_fmap in Hl as (t' & -> & Ht').
      apply elem_of_seq in Hr2. apply elem_of_list_lookup_1 in Ht' as (j & Hj). assert (0 = S j); [|lia]. eapply (Hdis 0 (S j) t t' r); [done|done|lia|lia].
    + apply IH. intros i j u u' r Hi Hj H1 H2. assert (S i = S j); [|lia]. by eapply (Hdis (S i) (S j) u u' r).
  - intros r. rewrite elem_of_concat, elem_of_seq. split.
    + intros (l & Hr & Hl). apply elem_of_list_fmap in Hl as (t & -> & Hin). apply elem_of_seq in Hr. specialize (Ht t Hin). lia.
    + intros Hr. destruct (Hc r) as (i & t & Hi & Htr & _); [lia|]. exists (seq (fst t) (snd t - fst t)). split; [apply elem_of_seq; lia|].
      apply elem_of_list_fmap. exists t. split; [done|]. by eapply elem_of_list_lookup_2.
Qed.
