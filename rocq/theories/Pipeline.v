(** Properties C07 and C08: the result of a vectorized pipeline does not depend on the partitioning, the batch size and the schedule. *)
From stdpp Require Import base numbers sorting list list_numbers.
From Coq Require Import Lia ZArith.
From Verif Require Import PartitionSpec LoadPartitioningModel LoadPartitioning.
From Verif Require Import CppBase Mem DenseModel PipelineModel PipelineSpec PipelineProofs PipelineAgg.

(** C07, outputs combined by rows. For every way to divide the rows in tasks and batches: the assignments of the tasks to the shared
    result touch no cell twice (so the tasks do not race, although they write without a lock), and executed in any interleaving they
    yield the matrix that the body computes from the whole inputs. *)
Theorem C07_rows {V} body valid (ins : list (pinput V)) m n h bs ts b0 :
  row_wise body valid (pi_split <$> ins) m h -> compatible valid (pi_split <$> ins) (pi_rows <$> ins) n ->
  0 < n -> 0 < bs -> tasks_cover n ts -> length b0 = n * m ->
  exists wss out, all_writes body CRows n m ins bs ts = Ok wss /\ body (pi_rows <$> ins) = Ok out /\ NoDup (concat wss).*1 /\
    forall ws, ws ≡ₚ concat wss -> exists b', write_all b0 ws = Ok b' /\ forall x, is_dense out n m x -> tabulated n m x b'.
Proof.
  intros Hb Hc Hn Hbs Hcov Hl. destruct (Hb _ n Hn Hc) as (out & Eo & Hd). set (G := fun i c => h (all_seen (pi_split <$> ins) (pi_rows <$> ins) i) c) in Hd.
  destruct (all_described body CRows n m ins bs (pos_rows m) n m G ts) as (wss & E & HF); [done|apply pos_rows_ok|apply Hcov| |].
  { intros r r2 Hr. destruct (func_inputs_seen valid ins n r r2 Hc Hr) as (xs & Ex & Hcx & Hs). destruct (Hb xs (r2 - r)) as (lres & El & Hdl); [lia|done|].
    destruct (batch_rows n m r r2 lres G Hr) as (ws & Ew & Hw). { eapply is_dense_ext; [|exact Hdl]. intros i c Hi Hcc. unfold G. by rewrite Hs. }
    by exists xs, lres, ws. }
  exists wss, out. split; [done|]. split; [done|]. split; [by eapply cover_nodup; [apply (pos_rows_ok n m)|done|]|].
  intros ws Hp. destruct (interleaved n m (pos_rows m) G ts wss ws b0 (n * m)) as (b' & Eb & Hlb & Hbb); [apply pos_rows_ok|done|done| |done|done|].
  { intros r c Hr Hcc. by apply pos_lt. }
  exists b'. split; [done|]. intros x Hx. split; [done|]. intros r c Hr Hcc. pose proof (Hbb r c Hr Hcc) as H. unfold pos_rows in H. rewrite H. f_equal. by apply (is_dense_fun out n m).
Qed.
(** C07, outputs combined by columns (row i of the inputs becomes column i of the output). *)
Theorem C07_cols {V} body valid (ins : list (pinput V)) w n h bs ts b0 :
  col_wise body valid (pi_split <$> ins) w h -> compatible valid (pi_split <$> ins) (pi_rows <$> ins) n ->
  0 < n -> 0 < bs -> tasks_cover n ts -> length b0 = w * n ->
  exists wss out, all_writes body CCols w n ins bs ts = Ok wss /\ body (pi_rows <$> ins) = Ok out /\ NoDup (concat wss).*1 /\
    forall ws, ws ≡ₚ concat wss -> exists b', write_all b0 ws = Ok b' /\ forall x, is_dense out w n x -> tabulated w n x b'.
Proof.
  intros Hb Hc Hn Hbs Hcov Hl. destruct (Hb _ n Hn Hc) as (out & Eo & Hd). set (G := fun i c => h (all_seen (pi_split <$> ins) (pi_rows <$> ins) i) c).
  destruct (all_described body CCols w n ins bs (pos_cols n) n w G ts) as (wss & E & HF); [done|apply pos_cols_ok|apply Hcov| |].
  { intros r r2 Hr. destruct (func_inputs_seen valid ins n r r2 Hc Hr) as (xs & Ex & Hcx & Hs). destruct (Hb xs (r2 - r)) as (lres & El & Hdl); [lia|done|].
    destruct (batch_cols w n r r2 lres G Hr) as (ws & Ew & Hw). { eapply is_dense_ext; [|exact Hdl]. intros c i Hcc Hi. unfold G. cbn beta. by rewrite Hs. }
    by exists xs, lres, ws. }
  exists wss, out. split; [done|]. split; [done|]. split; [by eapply cover_nodup; [apply (pos_cols_ok n w)|done|]|].
  intros ws Hp. destruct (interleaved n w (pos_cols n) G ts wss ws b0 (w * n)) as (b' & Eb & Hlb & Hbb); [apply pos_cols_ok|done|done| |done|done|].
  { intros r c Hr Hcc. unfold pos_cols. by apply pos_lt. }
  exists b'. split; [done|]. intros x Hx. split; [done|]. intros c r Hcc Hr. pose proof (Hbb r c Hr Hcc) as H. unfold pos_cols in H. rewrite H. f_equal. unfold G.
  pose proof (is_dense_fun out w n _ _ c r Hx Hd Hcc Hr) as Hf. by rewrite Hf.
Qed.

Lemma C08_rows_of {V} (op : V -> V -> V) body valid (ins : list (pinput V)) p q n h bs ts (res : option (dmat V)) e :
  (forall x y z, op x (op y z) = op (op x y) z) -> (forall x y, op x y = op y x) ->
  aggregating body valid (pi_split <$> ins) op p q h -> compatible valid (pi_split <$> ins) (pi_rows <$> ins) n ->
  0 < n -> 0 < bs -> (forall t, t ∈ ts -> fst t < snd t <= n) -> rows_of ts ≡ₚ seq 0 n ->
  (match res with Some a => is_dense a p q (fun _ _ => e) /\ forall x, op e x = x | None => True end) ->
  exists a out, run_agg body op ins bs res ts = Ok (Some a) /\ body (pi_rows <$> ins) = Ok out /\
    forall x, is_dense out p q x -> is_dense a p q x.
Proof.
  intros Ha Hcm Hb Hc Hn Hbs Hcov Hperm Hres. destruct (Hb _ n Hn Hc) as (out & Eo & Hd).
  assert (Hne : ts <> []). { intros ->. apply Permutation_length in Hperm. rewrite seq_length in Hperm. unfold rows_of in Hperm. simpl in Hperm. lia. }
  set (init := fun _ _ : nat => match res with Some _ => [e] | None => [] end).
  destruct (run_agg_spec op Ha body valid ins p q n bs h Hb Hc Hbs init ts) with (res := res) (rows := @nil nat) as (a & E & x & Hx & Hf).
  - done.
  - destruct res as [a|]; [|done]. exists (fun _ _ => e). split; [apply Hres|]. intros i j _ _. done.
  - exists a, out. split; [done|]. split; [done|]. intros y Hy. eapply is_dense_ext; [|exact Hx]. intros i j Hi Hj. specialize (Hf i j Hi Hj). cbn [app] in Hf.
    assert (Hag : fold1 op (contrib ins h i j <$> seq 0 n) = Some (y i j)).
    { replace n with (S (n - 1)) at 1 by lia. rewrite (aggr_fold1 op Ha). f_equal. pose proof (is_dense_fun out p q _ _ i j Hd Hy Hi Hj) as Hf'. exact Hf'. }
    rewrite (fold1_perm op Ha Hcm _ (init i j ++ (contrib ins h i j <$> seq 0 n))) in Hf by (by rewrite Hperm).
    unfold init in Hf. destruct res as [r0|]; [|cbn [app] in Hf; congruence].
    rewrite (fold1_app op Ha [e] _ e (y i j)) in Hf by done. destruct Hres as [_ He]. rewrite He in Hf. congruence.
Qed.

(** C08, outputs combined by an associative and commutative operation: whatever the division in tasks and batches and the order [ts]
    in which the tasks update the shared result, the result is what the body computes from the whole inputs. The shared result is
    either preallocated and filled with a neutral element, or not yet allocated. *)
Theorem C08_aggregate {V} (op : V -> V -> V) body valid (ins : list (pinput V)) p q n h bs ts (res : option (dmat V)) e :
  (forall x y z, op x (op y z) = op (op x y) z) -> (forall x y, op x y = op y x) ->
  aggregating body valid (pi_split <$> ins) op p q h -> compatible valid (pi_split <$> ins) (pi_rows <$> ins) n ->
  0 < n -> 0 < bs -> tasks_cover n ts ->
  (match res with Some a => is_dense a p q (fun _ _ => e) /\ forall x, op e x = x | None => True end) ->
  exists a out, run_agg body op ins bs res ts = Ok (Some a) /\ body (pi_rows <$> ins) = Ok out /\
    forall x, is_dense out p q x -> is_dense a p q x.
Proof. intros Ha Hcm Hb Hc Hn Hbs Hcov Hres. eapply C08_rows_of; [done..|apply Hcov|by apply rows_of_cover|done]. Qed.

(** ** The engine: the tasks created by the engine satisfy the hypothesis on tasks. *)
Definition nat_tasks (ts : list (N * N)) : list (nat * nat) := (fun t => (N.to_nat (fst t), N.to_nat (snd t))) <$> ts.
Lemma nth_error_lookup {A} (l : list A) i : nth_error l i = l !! i.
Proof. revert i. induction l as [|x l IH]; intros [|i]; simpl; auto. Qed.
Lemma exact_cover_tasks n ts : exact_cover n ts -> tasks_cover (N.to_nat n) (nat_tasks ts).
Proof.
  intros [H1 H2]. split.
  - intros t Ht. apply elem_of_list_fmap in Ht as (t0 & -> & Hin). apply elem_of_list_In in Hin. specialize (H2 t0 Hin). simpl. lia.
  - intros r Hr. destruct (H1 (N.of_nat r)) as (i & rg & Hi & Hcv & Hu); [lia|]. exists i, (N.to_nat (fst rg), N.to_nat (snd rg)).
    rewrite nth_error_lookup in Hi. unfold covers in Hcv. split; [unfold nat_tasks; by rewrite list_lookup_fmap, Hi|]. split; [simpl; lia|].
    intros j t' Hj Ht'. unfold nat_tasks in Hj. rewrite list_lookup_fmap in Hj. destruct (ts !! j) as [t0|] eqn:Ej; [|done]. injection Hj as <-. simpl in Ht'.
    apply (Hu j t0); [by rewrite nth_error_lookup|]. unfold covers. lia.
Qed.
Lemma lookup_concat {A} (ls : list (list A)) k x : concat ls !! k = Some x <->
  exists q l i, ls !! q = Some l /\ l !! i = Some x /\ k = length (concat (take q ls)) + i.
Proof.
  revert k. induction ls as [|l ls IH]; intros k; cbn [concat]; [split; [done|by intros (? & ? & ? & ? & _)]|]. split.
  - intros H. destruct (decide (k < length l)) as [Hk|Hk].
    + rewrite lookup_app_l in H by done. by exists 0, l, k.
    + rewrite lookup_app_r in H by lia. apply IH in H as (q & l' & i & Hq & Hi & Hk'). exists (S q), l', i. split; [done|]. split; [done|]. cbn [take concat]. rewrite app_length. lia.
  - intros (q & l' & i & Hq & Hi & ->). destruct q as [|q].
    + injection Hq as <-. cbn [take concat length plus]. rewrite lookup_app_l; [done|]. by eapply lookup_lt_Some.
    + cbn [take concat]. rewrite app_length, lookup_app_r by lia. apply IH. exists q, l', i. split; [done|]. split; [done|]. lia.
Qed.
Lemma exact_cover_queues_tasks n qs : exact_cover_queues n qs -> tasks_cover (N.to_nat n) (nat_tasks (concat qs)).
Proof.
  intros [H1 H2]. split.
  - intros t Ht. apply elem_of_list_fmap in Ht as (t0 & -> & Hin). apply elem_of_concat in Hin as (l & Hin & Hl). apply elem_of_list_In in Hin, Hl. specialize (H2 l t0 Hl Hin). simpl. lia.
  - intros r Hr. destruct (H1 (N.of_nat r)) as (q & i & l & rg & Hq & Hi & Hcv & Hu); [lia|]. rewrite nth_error_lookup in Hq. rewrite nth_error_lookup in Hi.
    exists (length (concat (take q qs)) + i), (N.to_nat (fst rg), N.to_nat (snd rg)). unfold covers in Hcv. split.
    { unfold nat_tasks. rewrite list_lookup_fmap. assert (concat qs !! (length (concat (take q qs)) + i) = Some rg) as -> by (apply lookup_concat; by exists q, l, i). done. }
    split; [simpl; lia|]. intros j t' Hj Ht'. unfold nat_tasks in Hj. rewrite list_lookup_fmap in Hj. destruct (concat qs !! j) as [t0|] eqn:Ej; [|done]. injection Hj as <-. simpl in Ht'.
    apply lookup_concat in Ej as (q' & l' & i' & Hq' & Hi' & ->). destruct (Hu q' i' l' t0) as [-> ->]; [by rewrite nth_error_lookup..|unfold covers; lia|done].
Qed.

(** C07 for the engine with one queue: any partitioning scheme, any minimum task size, any number of threads. *)
Theorem C07_engine_rows {V} body valid (ins : list (pinput V)) m rows h bs b0 ff sch minTask threads :
  row_wise body valid (pi_split <$> ins) m h -> compatible valid (pi_split <$> ins) (pi_rows <$> ins) (N.to_nat rows) ->
  (0 < rows < 2 ^ 64)%N -> (1 <= threads)%N -> 0 < bs -> length b0 = N.to_nat rows * m ->
  exists tasks wss out, singleQueueTasks ff (N.to_nat rows) sch rows minTask threads = Done tasks /\
    all_writes body CRows (N.to_nat rows) m ins bs (nat_tasks tasks) = Ok wss /\ body (pi_rows <$> ins) = Ok out /\ NoDup (concat wss).*1 /\
    forall ws, ws ≡ₚ concat wss -> exists b', write_all b0 ws = Ok b' /\ forall x, is_dense out (N.to_nat rows) m x -> tabulated (N.to_nat rows) m x b'.
Proof.
  intros Hb Hc Hr Ht Hbs Hl. destruct (C03_single_queue_partition ff sch rows minTask threads) as (tasks & E & Hcov & _); [lia|done|].
  destruct (C07_rows body valid ins m (N.to_nat rows) h bs (nat_tasks tasks) b0) as (wss & out & H); [done|done|lia|done|by apply exact_cover_tasks|done|].
  exists tasks, wss, out. by split.
Qed.
(** ... and with several queues. *)
Theorem C07_engine_rows_multi {V} body valid (ins : list (pinput V)) m rows h bs b0 ff pre sch minTask threads nq :
  row_wise body valid (pi_split <$> ins) m h -> compatible valid (pi_split <$> ins) (pi_rows <$> ins) (N.to_nat rows) ->
  (0 < rows < 2 ^ 64)%N -> (1 <= threads)%N -> 0 < nq -> 0 < bs -> length b0 = N.to_nat rows * m ->
  exists queues wss out, cpuQueuesTasks ff (N.to_nat rows) pre sch rows minTask threads nq = Done queues /\
    all_writes body CRows (N.to_nat rows) m ins bs (nat_tasks (concat queues)) = Ok wss /\ body (pi_rows <$> ins) = Ok out /\ NoDup (concat wss).*1 /\
    forall ws, ws ≡ₚ concat wss -> exists b', write_all b0 ws = Ok b' /\ forall x, is_dense out (N.to_nat rows) m x -> tabulated (N.to_nat rows) m x b'.
Proof.
  intros Hb Hc Hr Ht Hq Hbs Hl. destruct (C03_multi_queue_partition ff pre sch rows minTask threads nq) as (queues & E & _ & Hcov); [lia|done|done|].
  destruct (C07_rows body valid ins m (N.to_nat rows) h bs (nat_tasks (concat queues)) b0) as (wss & out & H); [done|done|lia|done|by apply exact_cover_queues_tasks|done|].
  exists queues, wss, out. by split.
Qed.
(** C08 for the engine: [order] is the order in which the tasks created by the engine finish (every task exactly once: C05, C06). *)
Theorem C08_engine {V} (op : V -> V -> V) body valid (ins : list (pinput V)) p q rows h bs (res : option (dmat V)) e ff pre sch minTask threads nq :
  (forall x y z, op x (op y z) = op (op x y) z) -> (forall x y, op x y = op y x) ->
  aggregating body valid (pi_split <$> ins) op p q h -> compatible valid (pi_split <$> ins) (pi_rows <$> ins) (N.to_nat rows) ->
  (0 < rows < 2 ^ 64)%N -> (1 <= threads)%N -> 0 < nq -> 0 < bs ->
  (match res with Some a => is_dense a p q (fun _ _ => e) /\ forall x, op e x = x | None => True end) ->
  exists queues out, cpuQueuesTasks ff (N.to_nat rows) pre sch rows minTask threads nq = Done queues /\ body (pi_rows <$> ins) = Ok out /\
    forall order, order ≡ₚ nat_tasks (concat queues) -> exists a, run_agg body op ins bs res order = Ok (Some a) /\
      forall x, is_dense out p q x -> is_dense a p q x.
Proof.
  intros Ha Hcm Hb Hc Hr Ht Hq Hbs Hres. destruct (C03_multi_queue_partition ff pre sch rows minTask threads nq) as (queues & E & _ & Hcov); [lia|done|done|].
  apply exact_cover_queues_tasks in Hcov. destruct (Hb _ (N.to_nat rows) ltac:(lia) Hc) as (out & Eo & Hd). exists queues, out. split; [done|]. split; [done|].
  intros order Hp. destruct (C08_rows_of op body valid ins p q (N.to_nat rows) h bs order res e) as (a & out' & E1 & E2 & H); [done..|lia|done| | |done|].
  - intros t Hin. apply Hcov. by rewrite <- Hp.
  - rewrite <- (rows_of_cover _ _ Hcov). unfold rows_of. by rewrite Hp.
  - exists a. split; [done|]. assert (out' = out) as -> by congruence. done.
Qed.

(** ** Examples *)
(** Two inputs (the second one broadcast), body: first input plus the only row of the second one, cell by cell. *)
Definition ex_ins : list (pinput Z) :=
  [mkPI true [[1; 2]; [3; 4]; [5; 6]; [7; 8]; [9; 10]]%Z; mkPI false [[100; 200]]%Z].
Definition ex_valid (ss : list (list (list Z))) : Prop := exists x y b0 b1, ss = [[[x; y]]; [[b0; b1]]].
Definition ex_row (b row : list Z) : list Z := match b, row with [b0; b1], [x; y] => [x + b0; y + b1]%Z | _, _ => [0; 0]%Z end.
Definition ex_body (xs : list (list (list Z))) : outcome (dmat Z) :=
  match xs with [a; [b]] => Ok (mkDM (concat (ex_row b <$> a)) 0 (length a) 2 2) | _ => Throw end.
Definition ex_h (ss : list (list (list Z))) (c : nat) : Z := match ss with [[a]; [b]] => nth c (ex_row b a) 0%Z | _ => 0%Z end.
Lemma ex_row_len b a : length (ex_row b a) = 2.
Proof. by destruct b as [|? [|? [|? ?]]], a as [|? [|? [|? ?]]]. Qed.
Lemma ex_rows_at b a i row c : a !! i = Some row -> c < 2 -> concat (ex_row b <$> a) !! (i * 2 + c) = Some (nth c (ex_row b row) 0%Z).
Proof.
  revert i. induction a as [|r a IH]; intros i Hi Hc; [done|]. rewrite fmap_cons. cbn [concat]. destruct i as [|i].
  - injection Hi as ->. cbn [Nat.mul plus]. rewrite lookup_app_l by (by rewrite ex_row_len). destruct (nth_lookup_or_length (ex_row b row) c 0%Z) as [H|H]; [done|]. rewrite ex_row_len in H. lia.
  - rewrite lookup_app_r by (rewrite ex_row_len; lia). rewrite ex_row_len. replace (S i * 2 + c - 2) with (i * 2 + c) by lia. by apply IH.
Qed.
Lemma ex_row_wise : row_wise ex_body ex_valid [true; false] 2 ex_h.
Proof.
  intros xs k Hk (Hf & (j & x & Hj & Hx & Hl) & Hv). unfold lengths_fit in Hf. inversion Hf as [|s1 a l1 xs' Ha Hf']; subst. inversion Hf' as [|s2 b l2 xs'' _ Hf'']; subst. inversion Hf''; subst.
  destruct j as [|[|j]]; [|done|done]. injection Hx as <-. destruct (Hv 0 Hk) as (x0 & y0 & b0 & b1 & E). unfold all_seen in E. cbn [zip_with] in E. injection E as E1 E2. unfold seen in E2. subst b.
  eexists. split; [reflexivity|]. unfold is_dense. simpl. split; [done|]. split; [done|]. split; [lia|]. split.
  { clear. intros. assert (length (concat (ex_row [b0; b1] <$> a)) = length a * 2) as ->; [|lia]. induction a as [|r a IH]; [done|]. rewrite fmap_cons. cbn [concat length]. rewrite app_length, ex_row_len. lia. }
  intros r c Hr Hc. destruct (lookup_lt_is_Some_2 a r Hr) as [row Hrow]. rewrite (ex_rows_at _ _ _ row) by done. f_equal. unfold all_seen. cbn [zip_with]. unfold seen.
  destruct (decide (length a = 1)) as [H1|H1].
  - destruct a as [|a0 [|a1 a]]; [done| |done]. destruct r; [|simpl in Hr; lia]. by injection Hrow as ->.
  - by rewrite Hrow.
Qed.
Lemma ex_compatible : compatible ex_valid (pi_split <$> ex_ins) (pi_rows <$> ex_ins) 5.
Proof.
  split; [constructor; [by left|constructor; [done|constructor]]|]. split; [exists 0; eexists; done|]. intros i Hi. do 5 (destruct i as [|i]; [do 4 eexists; reflexivity|]). lia.
Qed.
(** Three tasks, batches of one row, assignments executed in reverse order. *)
Example ex_run : match all_writes ex_body CRows 5 2 ex_ins 1 [(0, 2); (2, 3); (3, 5)] with
  | Ok wss => write_all (replicate 10 0%Z) (reverse (concat wss)) = Ok [101; 202; 103; 204; 105; 206; 107; 208; 109; 210]%Z
  | _ => False end.
Proof. vm_compute. reflexivity. Qed.
Example ex_cover : tasks_cover 5 [(0, 2); (2, 3); (3, 5)].
Proof.
  split.
  - intros t Ht. rewrite !elem_of_cons, elem_of_nil in Ht. destruct Ht as [->|[->|[->|[]]]]; simpl; lia.
  - intros r Hr.
    assert (Hu : forall i t, i < 3 -> [(0, 2); (2, 3); (3, 5)] !! i = Some t -> fst t <= r < snd t ->
      exists i t, [(0, 2); (2, 3); (3, 5)] !! i = Some t /\ fst t <= r < snd t /\ forall j t', [(0, 2); (2, 3); (3, 5)] !! j = Some t' -> fst t' <= r < snd t' -> j = i).
    { intros i t Hi Hl Hc. exists i, t. split; [done|]. split; [done|]. intros j t' Hj Hc'.
      destruct j as [|[|[|j]]]; [..|done]; simplify_eq/=; destruct i as [|[|[|i]]]; simplify_eq/=; lia. }
    destruct (decide (r < 2)); [apply (Hu 0 (0, 2)); simpl; [lia|done|lia]|]. destruct (decide (r < 3)); [apply (Hu 1 (2, 3)); simpl; [lia|done|lia]|].
    apply (Hu 2 (3, 5)); simpl; [lia|done|lia].
Qed.
(** All hypotheses of C07_rows hold for this body, these inputs and these tasks. *)
Example ex_C07 : exists wss out, all_writes ex_body CRows 5 2 ex_ins 2 [(0, 2); (2, 3); (3, 5)] = Ok wss /\ ex_body (pi_rows <$> ex_ins) = Ok out /\
  NoDup (concat wss).*1 /\ forall ws, ws ≡ₚ concat wss -> exists b', write_all (replicate 10 0%Z) ws = Ok b' /\ forall x, is_dense out 5 2 x -> tabulated 5 2 x b'.
Proof. by apply (C07_rows ex_body ex_valid ex_ins 2 5 ex_h 2 _ _ ex_row_wise ex_compatible); [lia|lia|apply ex_cover|]. Qed.

(** An aggregating body: the sum of the first column, as a 1 x 1 matrix; and the transposed input as an example of a column-wise body. *)
Definition ex_cell (a : list (list Z)) (t c : nat) : Z := nth c (nth t a []) 0%Z.
Definition ex_sum (xs : list (list (list Z))) : outcome (dmat Z) :=
  match xs with [a] => Ok (mkDM [aggr Z.add (fun t => ex_cell a t 0) 0 (length a - 1)] 0 1 1 1) | _ => Throw end.
Definition ex_sum_h (ss : list (list (list Z))) (i j : nat) : Z := match ss with [[a]] => nth 0 a 0%Z | _ => 0%Z end.
Definition ex_t (xs : list (list (list Z))) : outcome (dmat Z) :=
  match xs with [a] => Ok (mkDM ((fun t => ex_cell a t 0) <$> seq 0 (length a)) 0 1 (length a) (length a)) | _ => Throw end.
Definition ex_t_h (ss : list (list (list Z))) (c : nat) : Z := match ss with [[a]] => nth 0 a 0%Z | _ => 0%Z end.
Definition ex_ins1 : list (pinput Z) := [mkPI true [[1; 2]; [3; 4]; [5; 6]; [7; 8]; [9; 10]]%Z].
Lemma ex_seen a t : t < length a -> seen true a t = [nth t a [] : list Z].
Proof.
  intros Ht. unfold seen. destruct (decide (length a = 1)) as [H1|H1].
  - destruct a as [|a0 [|a1 a]]; [done| |done]. destruct t; [done|simpl in Ht; lia].
  - destruct (lookup_lt_is_Some_2 a t Ht) as [row Hrow]. rewrite Hrow. f_equal. symmetry. by apply nth_lookup_Some.
Qed.
Lemma ex_aggregating : aggregating ex_sum (fun _ => True) [true] Z.add 1 1 ex_sum_h.
Proof.
  intros xs k Hk (Hf & (j & x & Hj & Hx & Hl) & _). unfold lengths_fit in Hf. inversion Hf as [|s1 a l1 xs' Ha Hf']; subst. inversion Hf'; subst.
  destruct j as [|j]; [|done]. injection Hx as <-. eexists. split; [reflexivity|]. unfold is_dense. simpl. do 4 (split; [lia|]). intros r c Hr Hc.
  assert (r = 0) as -> by lia. assert (c = 0) as -> by lia. simpl. f_equal. apply aggr_shift. intros i Hi. change (ex_cell a i 0 = ex_sum_h [seen true a i] 0 0). by rewrite ex_seen by lia.
Qed.
Lemma ex_col_wise : col_wise ex_t (fun _ => True) [true] 1 ex_t_h.
Proof.
  intros xs k Hk (Hf & (j & x & Hj & Hx & Hl) & _). unfold lengths_fit in Hf. inversion Hf as [|s1 a l1 xs' Ha Hf']; subst. inversion Hf'; subst.
  destruct j as [|j]; [|done]. injection Hx as <-. eexists. split; [reflexivity|]. unfold is_dense. simpl. split; [done|]. split; [done|]. split; [lia|].
  split; [rewrite fmap_length, seq_length; lia|]. intros c r Hc Hr. assert (c = 0) as -> by lia. cbn [Nat.mul plus]. rewrite list_lookup_fmap, lookup_seq_lt by done. cbn [fmap option_fmap option_map plus].
  f_equal. change (ex_cell a r 0 = ex_t_h [seen true a r] 0). by rewrite ex_seen.
Qed.
Lemma ex_compatible1 : compatible (fun _ => True) (pi_split <$> ex_ins1) (pi_rows <$> ex_ins1) 5.
Proof. split; [repeat constructor|]. split; [exists 0; eexists; done|done]. Qed.
Example ex_C07c : exists wss out, all_writes ex_t CCols 1 5 ex_ins1 2 [(0, 2); (2, 3); (3, 5)] = Ok wss /\ ex_t (pi_rows <$> ex_ins1) = Ok out /\
  NoDup (concat wss).*1 /\ forall ws, ws ≡ₚ concat wss -> exists b', write_all (replicate 5 0%Z) ws = Ok b' /\ forall x, is_dense out 1 5 x -> tabulated 1 5 x b'.
Proof. by apply (C07_cols ex_t (fun _ => True) ex_ins1 1 5 ex_t_h 2 _ _ ex_col_wise ex_compatible1); [lia|lia|apply ex_cover|]. Qed.
Example ex_C08 : exists a out, run_agg ex_sum Z.add ex_ins1 1 None [(0, 2); (2, 3); (3, 5)] = Ok (Some a) /\ ex_sum (pi_rows <$> ex_ins1) = Ok out /\
  forall x, is_dense out 1 1 x -> is_dense a 1 1 x.
Proof. by apply (C08_aggregate Z.add ex_sum (fun _ => True) ex_ins1 1 1 5 ex_sum_h 1 _ None 0%Z Z.add_assoc Z.add_comm ex_aggregating ex_compatible1); [lia|lia|apply ex_cover|]. Qed.
Example ex_agg_run : match run_agg ex_sum Z.add ex_ins1 1 (Some (mkDM [0%Z] 0 1 1 1)) [(3, 5); (0, 2); (2, 3)] with Ok (Some a) => m_buf a = [25%Z] | _ => False end.
Proof. vm_compute. reflexivity. Qed.

Print Assumptions C07_rows.
Print Assumptions C07_cols.
Print Assumptions C07_engine_rows.
Print Assumptions C07_engine_rows_multi.
Print Assumptions C08_aggregate.
Print Assumptions C08_engine.
