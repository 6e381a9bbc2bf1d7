(** Property C09: collecting the sparse results of the tasks of a vectorized pipeline. *)
From stdpp Require Import base numbers sorting list list_numbers.
From Coq Require Import Lia ZArith.
From Verif Require Import CppBase Mem ListUtil CSRModel CSRSpec CSRProofs CSRView PipelineModel PipelineSpec PipelineProofs PipelineAgg SinkModel SinkSpec SinkProofs.

Section props.
Context {V : Type} `{Val V}.
Notation csr := (csrbuf V * csrh)%type.

(** Row-wise: the parts [parts] (range of rows, sparse matrix) arrive in any order; each row belongs to exactly one part. The collected
    matrix consists of all rows, in order. *)
Theorem C09_rows alloc (R : nat -> row V) n m (parts : list ((nat * nat) * csr)) :
  alloc_ok alloc -> 0 < n -> tasks_cover n (parts.*1) -> Forall (fun q => row_part R m (fst q) (snd q)) parts ->
  exists s, sink_adds (sink_new CRows n m) ((fun q => (fst (fst q), snd q)) <$> parts) = Ok s /\
    exists p, sink_consume alloc s = Ok p /\ is_matrix n m (some_rows R 0 n) p.
Proof. intros Ha Hn Hc Hq. apply sink_rows; [done|done|apply Hc|by apply rows_of_cover|done]. Qed.
(** Column-wise; the parts may be views of rows of larger matrices. *)
Theorem C09_cols alloc (G : nat -> nat -> option V) n m (parts : list ((nat * nat) * csr)) :
  alloc_ok alloc -> 0 < m -> tasks_cover m (parts.*1) -> Forall (fun q => col_part G n (fst q) (snd q)) parts ->
  exists s, sink_adds (sink_new CCols n m) ((fun q => (fst (fst q), snd q)) <$> parts) = Ok s /\
    exists p, sink_consume alloc s = Ok p /\ is_matrix n m (some_cols G n 0 m) p.
Proof. intros Ha Hn Hc Hq. apply sink_cols; [done|done|apply Hc|by apply rows_of_cover|done]. Qed.
(** Without any part there is no result. *)
Theorem C09_no_parts_throws alloc cb n m : sink_consume (V := V) alloc (sink_new cb n m) = Throw.
Proof. done. Qed.

(** The cells of what is collected, read with the accessor of the sparse matrix class. *)
Lemma is_matrix_get n m (rows : list (row V)) p r c : is_matrix n m rows p -> r < n -> c < m -> csr_get (fst p) (snd p) r c = Ok (cell rows r c).
Proof. intros (Hc & H0 & Hr & Hm & Hl) Hrn Hcm. apply shows_cell; [|lia|lia]. apply shows_all; [done|done|lia]. Qed.
Theorem C09_order_irrelevant alloc (R : nat -> row V) n m (parts parts' : list ((nat * nat) * csr)) :
  alloc_ok alloc -> 0 < n -> tasks_cover n (parts.*1) -> Forall (fun q => row_part R m (fst q) (snd q)) parts -> parts' ≡ₚ parts ->
  exists s s' p p', sink_adds (sink_new CRows n m) ((fun q => (fst (fst q), snd q)) <$> parts) = Ok s /\
    sink_adds (sink_new CRows n m) ((fun q => (fst (fst q), snd q)) <$> parts') = Ok s' /\
    sink_consume alloc s = Ok p /\ sink_consume alloc s' = Ok p' /\
    forall r c, r < n -> c < m -> csr_get (fst p) (snd p) r c = csr_get (fst p') (snd p') r c.
Proof.
  intros Ha Hn Hc Hq Hp. destruct (sink_rows alloc R m n parts) as (s & E1 & p & E2 & HM); [done|done|apply Hc|by apply rows_of_cover|done|].
  destruct (sink_rows alloc R m n parts') as (s' & E1' & p' & E2' & HM'); [done|done| | |by rewrite Hp|].
  - intros t Ht. apply Hc. by rewrite <- Hp.
  - unfold rows_of. rewrite Hp. by apply rows_of_cover.
  - exists s, s', p, p'. do 4 (split; [done|]). intros r c Hr Hcc. by rewrite (is_matrix_get n m _ _ _ _ HM), (is_matrix_get n m _ _ _ _ HM').
Qed.

(** ** Whole pipelines with a sparse result *)
Lemma stask_loop_items (PP : nat * nat -> csr -> Prop) body (ins : list (pinput V)) bs rl ru : 0 < bs -> rl <= ru ->
  (forall r r2, rl <= r < r2 -> r2 <= ru -> exists xs p, func_inputs r r2 ins = Ok xs /\ body xs = Ok p /\ PP (r - rl, r2 - rl) p) ->
  forall fuel r, rl <= r -> ru - r <= fuel ->
  exists qs, Forall (fun q => PP (fst q) (snd q)) qs /\ (forall t, t ∈ qs.*1 -> fst t < snd t <= ru - rl) /\ rows_of (qs.*1) = seq (r - rl) (ru - r) /\
    forall s, stask_loop body ins bs rl fuel r ru s = sink_adds s (as_part <$> qs).
Proof.
  intros Hbs Hrl Hb. induction fuel as [|fuel IH]; intros r Hr Hfuel.
  - exists []. split; [constructor|]. split; [by intros t ?%elem_of_nil|]. split; [by replace (ru - r) with 0 by lia|]. intros s. cbn [stask_loop]. by rewrite decide_False by lia.
  - cbn [stask_loop]. destruct (decide (r < ru)) as [Hlt|Hge].
    + destruct (Hb r (Nat.min (r + bs) ru)) as (xs & p & Ex & Ep & HP); [lia|lia|]. destruct (IH (r + bs)) as (qs & Hf & Hbd & Hro & Hs); [lia|lia|].
      exists ((r - rl, Nat.min (r + bs) ru - rl, p) :: qs). split; [by constructor|]. split.
      { intros t. rewrite fmap_cons. intros [->|Ht]%elem_of_cons; [simpl; lia|by apply Hbd]. }
      split.
      { rewrite fmap_cons. unfold rows_of in *. rewrite fmap_cons. cbn [concat fst snd]. rewrite Hro. destruct (decide (r + bs < ru)) as [H1|H1].
        - replace (Nat.min (r + bs) ru) with (r + bs) by lia. replace (ru - r) with (bs + (ru - (r + bs))) by lia. rewrite seq_app. f_equal; f_equal; lia.
        - replace (Nat.min (r + bs) ru) with ru by lia. replace (ru - (r + bs)) with 0 by lia. simpl. rewrite app_nil_r. f_equal. lia. }
      intros s. rewrite Ex. cbn [obind]. rewrite Ep. cbn [obind]. rewrite fmap_cons. unfold as_part at 1. cbn [fst snd sink_adds].
      destruct (sink_add s p (r - rl)); cbn [obind]; auto.
    + exists []. split; [constructor|]. split; [by intros t ?%elem_of_nil|]. split; [by replace (ru - r) with 0 by lia|]. done.
Qed.
Lemma stasks_items (PP : nat * nat -> csr -> Prop) alloc body cb w (ins : list (pinput V)) bs ts :
  (forall t, t ∈ ts -> exists p, stask alloc body cb w ins bs t = Ok p /\ PP t p) ->
  exists qs, qs.*1 = ts /\ Forall (fun q => PP (fst q) (snd q)) qs /\ forall s, stasks alloc body cb w ins bs ts s = sink_adds s (as_part <$> qs).
Proof.
  induction ts as [|t ts IH]; intros Ht.
  - exists []. split; [done|]. split; [constructor|done].
  - destruct IH as (qs & Hq & Hf & Hs); [intros u Hu; apply Ht; by right|]. destruct (Ht t) as (p & Ep & Hp); [left|].
    exists ((t, p) :: qs). split; [by rewrite fmap_cons, Hq|]. split; [by constructor|]. intros s. cbn [stasks]. rewrite Ep. cbn [obind]. rewrite fmap_cons. unfold as_part at 1. cbn [fst snd sink_adds].
    destruct (sink_add s p (fst t)); cbn [obind]; auto.
Qed.
Lemma some_rows_shift (R R' : nat -> row V) a b a' b' : b - a = b' - a' -> (forall i, i < b - a -> R (a + i) = R' (a' + i)) -> some_rows R a b = some_rows R' a' b'.
Proof.
  intros Hl He. unfold some_rows. rewrite <- Hl. rewrite <- (Nat.add_0_r a), <- (Nat.add_0_r a'). rewrite <- !fmap_add_seq, <- !list_fmap_compose. rewrite !Nat.add_0_r. apply fseq_ext. intros i Hi. apply He. done.
Qed.
Lemma some_cols_shift (G G' : nat -> nat -> option V) n a b a' b' : b - a = b' - a' -> (forall r i, r < n -> i < b - a -> G r (a + i) = G' r (a' + i)) ->
  some_cols G n a b = some_cols G' n a' b'.
Proof.
  intros Hl He. unfold some_cols. rewrite <- Hl. apply fseq_ext. intros r Hr. assert (Hx : forall i, i ∈ seq 0 (b - a) -> G r (a + i) = G' r (a' + i)) by (intros i Hi%elem_of_seq; apply He; lia).
  induction (seq 0 (b - a)) as [|i l IH]; [done|]. cbn [omap list_omap]. rewrite Hx by left. destruct (G' r (a' + i)); cbn [fmap option_fmap option_map]; [f_equal|]; apply IH; intros j Hj; apply Hx; by right.
Qed.

(** For every division of the rows in tasks, every batch size and every order [ts] in which the tasks deliver their results, the final
    sparse matrix has the rows that the body computes from the whole inputs. *)
Theorem C09_pipeline_rows alloc body valid (ins : list (pinput V)) m n h bs ts :
  alloc_ok alloc -> sparse_row_wise body valid (pi_split <$> ins) m h -> compatible valid (pi_split <$> ins) (pi_rows <$> ins) n ->
  0 < n -> 0 < bs -> tasks_cover n ts ->
  exists p, srun alloc body CRows n m ins bs ts = Ok p /\
    is_matrix n m (some_rows (fun i => h (all_seen (pi_split <$> ins) (pi_rows <$> ins) i)) 0 n) p.
Proof.
  intros Hal Hb Hcomp Hn Hbs Hcov. set (R := fun i => h (all_seen (pi_split <$> ins) (pi_rows <$> ins) i)).
  destruct (stasks_items (row_part R m) alloc body CRows m ins bs ts) as (qs & Hq & Hf & Hs).
  - intros [rl ru] Ht. destruct Hcov as [Hbd _]. specialize (Hbd _ Ht). cbn [fst snd] in Hbd. unfold stask. cbn [fst snd].
    destruct (stask_loop_items (row_part (fun i => R (rl + i)) m) body ins bs rl ru Hbs ltac:(lia)) with (fuel := ru - rl) (r := rl) as (qs & Hf & Hb2 & Hro & Hs); [|lia|lia|].
    + intros r r2 Hr Hr2. destruct (func_inputs_seen valid ins n r r2 Hcomp ltac:(lia)) as (xs & Ex & Hcx & Hsx). destruct (Hb xs (r2 - r)) as (p & Ep & H1 & H2 & H3); [lia|done|].
      exists xs, p. split; [done|]. split; [done|]. split; [done|]. split; [done|]. cbn [fst snd] in *.
      rewrite (some_rows_shift _ (fun i => h (all_seen (pi_split <$> ins) xs i)) _ _ 0 (r2 - r)); [done|lia|]. intros i Hi. unfold R. cbn [plus]. rewrite Hsx by lia. do 2 f_equal. lia.
    + rewrite Hs. destruct (sink_rows alloc (fun i => R (rl + i)) m (ru - rl) qs) as (s & -> & p & Ec & HM); [done|lia|done|by rewrite Hro, Nat.sub_diag|done|].
      cbn [obind]. exists p. split; [done|]. destruct HM as (Hc & H0 & Hr & Hm & Hl). split; [done|]. split; [done|]. cbn [fst snd].
      rewrite (some_rows_shift R (fun i => R (rl + i)) _ _ 0 (ru - rl)); [|lia|done]. apply shows_all; [done|done|lia].
  - unfold srun. rewrite Hs. destruct (sink_rows alloc R m n qs) as (s & -> & p & Ec & HM); [done|done| | |done|].
    + rewrite Hq. apply Hcov.
    + rewrite Hq. by apply rows_of_cover.
    + cbn [obind]. by exists p.
Qed.
Theorem C09_pipeline_cols alloc body valid (ins : list (pinput V)) n m h bs ts :
  alloc_ok alloc -> sparse_col_wise body valid (pi_split <$> ins) n h -> compatible valid (pi_split <$> ins) (pi_rows <$> ins) m ->
  0 < m -> 0 < bs -> tasks_cover m ts ->
  exists p, srun alloc body CCols m n ins bs ts = Ok p /\
    is_matrix n m (some_cols (fun r i => h (all_seen (pi_split <$> ins) (pi_rows <$> ins) i) r) n 0 m) p.
Proof.
  intros Hal Hb Hcomp Hn Hbs Hcov. set (G := fun r i => h (all_seen (pi_split <$> ins) (pi_rows <$> ins) i) r).
  destruct (stasks_items (col_part G n) alloc body CCols n ins bs ts) as (qs & Hq & Hf & Hs).
  - intros [rl ru] Ht. destruct Hcov as [Hbd _]. specialize (Hbd _ Ht). cbn [fst snd] in Hbd. unfold stask. cbn [fst snd].
    destruct (stask_loop_items (col_part (fun r i => G r (rl + i)) n) body ins bs rl ru Hbs ltac:(lia)) with (fuel := ru - rl) (r := rl) as (qs & Hf & Hb2 & Hro & Hs); [|lia|lia|].
    + intros r r2 Hr Hr2. destruct (func_inputs_seen valid ins m r r2 Hcomp ltac:(lia)) as (xs & Ex & Hcx & Hsx). destruct (Hb xs (r2 - r)) as (p & Ep & H1 & H2); [lia|done|].
      exists xs, p. split; [done|]. split; [done|]. cbn [fst snd] in *. split; [cbn [fst snd]; lia|]. cbn [fst snd].
      rewrite (some_cols_shift _ (fun r i => h (all_seen (pi_split <$> ins) xs i) r) n _ _ 0 (r2 - r)); [done|lia|]. intros q i _ Hi. unfold G. cbn [plus]. rewrite Hsx by lia. by replace (rl + (r - rl + i)) with (r + i) by lia.
    + rewrite Hs. destruct (sink_cols alloc (fun r i => G r (rl + i)) n (ru - rl) qs) as (s & -> & p & Ec & HM); [done|lia|done|by rewrite Hro, Nat.sub_diag|done|].
      cbn [obind]. exists p. split; [done|]. destruct HM as (Hc & H0 & Hr & Hm & Hl). split; [done|]. cbn [fst snd].
      rewrite (some_cols_shift G (fun r i => G r (rl + i)) n _ _ 0 (ru - rl)); [|lia|done]. apply shows_all; [done|done|lia].
  - unfold srun. rewrite Hs. destruct (sink_cols alloc G n m qs) as (s & -> & p & Ec & HM); [done|done| | |done|].
    + rewrite Hq. apply Hcov.
    + rewrite Hq. by apply rows_of_cover.
    + cbn [obind]. by exists p.
Qed.
End props.

(** ** Row-wise collection of views of rows is wrong
    The parts below are views (rows 1 and 2 of one matrix, as returned for example by a kernel that slices its argument). The sink
    writes outside of the arrays of the result; with only the first view it collects the wrong value and invalid row offsets. *)
Definition exz_alloc (n nnz : nat) : csrbuf Z := mkBuf (replicate nnz 0%Z) (replicate nnz 0) (replicate (n + 1) 0).
Definition exz_buf : csrbuf Z := mkBuf [10; 20; 30]%Z [0; 1; 2] [0; 1; 2; 3].
Definition exz_rows : list (row Z) := [[(0, 10%Z)]; [(1, 20%Z)]; [(2, 30%Z)]].
Theorem C09_view_parts_refuted :
  exists (b : csrbuf Z) h1 h2, shows b h1 [[(1, 20%Z)]] /\ shows b h2 [[(2, 30%Z)]] /\
    match sink_adds (sink_new CRows 2 3) [(1, (b, h2)); (0, (b, h1))] with
    | Ok s => sink_consume exz_alloc s = UB | _ => False end /\
    match sink_adds (sink_new CRows 1 3) [(0, (b, h1))] with
    | Ok s => match sink_consume exz_alloc s with Ok (b', h') => broff b' = [0; 2] /\ bvals b' = [10%Z] | _ => False end | _ => False end.
Proof.
  exists exz_buf, (mkH 1 1 3 2 true 3 0), (mkH 2 1 3 1 true 3 0).
  assert (Hst : stores exz_buf exz_rows) by (split; [done|]; by exists [], []).
  assert (Hok : Forall (row_ok 3) exz_rows) by (repeat constructor; simpl; lia).
  split; [exists exz_rows; split; [split; simpl; [done|done|lia|done|done]|done]|].
  split; [exists exz_rows; split; [split; simpl; [done|done|lia|done|done]|done]|].
  vm_compute. repeat split.
Qed.

(** ** Examples *)
Definition ex_p1 : csrbuf Z * csrh := (mkBuf [5; 6]%Z [0; 2] [0; 1; 1; 2], mkH 0 3 3 3 false 2 0).
Definition ex_p2 : csrbuf Z * csrh := (mkBuf [7; 8]%Z [1; 2] [0; 2], mkH 0 1 3 1 false 2 0).
Definition ex_R (i : nat) : row Z := match i with 0 => [(0, 5%Z)] | 1 => [] | 2 => [(2, 6%Z)] | _ => [(1, 7%Z); (2, 8%Z)] end.
Definition ex_parts : list ((nat * nat) * (csrbuf Z * csrh)) := [((3, 4), ex_p2); ((0, 3), ex_p1)].
Example ex_parts_ok : Forall (fun q => row_part ex_R 3 (fst q) (snd q)) ex_parts.
Proof.
  repeat constructor; cbn [fst snd].
  - exists [[(1, 7%Z); (2, 8%Z)]]. split; [|done]. split; simpl; [split; [done|by exists [], []]|repeat constructor; simpl; lia|lia|done|done].
  - exists [[(0, 5%Z)]; []; [(2, 6%Z)]]. split; [|done]. split; simpl; [split; [done|by exists [], []]|repeat constructor; simpl; lia|lia|done|done].
Qed.
Example ex_parts_cover : tasks_cover 4 (ex_parts.*1).
Proof.
  split.
  - intros t Ht. simpl in Ht. rewrite !elem_of_cons, elem_of_nil in Ht. destruct Ht as [->|[->|[]]]; simpl; lia.
  - intros r Hr. destruct (decide (r < 3)).
    + exists 1, (0, 3). split; [done|]. split; [simpl; lia|]. intros [|[|j]] t' Hj Ht; simplify_eq/=; lia.
    + exists 0, (3, 4). split; [done|]. split; [simpl; lia|]. intros [|[|j]] t' Hj Ht; simplify_eq/=; lia.
Qed.
Example exz_alloc_ok : alloc_ok exz_alloc.
Proof. intros n nnz. simpl. by rewrite !replicate_length. Qed.
Example ex_collected : match sink_adds (sink_new CRows 4 3) ((fun q => (fst (fst q), snd q)) <$> ex_parts) with
  | Ok s => sink_consume exz_alloc s = Ok (mkBuf [5; 6; 7; 8]%Z [0; 2; 1; 2] [0; 1; 1; 2; 4], mkH 0 4 3 4 false 4 0) | _ => False end.
Proof. vm_compute. reflexivity. Qed.
Example ex_cols_collected : match sink_adds (sink_new CCols 2 5) [(3, (mkBuf [7; 8]%Z [0; 1] [0; 1; 2], mkH 0 2 2 2 false 2 0)); (0, (mkBuf [5; 6]%Z [0; 2] [0; 2; 2], mkH 0 2 3 2 false 2 0))] with
  | Ok s => sink_consume exz_alloc s = Ok (mkBuf [5; 6; 7; 8]%Z [0; 2; 3; 4] [0; 3; 4], mkH 0 2 5 2 false 4 0) | _ => False end.
Proof. vm_compute. reflexivity. Qed.

(** A row-wise body with a sparse result: the first column of its input, as an n x 1 sparse matrix. *)
Definition ex_srow (row : list Z) : CSRSpec.row Z := [(0, nth 0 row 0%Z)].
Definition ex_sbody (xs : list (list (list Z))) : outcome (csrbuf Z * csrh) :=
  match xs with
  | [a] => let rows := ex_srow <$> a in
           Ok (mkBuf (concat rows).*2 (concat rows).*1 (offsets 0 rows), mkH 0 (length a) 1 (length a) false (stored rows) 0)
  | _ => Throw
  end.
Definition ex_sh (ss : list (list (list Z))) : CSRSpec.row Z := match ss with [[a]] => ex_srow a | _ => [] end.
Lemma ex_sparse_row_wise : sparse_row_wise ex_sbody (fun _ => True) [true] 1 ex_sh.
Proof.
  intros xs k Hk (Hf & (j & x & Hj & Hx & Hl) & _). unfold lengths_fit in Hf. inversion Hf as [|s1 a l1 xs' Ha Hf']; subst. inversion Hf'; subst.
  destruct j as [|j]; [|done]. injection Hx as <-. eexists. split; [reflexivity|]. split; [done|]. split; [done|]. cbn [fst snd].
  assert (HM : is_matrix (length a) 1 (ex_srow <$> a) (mkBuf (concat (ex_srow <$> a)).*2 (concat (ex_srow <$> a)).*1 (offsets 0 (ex_srow <$> a)), mkH 0 (length a) 1 (length a) false (stored (ex_srow <$> a)) 0)).
  { apply is_matrix_intro; [done|by rewrite fmap_length|]. apply Forall_fmap, Forall_true. intros row. repeat constructor. }
  destruct HM as (Hc & H0 & Hr & Hm & Hlen). cbn [fst snd] in *.
  assert (He : some_rows (fun i => ex_sh (all_seen [true] [a] i)) 0 (length a) = ex_srow <$> a).
  { unfold some_rows. rewrite Nat.sub_0_r. apply list_eq. intros i. destruct (decide (i < length a)) as [Hi|Hi].
    - rewrite lookup_fseq by done. rewrite list_lookup_fmap. destruct (lookup_lt_is_Some_2 a i Hi) as [row Hrow]. rewrite Hrow. cbn [fmap option_fmap option_map]. f_equal.
      unfold all_seen. cbn [zip_with]. unfold seen. destruct (decide (length a = 1)) as [H1|H1]; [|by rewrite Hrow].
      destruct a as [|a0 [|a1 a]]; [done| |done]. destruct i; [|simpl in Hi; lia]. by injection Hrow as ->.
    - rewrite !lookup_ge_None_2; [done|rewrite fmap_length; lia|rewrite fmap_length, seq_length; lia]. }
  rewrite He. by apply shows_all.
Qed.
Example ex_pipeline : exists p, srun exz_alloc ex_sbody CRows 4 1 [mkPI true [[1; 0]; [2; 0]; [3; 0]; [4; 0]]%Z] 2 (ex_parts.*1) = Ok p /\
  is_matrix 4 1 (some_rows (fun i => ex_sh (all_seen [true] [[[1; 0]; [2; 0]; [3; 0]; [4; 0]]%Z] i)) 0 4) p.
Proof.
  apply (C09_pipeline_rows exz_alloc ex_sbody (fun _ => True) [mkPI true [[1; 0]; [2; 0]; [3; 0]; [4; 0]]%Z] 1 4 ex_sh 2 (ex_parts.*1) exz_alloc_ok ex_sparse_row_wise);
    [|lia|lia|apply ex_parts_cover].
  split; [repeat constructor|]. split; [exists 0; eexists; done|done].
Qed.

Print Assumptions C09_rows.
Print Assumptions C09_cols.
Print Assumptions C09_order_irrelevant.
Print Assumptions C09_pipeline_rows.
Print Assumptions C09_pipeline_cols.
Print Assumptions C09_view_parts_refuted.
