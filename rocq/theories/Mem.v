(** Shared vocabulary for code that works on arrays: memcpy, nested loops, rectangular blocks, and (possibly strided)
    dense matrices as kernels see them. Nothing here is specific to a file in /repo, except that [dmat] is what the
    kernels obtain from a DenseMatrix through getValues(), getRowSkip(), getNumRows(), getNumCols(). *)
From stdpp Require Import base numbers list.
From Coq Require Import Lia.
From Verif Require Import CppBase.

(** memcpy(dst + d, src + s, n). *)
Definition copy_range {V} (dst : list V) (d : nat) (src : list V) (s n : nat) : outcome (list V) :=
  for_up 0 n (fun j b => let* v := rd src (s + j) in wr b (d + j) v) dst.
(** [rows] times memcpy of [cols] elements, advancing the two positions by [ds] and [ss]. *)
Definition copy_block {V} (dst : list V) (d ds : nat) (src : list V) (s ss rows cols : nat) : outcome (list V) :=
  for_up 0 rows (fun r b => copy_range b (d + r * ds) src (s + r * ss) cols) dst.
(** for(r = 0; r < n; r++) for(c = 0; c < m; c++) *)
Definition for2 {St} (n m : nat) (f : nat -> nat -> St -> outcome St) (s : St) : outcome St :=
  for_up 0 n (fun r s => for_up 0 m (fun c s => f r c s) s) s.

Lemma copy_range_spec {V} (dst : list V) d src s n :
  d + n <= length dst -> s + n <= length src ->
  exists b', copy_range dst d src s n = Ok b' /\ length b' = length dst /\
    (forall j, j < n -> b' !! (d + j) = src !! (s + j)) /\ (forall j, ~ (d <= j < d + n) -> b' !! j = dst !! j).
Proof.
  intros Hd Hs.
  destruct (for_up_inv (fun i b' => length b' = length dst /\ (forall j, j < i -> b' !! (d + j) = src !! (s + j)) /\ (forall j, ~ (d <= j < d + i) -> b' !! j = dst !! j))
    0 n (fun j b => let* v := rd src (s + j) in wr b (d + j) v) dst) as (b' & E & H).
  - lia.
  - split; [done|]. split; [lia|done].
  - intros i b Hi (Hl & H1 & H2). destruct (rd_lt src (s + i)) as (v & Hv & ->); [lia|]. cbn [obind]. rewrite wr_Ok by lia.
    eexists. split; [done|]. rewrite insert_length. split; [done|]. split.
    + intros j Hj. destruct (decide (j = i)) as [->|]; [rewrite list_lookup_insert by lia; done|].
      rewrite list_lookup_insert_ne by lia. apply H1. lia.
    + intros j Hj. rewrite list_lookup_insert_ne by lia. apply H2. lia.
  - exists b'. tauto.
Qed.

Lemma copy_block_spec {V} (dst : list V) d ds src s ss rows cols :
  cols <= ds -> (rows = 0 \/ d + (rows - 1) * ds + cols <= length dst) -> (rows = 0 \/ s + (rows - 1) * ss + cols <= length src) ->
  exists b', copy_block dst d ds src s ss rows cols = Ok b' /\ length b' = length dst /\
    (forall r c, r < rows -> c < cols -> b' !! (d + r * ds + c) = src !! (s + r * ss + c)) /\
    (forall j, (forall r c, r < rows -> c < cols -> j <> d + r * ds + c) -> b' !! j = dst !! j).
Proof.
  intros Hc Hd Hs. unfold copy_block.
  destruct (for_up_inv (fun i b' => length b' = length dst /\
     (forall r c, r < i -> c < cols -> b' !! (d + r * ds + c) = src !! (s + r * ss + c)) /\
     (forall j, (forall r c, r < i -> c < cols -> j <> d + r * ds + c) -> b' !! j = dst !! j))
    0 rows (fun r b => copy_range b (d + r * ds) src (s + r * ss) cols) dst) as (b' & E & H).
  - lia.
  - split; [done|]. split; [lia|done].
  - intros i b Hi (Hl & H1 & H2).
    destruct (copy_range_spec b (d + i * ds) src (s + i * ss) cols) as (b1 & -> & Hl1 & F1 & F2); [nia|nia|].
    exists b1. split; [done|]. split; [lia|]. split.
    + intros r c Hr Hcc. destruct (decide (r = i)) as [->|]; [by apply F1|].
      rewrite F2; [apply H1; lia|]. nia.
    + intros j Hj. rewrite F2; [apply H2; intros r c Hr; apply Hj; lia|].
      intros Hx. apply (Hj i (j - (d + i * ds))); lia.
  - exists b'. tauto.
Qed.

(** Invariant rule for nested loops; [P r c] holds before iteration (r, c). *)
Lemma for2_inv {St} (P : nat -> nat -> St -> Prop) n m f s :
  P 0 0 s ->
  (forall r c s, r < n -> c < m -> P r c s -> exists s', f r c s = Ok s' /\ P r (1 + c) s') ->
  (forall r s, r < n -> P r m s -> P (1 + r) 0 s) ->
  exists s', for2 n m f s = Ok s' /\ P n 0 s'.
Proof.
  intros H0 Hs Hn. unfold for2.
  destruct (for_up_inv (fun r s => P r 0 s) 0 n (fun r s => for_up 0 m (fun c s => f r c s) s) s) as (s' & E & H).
  - lia.
  - done.
  - intros r t Hr HP. destruct (for_up_inv (fun c s => P r c s) 0 m (fun c s => f r c s) t) as (t' & -> & H'); [lia|done| |].
    + intros c u Hc. apply Hs; lia.
    + exists t'. split; [done|]. apply Hn; [lia|done].
  - eauto.
Qed.

Lemma pos_inj m r c r' c' : c < m -> c' < m -> r * m + c = r' * m + c' -> r = r' /\ c = c'.
Proof. intros Hc Hc' E. assert (E' : m * r + c = m * r' + c') by lia. by apply Nat.div_mod_unique in E'; [|lia|lia]. Qed.
Lemma pos_lt n m r c : r < n -> c < m -> r * m + c < n * m.
Proof. nia. Qed.
Lemma pos_split n m j : j < n * m -> exists r c, r < n /\ c < m /\ j = r * m + c.
Proof.
  intros Hj. assert (m <> 0) by lia. exists (j / m), (j mod m). pose proof (Nat.div_mod j m H). pose proof (Nat.mod_upper_bound j m H).
  split; [apply Nat.div_lt_upper_bound; lia|]. split; [done|]. lia.
Qed.

(** A row-major n x m array in which cell (r, c) holds [g r c]. *)
Definition tabulated {V} (n m : nat) (g : nat -> nat -> V) (b : list V) : Prop :=
  length b = n * m /\ forall r c, r < n -> c < m -> b !! (r * m + c) = Some (g r c).
Lemma tabulated_eq {V} n m (g : nat -> nat -> V) b b' : tabulated n m g b -> tabulated n m g b' -> b = b'.
Proof.
  intros [L1 H1] [L2 H2]. apply list_eq. intros j. destruct (decide (j < n * m)) as [Hj|Hj].
  - destruct (pos_split n m j Hj) as (r & c & Hr & Hc & ->). by rewrite H1, H2.
  - rewrite !lookup_ge_None_2 by lia. done.
Qed.
(** The usual kernel loop: every iteration writes its own cell. *)
Lemma for2_tabulate {V} n m (f : nat -> nat -> list V -> outcome (list V)) (g : nat -> nat -> V) b :
  length b = n * m -> (forall r c b, r < n -> c < m -> length b = n * m -> f r c b = wr b (r * m + c) (g r c)) ->
  exists b', for2 n m f b = Ok b' /\ tabulated n m g b'.
Proof.
  intros Hl Hf.
  destruct (for2_inv (fun r c b' => length b' = n * m /\ forall r' c', r' < n -> c' < m -> r' < r \/ (r' = r /\ c' < c) -> b' !! (r' * m + c') = Some (g r' c'))
    n m f b) as (b' & E & Hl' & H).
  - split; [done|]. lia.
  - intros r c s Hr Hc [Hs H]. rewrite Hf by done. rewrite wr_Ok by (rewrite Hs; by apply pos_lt). eexists. split; [done|].
    rewrite insert_length. split; [done|]. intros r' c' Hr' Hc' Hlt. destruct (decide (r' = r /\ c' = c)) as [[-> ->]|Hne].
    + apply list_lookup_insert. rewrite Hs. by apply pos_lt.
    + rewrite list_lookup_insert_ne; [apply H; [done|done|lia]|]. intros E. apply pos_inj in E; [|done|done]. lia.
  - intros r s Hr [Hs H]. split; [done|]. intros r' c' Hr' Hc' Hlt. apply H; lia.
  - exists b'. split; [done|]. split; [done|]. intros r c Hr Hc. apply H; [done|done|]. left. done.
Qed.
(** The same with one loop over all cells. *)
Lemma for_up_write {V} n (f : nat -> list V -> outcome (list V)) (g : nat -> V) b :
  length b = n -> (forall i b, i < n -> length b = n -> f i b = wr b i (g i)) ->
  exists b', for_up 0 n f b = Ok b' /\ length b' = n /\ forall i, i < n -> b' !! i = Some (g i).
Proof.
  intros Hl Hf.
  destruct (for_up_inv (fun i b' => length b' = n /\ forall j, j < i -> b' !! j = Some (g j)) 0 n f b) as (b' & E & Hl' & H).
  - lia.
  - split; [done|]. lia.
  - intros i s Hi [Hs H]. rewrite Hf by (done || lia). rewrite wr_Ok by lia. eexists. split; [done|]. rewrite insert_length. split; [done|].
    intros j Hj. destruct (decide (j = i)) as [->|]; [apply list_lookup_insert; lia|]. rewrite list_lookup_insert_ne by done. apply H. lia.
  - exists b'. auto.
Qed.

(** A dense matrix as a kernel sees it: array, position of the first element, shape, rowSkip. *)
Record dmat (V : Type) := mkDM { m_buf : list V; m_off : nat; m_rows : nat; m_cols : nat; m_skip : nat }.
Arguments mkDM {V}. Arguments m_buf {V}. Arguments m_off {V}. Arguments m_rows {V}. Arguments m_cols {V}. Arguments m_skip {V}.
(** values[r * rowSkip + c] (also what get(r, c) reads). *)
Definition dm_at {V} (a : dmat V) (r c : nat) : outcome V := rd (m_buf a) (m_off a + r * m_skip a + c).
(** [a] is an n x m matrix, stored with any stride, whose cells are given by [x]. *)
Definition is_dense {V} (a : dmat V) (n m : nat) (x : nat -> nat -> V) : Prop :=
  m_rows a = n /\ m_cols a = m /\ m <= m_skip a /\
  (n = 0 \/ m_off a + (n - 1) * m_skip a + m <= length (m_buf a)) /\
  forall r c, r < n -> c < m -> m_buf a !! (m_off a + r * m_skip a + c) = Some (x r c).
Lemma dm_at_Ok {V} (a : dmat V) n m x r c : is_dense a n m x -> r < n -> c < m -> dm_at a r c = Ok (x r c).
Proof. intros (_ & _ & _ & _ & H) Hr Hc. unfold dm_at. apply rd_Ok. auto. Qed.
Lemma tabulated_is_dense {V} (b : list V) n m x : tabulated n m x b -> is_dense (mkDM b 0 n m m) n m x.
Proof. intros [Hl H]. unfold is_dense. simpl. split; [done|]. split; [done|]. split; [done|]. split; [nia|]. exact H. Qed.
