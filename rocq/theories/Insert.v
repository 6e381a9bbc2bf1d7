(** C51: slicing and inserting ranges. *)
From stdpp Require Import base numbers sorting list list_numbers.
From Coq Require Import ZArith Lia.
From Verif Require Import CppBase Mem CSRModel CSRSpec CSRProofs CSRView SparseLoops SparseSpec SinkProofs SparseBuild CastModel CastProofs ReorgModel Reorg InsertModel.
Local Open Scope nat_scope.

(** * Specification *)
(** Position [i] of [n], counted from the end if negative. *)
Definition from_end (n : nat) (i : Z) : Z := if decide (i < 0)%Z then (Z.of_nat n + i)%Z else i.
(** The positions addressed by lo:up when slicing: an upper bound 0 with a negative lower bound is the end. *)
Definition slice_range (n : nat) (lo up : Z) (l u : nat) : Prop :=
  Z.of_nat l = from_end n lo /\ Z.of_nat u = (if decide (lo < 0 /\ up = 0)%Z then Z.of_nat n else from_end n up) /\ l < n /\ l <= u <= n.
(** The positions addressed when inserting: an upper bound 0 with a negative lower bound is one behind the lower bound. *)
Definition insert_range (n : nat) (lo up : Z) (l u : nat) : Prop :=
  Z.of_nat l = from_end n lo /\ Z.of_nat u = (if decide (lo < 0 /\ up = 0)%Z then (Z.of_nat l + 1)%Z else from_end n up) /\ (l < n \/ l = 0) /\ l <= u <= n.
Definition i64 (z : Z) : Prop := (- 2 ^ 63 <= z < 2 ^ 63)%Z.
Definition small (n : nat) : Prop := (Z.of_nat n < 2 ^ 63)%Z.
(** Rows (columns) l .. u - 1 are those of [y], the others those of [x]. *)
Definition with_rows {V} (l u : nat) (x y : nat -> nat -> V) (r c : nat) : V := if decide (l <= r < u) then y (r - l) c else x r c.
Definition with_cols {V} (l u : nat) (x y : nat -> nat -> V) (r c : nat) : V := if decide (l <= c < u) then y r (c - l) else x r c.

(** * Bounds *)
Lemma u64_id z : (0 <= z < 2 ^ 64)%Z -> u64 z = z.
Proof. intros Hz. unfold u64. by apply Z.mod_small. Qed.
Lemma u64_neg z : (- 2 ^ 64 <= z < 0)%Z -> u64 z = (z + 2 ^ 64)%Z.
Proof. intros Hz. unfold u64. symmetry. apply (Z.mod_unique _ _ (-1)); lia. Qed.
Lemma slice_bounds_spec n lo up : small n -> i64 lo -> i64 up ->
  (forall l u, slice_range n lo up l u -> slice_bounds n lo up = (Z.of_nat l, Z.of_nat u) /\ slice_bad n (Z.of_nat l) (Z.of_nat u) = false) /\
  ((~ exists l u, slice_range n lo up l u) -> slice_bad n (slice_bounds n lo up).1 (slice_bounds n lo up).2 = true).
Proof.
  unfold small, i64. intros Hn Hlo Hup. split.
  - intros l u (H1 & H2 & H3 & H4). unfold from_end in *. split.
    + unfold slice_bounds. repeat case_decide; f_equal; lia.
    + unfold slice_bad. apply bool_decide_eq_false_2. rewrite !u64_id by lia. lia.
  - intros Hno. unfold slice_bad. apply bool_decide_eq_true_2. set (l := (slice_bounds n lo up).1). set (u := (slice_bounds n lo up).2).
    destruct (decide (0 <= l /\ l < Z.of_nat n /\ l <= u <= Z.of_nat n)%Z) as [Hd|Hd].
    + exfalso. apply Hno. exists (Z.to_nat l), (Z.to_nat u). unfold slice_range, from_end. rewrite !Z2Nat.id by lia. unfold l, u, slice_bounds in *. repeat case_decide; cbn in *; lia.
    + assert (Hl : (- 2 ^ 63 <= l < 2 ^ 64)%Z) by (unfold l, slice_bounds; repeat case_decide; cbn; lia). assert (Hu : (- 2 ^ 63 <= u < 2 ^ 64)%Z) by (unfold u, slice_bounds; repeat case_decide; cbn; lia).
      destruct (decide (l < 0)%Z); [by left|right]. rewrite u64_id by lia. destruct (decide (l >= Z.of_nat n)%Z); [by left|right]. destruct (decide (u < l)%Z); [by left|right]. rewrite u64_id by lia. lia.
Qed.
Lemma insert_bounds_spec n m ni mi lo up : small n -> small ni -> i64 lo -> i64 up ->
  (forall l u, insert_range n lo up l u -> insert_bounds n lo up = (Z.of_nat l, Z.of_nat u) /\ insert_bad n m ni mi (Z.of_nat l) (Z.of_nat u) = negb (bool_decide (ni = u - l /\ mi = m))) /\
  ((~ exists l u, insert_range n lo up l u) -> insert_bad n m ni mi (insert_bounds n lo up).1 (insert_bounds n lo up).2 = true).
Proof.
  unfold small, i64. intros Hn Hni Hlo Hup. split.
  - intros l u (H1 & H2 & H3 & H4). unfold from_end in *. split.
    + unfold insert_bounds. assert (El : (if decide (lo < 0)%Z then u64 (Z.of_nat n + lo) else u64 lo) = Z.of_nat l) by (repeat case_decide; rewrite u64_id; lia). rewrite El. clear El. f_equal. repeat case_decide; rewrite u64_id; lia.
    + unfold insert_bad. rewrite (bool_decide_eq_false_2 (_ \/ _)) by lia. cbn [orb]. rewrite u64_id by lia. rewrite (bool_decide_ext (Z.of_nat ni <> _) (ni <> u - l)) by lia. clear. repeat case_bool_decide; cbn; (done || tauto).
  - intros Hno. unfold insert_bad. rewrite (bool_decide_eq_true_2 (_ \/ _)); [done|]. destruct (insert_bounds n lo up) as [l u] eqn:E. unfold insert_bounds in E. injection E as El Eu. rewrite El in Eu. cbn [fst snd].
    destruct (decide (l <= u /\ u <= Z.of_nat n /\ (l < Z.of_nat n \/ l = 0))%Z) as [Hd|Hd]; [|lia]. exfalso. apply Hno.
    assert (H0 : (0 <= l)%Z) by (rewrite <- El; unfold u64; destruct (decide (lo < 0)%Z); apply Z.mod_pos_bound; lia). exists (Z.to_nat l), (Z.to_nat u). unfold insert_range, from_end. rewrite !Z2Nat.id by lia.
    assert (El2 : l = if decide (lo < 0)%Z then (Z.of_nat n + lo)%Z else lo).
    { destruct (decide (lo < 0)%Z) as [Hc|Hc]; [|by rewrite u64_id in El by lia]. destruct (decide (0 <= Z.of_nat n + lo)%Z); [by rewrite u64_id in El by lia|]. exfalso. rewrite u64_neg in El by lia. lia. }
    split; [exact El2|]. split; [|lia].
    destruct (decide (lo < 0 /\ up = 0)%Z) as [Hc|Hc]; [rewrite u64_id in Eu by lia; lia|]. destruct (decide (up < 0)%Z); [|by rewrite u64_id in Eu by lia]. destruct (decide (0 <= Z.of_nat n + up)%Z); [by rewrite u64_id in Eu by lia|]. exfalso. rewrite u64_neg in Eu by lia. lia.
Qed.
Lemma slice_range_fun n lo up l u l' u' : slice_range n lo up l u -> slice_range n lo up l' u' -> l = l' /\ u = u'.
Proof. intros (H1 & H2 & _) (H1' & H2' & _). lia. Qed.

(** * Copying *)
Section proofs.
  Context {V : Type} `{Val V} (junk : nat -> list V) (Hjunk : junk_ok junk).
  Implicit Types (a : dmat V) (x y : nat -> nat -> V).
  (** Copying complete rows: cells of rows [lo, hi) become [g], the others are kept. *)
  Lemma rows_copy_range (b0 src : list V) n m lo hi (f : nat -> nat) (g P : nat -> nat -> V) : lo <= hi <= n -> length b0 = n * m -> (forall r c, r < lo -> c < m -> b0 !! (r * m + c) = Some (P r c)) ->
    (forall r, lo <= r < hi -> f r + m <= length src) -> (forall r c, lo <= r < hi -> c < m -> src !! (f r + c) = Some (g r c)) ->
    exists b, for_up lo hi (fun r b => copy_range b (r * m) src (f r) m) b0 = Ok b /\ length b = n * m /\ forall r c, r < hi -> c < m -> b !! (r * m + c) = Some (if decide (lo <= r) then g r c else P r c).
  Proof.
    intros Hlh Hl HP Hf Hg.
    match goal with |- context [for_up lo hi ?F ?s0] => destruct (for_up_inv (fun i b => length b = n * m /\ forall r c, r < i -> c < m -> b !! (r * m + c) = Some (if decide (lo <= r) then g r c else P r c)) lo hi F s0) as (b & E & Hb) end.
    - lia.
    - split; [done|]. intros r c Hr Hc. rewrite decide_False by lia. by apply HP.
    - intros r b Hr [Hlb Hb]. destruct (copy_range_spec b (r * m) src (f r) m) as (b' & -> & Hl' & H1 & H2); [nia|apply Hf; lia|]. eexists. split; [done|]. split; [lia|]. intros r' c Hr' Hc. destruct (decide (r' = r)) as [->|].
      + rewrite H1 by done. rewrite decide_True by lia. apply Hg; [lia|done].
      + rewrite H2 by nia. apply Hb; [lia|done].
    - exists b. split; [done|]. exact Hb.
  Qed.
  Lemma insert_row_ok a i n m l u lo up x y : is_dense a n m x -> is_dense i (u - l) m y -> small n -> i64 lo -> i64 up -> insert_range n lo up l u ->
    exists res, insert_row junk a i lo up = Ok res /\ is_dense res n m (with_rows l u x y).
  Proof.
    intros Ha Hi Hn Hlo Hup Hrg. pose proof Ha as (Hr & Hc & _ & _ & Hx). pose proof Hi as (Hri & Hci & _ & _ & Hy). unfold insert_row. cbv zeta. rewrite Hr, Hc, Hri, Hci. pose proof Hrg as (_ & _ & Hl0 & Hlu).
    destruct (insert_bounds_spec n m (u - l) m lo up Hn ltac:(unfold small in *; lia) Hlo Hup) as [Hb _]. destruct (Hb l u Hrg) as [-> ->]. rewrite bool_decide_eq_true_2 by done. cbn [negb]. rewrite !Nat2Z.id.
    destruct (rows_copy_range (junk (n * m)) (m_buf a) n m 0 l (fun r => m_off a + r * m_skip a) x x) as (b1 & -> & L1 & B1); [lia|apply Hjunk|intros; lia|intros r Hr'; eapply dense_row_in; [done|lia]|intros r c Hr' Hc'; apply Hx; lia|]. cbn [obind].
    destruct (rows_copy_range b1 (m_buf i) n m l u (fun r => m_off i + (r - l) * m_skip i) (fun r c => y (r - l) c) x) as (b2 & -> & L2 & B2); [lia|done|intros r c Hr' Hc'; rewrite B1 by done; by case_decide|intros r Hr'; eapply dense_row_in; [done|lia]|intros r c Hr' Hc'; apply Hy; lia|]. cbn [obind].
    assert (Hskip : forall r, u <= r -> m_off a + l * m_skip a + m_skip a * (u - l) + (r - u) * m_skip a = m_off a + r * m_skip a) by (intros r Hr'; nia).
    destruct (rows_copy_range b2 (m_buf a) n m u n (fun r => m_off a + l * m_skip a + m_skip a * (u - l) + (r - u) * m_skip a) x (fun r c => if decide (l <= r) then y (r - l) c else x r c)) as (b3 & -> & L3 & B3); [lia|done|intros r c Hr' Hc'; by apply B2|intros r Hr'; rewrite Hskip by lia; eapply dense_row_in; [done|lia]|intros r c Hr' Hc'; rewrite Hskip by lia; apply Hx; lia|]. cbn [obind].
    eexists. split; [done|]. apply tabulated_is_dense. split; [done|]. intros r c Hr' Hc'. rewrite B3 by done. f_equal. unfold with_rows. repeat case_decide; (done || lia).
  Qed.
  Lemma insert_col_ok a i n m l u lo up x y : is_dense a n m x -> is_dense i n (u - l) y -> small m -> i64 lo -> i64 up -> insert_range m lo up l u ->
    exists res, insert_col junk a i lo up = Ok res /\ is_dense res n m (with_cols l u x y).
  Proof.
    intros Ha Hi Hn Hlo Hup Hrg. pose proof Ha as (Hr & Hc & _ & _ & Hx). pose proof Hi as (Hri & Hci & _ & _ & Hy). unfold insert_col. cbv zeta. rewrite Hr, Hc, Hri, Hci. pose proof Hrg as (_ & _ & Hl0 & Hlu).
    destruct (insert_bounds_spec m n (u - l) n lo up Hn ltac:(unfold small in *; lia) Hlo Hup) as [Hb _]. destruct (Hb l u Hrg) as [-> ->]. rewrite bool_decide_eq_true_2 by done. cbn [negb]. rewrite !Nat2Z.id.
    match goal with |- context [for_up 0 n ?F ?s0] => destruct (for_up_inv (fun k b => length b = n * m /\ forall r c, r < k -> c < m -> b !! (r * m + c) = Some (with_cols l u x y r c)) 0 n F s0) as (b & -> & L & B) end.
    - lia.
    - split; [apply Hjunk|]. intros; lia.
    - intros r b Hr' [Hlb Hb']. pose proof (dense_row_in a n m x r Ha ltac:(lia)) as Ba. pose proof (dense_row_in i n (u - l) y r Hi ltac:(lia)) as Bi. assert (r * m + m <= n * m) by nia.
      destruct (copy_range_spec b (r * m) (m_buf a) (m_off a + r * m_skip a) l) as (b1 & -> & L1 & A1 & A1'); [lia|lia|]. cbn [obind].
      destruct (copy_range_spec b1 (r * m + l) (m_buf i) (m_off i + r * m_skip i) (u - l)) as (b2 & -> & L2 & A2 & A2'); [lia|lia|]. cbn [obind].
      destruct (copy_range_spec b2 (r * m + u) (m_buf a) (m_off a + r * m_skip a + u) (m - u)) as (b3 & -> & L3 & A3 & A3'); [lia|lia|]. eexists. split; [done|]. split; [lia|]. intros r' c Hr2 Hc'. destruct (decide (r' = r)) as [->|Hne].
      + unfold with_cols. destruct (decide (l <= c < u)) as [Hd|Hd].
        * rewrite (A3' (r * m + c)) by lia. replace (r * m + c) with (r * m + l + (c - l)) by lia. rewrite A2 by lia. apply Hy; lia.
        * destruct (decide (c < l)).
          -- rewrite (A3' (r * m + c)) by lia. rewrite (A2' (r * m + c)) by lia. rewrite A1 by done. apply Hx; lia.
          -- replace (r * m + c) with (r * m + u + (c - u)) by lia. rewrite A3 by lia. replace (m_off a + r * m_skip a + u + (c - u)) with (m_off a + r * m_skip a + c) by lia. apply Hx; lia.
      + assert (r' * m + m <= r * m) by nia. rewrite A3', A2', A1' by lia. apply Hb'; lia.
    - cbn [obind]. eexists. split; [done|]. by apply tabulated_is_dense.
  Qed.
  Lemma slice_row_ok a n m l u lo up x : is_dense a n m x -> small n -> i64 lo -> i64 up -> slice_range n lo up l u ->
    exists res, slice_row a lo up = Ok res /\ is_dense res (u - l) m (fun r c => x (l + r) c).
  Proof.
    intros Ha Hn Hlo Hup Hrg. pose proof Ha as (Hr & Hc & Hs & Hb & Hx). pose proof Hrg as (_ & _ & Hl0 & Hlu). unfold slice_row. rewrite Hr, Hc. destruct (slice_bounds_spec n lo up Hn Hlo Hup) as [Hsb _]. destruct (Hsb l u Hrg) as [-> ->]. eexists. split; [done|].
    replace (Z.to_nat (Z.of_nat u - Z.of_nat l)) with (u - l) by lia. rewrite Nat2Z.id. split; [done|]. split; [done|]. split; [done|]. cbn. split.
    - destruct (decide (u - l = 0)); [by left|right]. destruct Hb as [->|Hb]; [lia|]. nia.
    - intros r c Hr' Hc'. rewrite <- (Hx (l + r) c) by lia. f_equal. lia.
  Qed.
  Lemma slice_col_ok a n m l u lo up x : is_dense a n m x -> small m -> i64 lo -> i64 up -> slice_range m lo up l u ->
    exists res, slice_col a lo up = Ok res /\ is_dense res n (u - l) (fun r c => x r (l + c)).
  Proof.
    intros Ha Hn Hlo Hup Hrg. pose proof Ha as (Hr & Hc & Hs & Hb & Hx). pose proof Hrg as (_ & _ & Hl0 & Hlu). unfold slice_col. rewrite Hr, Hc. destruct (slice_bounds_spec m lo up Hn Hlo Hup) as [Hsb _]. destruct (Hsb l u Hrg) as [-> ->]. eexists. split; [done|].
    replace (Z.to_nat (Z.of_nat u - Z.of_nat l)) with (u - l) by lia. rewrite Nat2Z.id. split; [done|]. split; [done|]. split; [cbn; lia|]. cbn. split.
    - destruct (decide (n = 0)); [by left|right]. destruct Hb as [->|Hb]; [lia|]. nia.
    - intros r c Hr' Hc'. rewrite <- (Hx r (l + c)) by lia. f_equal. lia.
  Qed.
  (** Rows of a sparse matrix written into a dense result. *)
  Lemma csr_rows_ok b h base rs n m lo hi res (P : nat -> nat -> V) : csr_reads b h base rs -> h_rows h = n -> h_cols h = m -> lo <= hi <= n -> length res = n * m -> (forall r c, r < lo -> c < m -> res !! (r * m + c) = Some (P r c)) ->
    exists res', csr_rows_to_dense b h lo hi res = Ok res' /\ length res' = n * m /\ forall r c, r < hi -> c < m -> res' !! (r * m + c) = Some (if decide (lo <= r) then cell rs r c else P r c).
  Proof.
    intros HR Hr Hc Hlh Hl HP. unfold csr_rows_to_dense. cbv zeta. rewrite Hc. pose proof (rd_rows _ _ _ _ HR) as Hlen. rewrite Hr in Hlen.
    match goal with |- context [for_up lo hi ?F ?s0] => destruct (for_up_inv (fun i (b : list V) => length b = n * m /\ forall r c, r < i -> c < m -> b !! (r * m + c) = Some (if decide (lo <= r) then cell rs r c else P r c)) lo hi F s0) as (res' & E & Hb) end.
    - lia.
    - split; [done|]. intros r c Hr' Hc'. rewrite decide_False by lia. by apply HP.
    - intros r s Hr' [Hls Hs]. destruct (lookup_lt_is_Some_2 rs r ltac:(lia)) as [l Hlr]. destruct (reads_row _ _ _ _ _ _ HR Hlr) as (_ & [Hsrt Hfl] & E1 & _). rewrite E1. cbn [obind]. rewrite (reads_row_nnz _ _ _ _ _ _ HR Hlr). cbn [obind]. rewrite Hc in Hfl. assert (Hrm : r * m + m <= n * m) by nia.
      rewrite (row_loop b h base rs r l _ (fun e (s : list V * nat) => let* res := fill_range (r * m + snd s) (r * m + e.1) vzero (fst s) in let* res := wr res (r * m + e.1) e.2 in Ok (res, e.1 + 1))); [|done|done|].
      2:{ intros i c v [t nx] Hci Hvi _. rewrite (rd_Ok _ _ _ Hci). cbn [obind fst snd]. destruct (fill_range _ _ _ _); [|done|done]. cbn [obind]. by rewrite (rd_Ok _ _ _ Hvi). }
      match goal with |- context [ofold ?F l (s, 0)] => destruct (ofold_inv (fun pre (t : list V * nat) => length t.1 = n * m /\ t.2 <= m /\ Forall (fun e => e.1 < t.2) pre /\ (forall e, e ∈ l -> e ∉ pre -> t.2 <= e.1) /\ (forall c, c < t.2 -> t.1 !! (r * m + c) = Some (cell_in c pre)) /\ (forall j, ~ (r * m <= j < r * m + m) -> t.1 !! j = s !! j)) F l (s, 0)) as ([t nx] & -> & Ht1 & Hnx & Hpre & _ & Hcell & Hout) end.
      + cbn. split; [done|]. split; [lia|]. split; [constructor|]. split; [lia|]. split; [lia|done].
      + intros pre [c v] post [t nx] El (Ht1 & Hnx & Hpre & Hge & Hcell & Hout). cbn [fst snd] in *.
        assert (Hcl : (c, v) ∈ l) by (rewrite El; apply elem_of_app; right; left). assert (Hcm : c < m) by (rewrite Forall_forall in Hfl; apply (Hfl c); apply elem_of_list_fmap; by exists (c, v)).
        assert (Hnin : forall e, e ∈ pre -> e.1 < c) . { intros e He. rewrite El in Hsrt. rewrite fmap_app in Hsrt. apply ss_app in Hsrt as (_ & _ & Hf). rewrite Forall_forall in Hf. specialize (Hf e.1 ltac:(apply elem_of_list_fmap; by exists e)). rewrite Forall_forall in Hf. apply Hf. cbn. left. }
        assert (Hnc : nx <= c). { apply (Hge (c, v) Hcl). intros He. specialize (Hnin _ He). cbn in Hnin. lia. }
        destruct (fill_range_spec (r * m + nx) (r * m + c) vzero t) as (t1 & -> & L1 & F1 & F1'); [lia|]. cbn [obind]. rewrite wr_Ok by lia. cbn [obind]. eexists. split; [done|]. cbn [fst snd]. split; [rewrite insert_length; lia|]. split; [lia|]. split.
        { apply Forall_app. split; [|constructor; [cbn; lia|constructor]]. apply Forall_forall. intros e He. specialize (Hnin e He). cbn. lia. }
        split. { intros e He Hne. assert (He' : e ∈ post). { rewrite El in He. apply elem_of_app in He as [He|He]; [exfalso; apply Hne; apply elem_of_app; by left|]. apply elem_of_cons in He as [->|He]; [exfalso; apply Hne; apply elem_of_app; right; left|done]. }
          rewrite El in Hsrt. rewrite fmap_app in Hsrt. apply ss_app in Hsrt as (_ & Hs2 & _). rewrite fmap_cons in Hs2. apply StronglySorted_inv in Hs2 as [_ Hf]. rewrite Forall_forall in Hf. specialize (Hf e.1 ltac:(apply elem_of_list_fmap; by exists e)). cbn in *. lia. }
        assert (Hfn : forall k, (forall e, e ∈ pre -> e.1 <> k) -> find_col k pre = None) by (intros k Hk; apply find_col_None; intros Hin; apply elem_of_list_fmap in Hin as (e & -> & He); by apply (Hk e)).
        assert (Hca : forall k, cell_in k (pre ++ [(c, v)]) = if decide (k = c) then v else cell_in k pre).
        { intros k. rewrite !cell_in_find. clear - Hnin. induction pre as [|[c0 v0] pre IH]; cbn [app find_col]; [destruct (decide (c = k)), (decide (k = c)); done|]. pose proof (Hnin (c0, v0) ltac:(left)) as H0. cbn in H0. destruct (decide (c0 = k)); [rewrite decide_False by lia; done|]. apply IH. intros e He. apply Hnin. by right. }
        split.
        * intros k Hk. rewrite Hca. case_decide as Hkc; [subst k; by rewrite list_lookup_insert by lia|]. rewrite list_lookup_insert_ne by lia. destruct (decide (k < nx)); [rewrite F1' by lia; by apply Hcell|]. rewrite F1 by lia. rewrite cell_in_find, Hfn; [done|]. intros e He. rewrite Forall_forall in Hpre. specialize (Hpre e He). cbn in Hpre. lia.
        * intros j Hj. rewrite list_lookup_insert_ne by lia. rewrite F1' by lia. by apply Hout.
      + cbn [fst snd obind] in *. destruct (fill_range_spec (r * m + nx) (r * m + m) vzero t) as (t1 & -> & L1 & F1 & F1'); [lia|]. eexists. split; [done|]. split; [lia|]. intros r' c Hr2 Hc'. destruct (decide (r' = r)) as [->|].
        * rewrite decide_True by lia. unfold cell. rewrite Hlr. destruct (decide (c < nx)); [rewrite F1' by lia; by apply Hcell|]. rewrite F1 by lia. f_equal. rewrite cell_in_find. rewrite (proj2 (find_col_None c l)); [done|]. intros Hin. apply elem_of_list_fmap in Hin as (e & -> & He). rewrite Forall_forall in Hpre. specialize (Hpre e He). cbn in Hpre. lia.
        * assert (r' * m + m <= r * m) by nia. rewrite F1' by lia. rewrite Hout by lia. apply Hs; lia.
    - exists res'. split; [done|]. exact Hb.
  Qed.
  Lemma insert_row_csr_ok b h rs i n m l u lo up y : shows b h rs -> h_rows h = n -> h_cols h = m -> is_dense i (u - l) m y -> small n -> 0 < n -> i64 lo -> i64 up -> insert_range n lo up l u ->
    exists res, insert_row_csr junk b h i lo up = Ok res /\ is_dense res n m (with_rows l u (cell rs) y).
  Proof.
    intros (base & HR & _)%shows_reads Hr Hc Hi Hn Hn0 Hlo Hup Hrg. pose proof Hi as (Hri & Hci & _ & _ & Hy). unfold insert_row_csr. cbv zeta. rewrite Hr, Hc, Hri, Hci. pose proof Hrg as (_ & _ & Hl0 & Hlu).
    destruct (insert_bounds_spec n m (u - l) m lo up Hn ltac:(unfold small in *; lia) Hlo Hup) as [Hb _]. destruct (Hb l u Hrg) as [-> ->]. rewrite bool_decide_eq_true_2 by done. cbn [negb]. rewrite !Nat2Z.id.
    destruct (csr_rows_ok b h base rs n m 0 (l + 1) (junk (n * m)) (cell rs) HR Hr Hc) as (b1 & -> & L1 & B1); [lia|apply Hjunk|intros; lia|]. cbn [obind].
    destruct (rows_copy_range b1 (m_buf i) n m l u (fun r => m_off i + (r - l) * m_skip i) (fun r c => y (r - l) c) (cell rs)) as (b2 & -> & L2 & B2); [lia|done|intros r c Hr' Hc'; rewrite B1 by lia; by case_decide|intros r Hr'; eapply dense_row_in; [done|lia]|intros r c Hr' Hc'; apply Hy; lia|]. cbn [obind].
    destruct (csr_rows_ok b h base rs n m u n b2 (fun r c => if decide (l <= r) then y (r - l) c else cell rs r c) HR Hr Hc) as (b3 & -> & L3 & B3); [lia|done|intros r c Hr' Hc'; by apply B2|]. cbn [obind].
    eexists. split; [done|]. apply tabulated_is_dense. split; [done|]. intros r c Hr' Hc'. rewrite B3 by done. f_equal. unfold with_rows. repeat case_decide; (done || lia).
  Qed.
End proofs.

(** * Theorems *)
Section theorems.
  Context {V : Type} `{Val V} (junk : nat -> list V).
  Implicit Types (a : dmat V) (x y : nat -> nat -> V).
  (** A slice is the addressed range, or an error. *)
  Theorem C51_slice_row a n m l u lo up x : is_dense a n m x -> small n -> i64 lo -> i64 up -> slice_range n lo up l u -> exists res, slice_row a lo up = Ok res /\ is_dense res (u - l) m (fun r c => x (l + r) c).
  Proof. apply slice_row_ok. Qed.
  Theorem C51_slice_col a n m l u lo up x : is_dense a n m x -> small m -> i64 lo -> i64 up -> slice_range m lo up l u -> exists res, slice_col a lo up = Ok res /\ is_dense res n (u - l) (fun r c => x r (l + c)).
  Proof. apply slice_col_ok. Qed.
  Theorem C51_slice_throws a n m lo up x : is_dense a n m x -> small n -> small m -> i64 lo -> i64 up ->
    ((~ exists l u, slice_range n lo up l u) -> slice_row a lo up = Throw) /\ ((~ exists l u, slice_range m lo up l u) -> slice_col a lo up = Throw).
  Proof.
    intros (Hr & Hc & _) Hn Hm Hlo Hup. unfold slice_row, slice_col. rewrite Hr, Hc. split; intros Hno.
    - destruct (slice_bounds_spec n lo up Hn Hlo Hup) as [_ Hb]. specialize (Hb Hno). destruct (slice_bounds n lo up) as [l u]. cbn in Hb. by rewrite Hb.
    - destruct (slice_bounds_spec m lo up Hm Hlo Hup) as [_ Hb]. specialize (Hb Hno). destruct (slice_bounds m lo up) as [l u]. cbn in Hb. by rewrite Hb.
  Qed.
  (** Inserting replaces the addressed range by the given matrix and keeps everything else. *)
  Theorem C51_insert_row a i n m l u lo up x y : junk_ok junk -> is_dense a n m x -> is_dense i (u - l) m y -> small n -> i64 lo -> i64 up -> insert_range n lo up l u ->
    exists res, insert_row junk a i lo up = Ok res /\ is_dense res n m (with_rows l u x y).
  Proof. intros Hj. by apply insert_row_ok. Qed.
  Theorem C51_insert_col a i n m l u lo up x y : junk_ok junk -> is_dense a n m x -> is_dense i n (u - l) y -> small m -> i64 lo -> i64 up -> insert_range m lo up l u ->
    exists res, insert_col junk a i lo up = Ok res /\ is_dense res n m (with_cols l u x y).
  Proof. intros Hj. by apply insert_col_ok. Qed.
  Theorem C51_insert_row_sparse b h i n m l u lo up x y : junk_ok junk -> sparse_cells b h n m x -> is_dense i (u - l) m y -> small n -> 0 < n -> i64 lo -> i64 up -> insert_range n lo up l u ->
    exists res, insert_row_csr junk b h i lo up = Ok res /\ is_dense res n m (with_rows l u x y).
  Proof.
    intros Hj (rs & Hs & Hr & Hc & Hx)%sparse_cells_cell Hi Hn Hn0 Hlo Hup Hrg. destruct (insert_row_csr_ok junk Hj b h rs i n m l u lo up y Hs Hr Hc Hi Hn Hn0 Hlo Hup Hrg) as (res & E & Hd). exists res. split; [done|]. eapply is_dense_ext; [exact Hd|]. intros r c Hr' Hc'. unfold with_rows. case_decide; [done|]. by apply Hx.
  Qed.
  (** Bounds out of range and matrices of the wrong shape are refused. *)
  Theorem C51_insert_throws a i n m ni mi lo up x y b h z : is_dense a n m x -> is_dense i ni mi y -> sparse_cells b h n m z -> small n -> small m -> small ni -> small mi -> i64 lo -> i64 up ->
    ((~ exists l u, insert_range n lo up l u /\ ni = u - l /\ mi = m) -> insert_row junk a i lo up = Throw /\ insert_row_csr junk b h i lo up = Throw) /\
    ((~ exists l u, insert_range m lo up l u /\ mi = u - l /\ ni = n) -> insert_col junk a i lo up = Throw).
  Proof.
    intros (Hr & Hc & _) (Hri & Hci & _) (_ & Hr' & Hc' & _) Hn Hm Hni Hmi Hlo Hup. unfold insert_row, insert_row_csr, insert_col. cbv zeta. rewrite Hr, Hc, Hri, Hci, Hr', Hc'.
    assert (Hx : forall n m ni mi, small n -> small ni -> (~ exists l u, insert_range n lo up l u /\ ni = u - l /\ mi = m) -> insert_bad n m ni mi (insert_bounds n lo up).1 (insert_bounds n lo up).2 = true).
    { clear - Hlo Hup. intros n m ni mi Hn Hni Hno. destruct (insert_bounds_spec n m ni mi lo up Hn Hni Hlo Hup) as [H1 H2]. destruct (insert_bad n m ni mi (insert_bounds n lo up).1 (insert_bounds n lo up).2) eqn:E; [done|]. exfalso.
      enough (Hex : ~ exists l u, insert_range n lo up l u) by (specialize (H2 Hex); congruence). intros (l & u & Hrg). destruct (H1 l u Hrg) as [E1 E2]. rewrite E1 in E. cbn in E. rewrite E in E2. apply Hno. exists l, u. split; [done|]. symmetry in E2. apply negb_false_iff in E2. by apply bool_decide_eq_true_1 in E2. }
    split; intros Hno.
    - specialize (Hx n m ni mi Hn Hni Hno). destruct (insert_bounds n lo up) as [l u]. cbn in Hx. by rewrite Hx.
    - specialize (Hx m n mi ni Hm Hmi Hno). destruct (insert_bounds m lo up) as [l u]. cbn in Hx. by rewrite Hx.
  Qed.
  (** What has been inserted is read back by slicing with the same bounds, and writing back a slice changes nothing,
      unless the bounds are lo:0 with lo < -1. *)
  Theorem C51_insert_slice a i n m l u lo up x y : junk_ok junk -> is_dense a n m x -> is_dense i (u - l) m y -> small n -> 0 < n -> i64 lo -> i64 up -> insert_range n lo up l u -> ~ (lo < -1 /\ up = 0)%Z ->
    exists res s, insert_row junk a i lo up = Ok res /\ slice_row res lo up = Ok s /\ is_dense s (u - l) m y.
  Proof.
    intros Hj Ha Hi Hn Hn0 Hlo Hup Hrg Hne. destruct (insert_row_ok junk Hj a i n m l u lo up x y Ha Hi Hn Hlo Hup Hrg) as (res & E & Hd). exists res.
    assert (Hs : slice_range n lo up l u). { destruct Hrg as (H1 & H2 & H3 & H4). unfold from_end in *. repeat split; try lia; [done|]. unfold from_end. destruct (decide (lo < 0 /\ up = 0)%Z); [|done]. destruct (decide (lo < 0)%Z); lia. }
    destruct (slice_row_ok res n m l u lo up _ Hd Hn Hlo Hup Hs) as (s & E2 & Hd2). exists s. split; [done|]. split; [done|]. eapply is_dense_ext; [exact Hd2|]. intros r c Hr Hc. cbn beta. unfold with_rows. rewrite decide_True by lia. f_equal. lia.
  Qed.
  Theorem C51_slice_insert a n m l u lo up x : junk_ok junk -> is_dense a n m x -> small n -> i64 lo -> i64 up -> slice_range n lo up l u -> ~ (lo < -1 /\ up = 0)%Z ->
    exists s res, slice_row a lo up = Ok s /\ insert_row junk a s lo up = Ok res /\ is_dense res n m x.
  Proof.
    intros Hj Ha Hn Hlo Hup Hrg Hne. destruct (slice_row_ok a n m l u lo up x Ha Hn Hlo Hup Hrg) as (s & E & Hd). exists s.
    assert (Hs : insert_range n lo up l u). { destruct Hrg as (H1 & H2 & H3 & H4). unfold from_end in *. repeat split; try lia; [done|]. unfold from_end. destruct (decide (lo < 0 /\ up = 0)%Z); [|done]. destruct (decide (lo < 0)%Z); lia. }
    destruct (insert_row_ok junk Hj a s n m l u lo up x _ Ha Hd Hn Hlo Hup Hs) as (res & E2 & Hd2). exists res. split; [done|]. split; [done|]. eapply is_dense_ext; [exact Hd2|]. intros r c Hr Hc. unfold with_rows. case_decide; [|done]. f_equal. lia.
  Qed.
End theorems.

(** * What does not hold *)
Local Instance Val_nat : Val nat := { vzero := 0; viszero := Nat.eqb 0 }.
Definition ex_a : dmat nat := mkDM [1; 2; 3; 4; 5; 6] 0 3 2 2.
Lemma ex_a_dense : is_dense ex_a 3 2 (fun r c => 2 * r + c + 1).
Proof. split; [done|]. split; [done|]. split; [cbn; lia|]. split; [cbn; right; lia|]. intros [|[|[|r]]] [|[|c]] Hr Hc; (lia || done). Qed.
(** X[-2:0] are the last two rows when slicing, but one row when inserting: X[-2:0, ] = X[-2:0, ] throws. *)
Theorem C51_negative_zero_refuted : exists s, slice_row ex_a (-2) 0 = Ok s /\ m_rows s = 2 /\ insert_row jk ex_a s (-2) 0 = Throw.
Proof. eexists. split; [reflexivity|]. split; reflexivity. Qed.
(** Inserting no rows into a sparse matrix without rows throws, into a dense one it does not. *)
Theorem C51_sparse_empty_refuted : insert_row_csr jk (mkBuf [] [] [0]) (mkH 0 0 2 0 false 0 0) (mkDM [] 0 0 2 2) 0 0 = Throw /\
  (exists res, insert_row jk (mkDM [] 0 0 2 2) (mkDM [] 0 0 2 2) 0 0 = Ok res) /\ insert_range 0 0 0 0 0.
Proof. split; [reflexivity|]. split; [by eexists|]. unfold insert_range, from_end. rewrite !decide_False by lia. repeat split; lia. Qed.

(** * The theorems apply *)
Example C51_ex : exists res s, insert_row jk ex_a (mkDM [8; 9] 0 1 2 2) (-1) 0 = Ok res /\ m_buf res = [1; 2; 3; 4; 8; 9] /\ slice_row res (-1) 0 = Ok s /\ m_off s = 4 /\ m_rows s = 1.
Proof. eexists _, _. split; [reflexivity|]. split; [reflexivity|]. split; [reflexivity|]. done. Qed.
Example C51_ex_hyp : is_dense ex_a 3 2 (fun r c => 2 * r + c + 1) /\ is_dense (mkDM [8; 9] 0 1 2 2) (3 - 2) 2 (fun _ c => c + 8) /\ small 3 /\ i64 (-1) /\ i64 0 /\ insert_range 3 (-1) 0 2 3 /\ slice_range 3 (-1) 0 2 3 /\ (forall l u, ~ slice_range 3 (-4) 2 l u).
Proof.
  split; [apply ex_a_dense|]. split; [split; [done|]; split; [done|]; split; [cbn; lia|]; split; [cbn; right; lia|]; intros [|r] [|[|c]] Hr Hc; (lia || done)|]. unfold small, i64. split; [lia|]. split; [lia|]. split; [lia|]. unfold insert_range, slice_range, from_end. split; [rewrite !decide_True by lia; lia|]. split; [rewrite !decide_True by lia; lia|]. intros l u (H1 & _). rewrite decide_True in H1 by lia. lia.
Qed.
Example C51_ex_sparse : exists res, insert_row_csr jk (mkBuf [4; 6] [1; 0] [0; 1; 2]) (mkH 0 2 2 2 false 0 0) (mkDM [8; 9] 0 1 2 2) 0 1 = Ok res /\ m_buf res = [8; 9; 6; 0].
Proof. eexists. split; reflexivity. Qed.
Example C51_ex_col : exists res, insert_col jk ex_a (mkDM [7; 8; 9] 0 3 1 1) (-1) 2 = Ok res /\ m_buf res = [1; 7; 3; 8; 5; 9].
Proof. eexists. split; reflexivity. Qed.

Print Assumptions C51_slice_row. Print Assumptions C51_slice_col. Print Assumptions C51_slice_throws. Print Assumptions C51_insert_row. Print Assumptions C51_insert_col. Print Assumptions C51_insert_row_sparse. Print Assumptions C51_insert_throws. Print Assumptions C51_insert_slice. Print Assumptions C51_slice_insert.
