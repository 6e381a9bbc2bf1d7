(** C22, C23, C24: the byte serializer. *)
From stdpp Require Import base numbers sorting list list_numbers.
From Coq Require Import Lia NArith ZArith.
From Verif Require Import CppBase Mem CSRModel CSRSpec CSRProofs CSRView PipelineModel PipelineSpec SinkSpec SerModel SerSpec SerProofs.

(** * Value types *)
(** Integers of [k] bytes in two's complement, and unsigned ones: what the C++ types intX_t and uintX_t are in memory. *)
Definition rep_int (k : nat) (code : N) : Rep Z := {|
  vsize := k; vcode := code;
  enc z := le k (Z.to_N (z mod 256 ^ Z.of_nat k));
  dec l := let n := Z.of_N (unle l) in if decide (2 * n < 256 ^ Z.of_nat k)%Z then n else (n - 256 ^ Z.of_nat k)%Z |}.
Definition rep_uint (k : nat) (code : N) : Rep N := {| vsize := k; vcode := code; enc := le k; dec := unle |}.
Lemma rep_int_ok k code : @RepOk Z (rep_int k code) (fun z => - 256 ^ Z.of_nat k <= 2 * z < 256 ^ Z.of_nat k)%Z.
Proof.
  split; cbn; [intros; apply le_length|]. intros z Hz. rewrite unle_le.
  set (M := (256 ^ Z.of_nat k)%Z) in *. assert (HM : (0 < M)%Z) by (apply Z.pow_pos_nonneg; lia).
  assert (HMN : (256 ^ N.of_nat k)%N = Z.to_N M). { unfold M. rewrite Z2N.inj_pow by lia. f_equal. lia. }
  pose proof (Z.mod_pos_bound z M HM) as Hb. rewrite N.mod_small by (rewrite HMN; lia). rewrite Z2N.id by lia.
  destruct (decide (0 <= z)%Z) as [Hp|Hp].
  - rewrite Z.mod_small by lia. rewrite decide_True by lia. done.
  - assert ((z mod M)%Z = (z + M)%Z) as ->. { symmetry. apply (Z.mod_unique_pos _ _ (-1)); lia. } rewrite decide_False by lia. lia.
Qed.
Lemma rep_uint_ok k code : @RepOk N (rep_uint k code) (fun n => n < 256 ^ N.of_nat k)%N.
Proof. split; cbn; [intros; apply le_length|]. intros n Hn. rewrite unle_le. by apply N.mod_small. Qed.

(** * C22: dense matrices *)
Section C22.
Context {V : Type} `{RepOk V valid}.
Implicit Types (a : dmat V).

Lemma dense_mem_of a n m x : is_dense a n m x -> contiguous a -> dense_mem a.
Proof. intros (Hn & Hm & Hs & Hl & _) Hc. unfold dense_mem, contiguous in *. rewrite drop_length. rewrite Hn, Hm. destruct Hl as [->|Hl]; [lia|]. rewrite Hc, Hm in Hl. destruct n; nia. Qed.

(** The bytes of a contiguous dense matrix, cut into chunks of any admissible size and read back in order, give the same
    matrix; no chunk is larger than asked for. *)
Theorem C22_chunks a n m x alloc c0 : (forall k, length (alloc k) = k) ->
  is_dense a n m x -> contiguous a -> fits32 n -> fits32 m -> (forall r c, r < n -> c < m -> valid (x r c)) -> HD <= c0 ->
  exists chunks, ser_chunks HD (dlen (V := V) n m) (dense_ser a) c0 = Ok chunks /\ Forall (fun ch => length ch <= c0) chunks /\
    exists o idx, deser_chunks (dense_deser_header (V := V) alloc) (dense_deser (V := V) alloc) (None, 0, 0) chunks = Ok (Some o, dlen (V := V) n m, idx) /\
      holds_dense o n m x.
Proof.
  intros Hal Hd Hct Hn Hm Hv Hc0. pose proof (dense_mem_of _ _ _ _ Hd Hct) as Hmem. destruct Hd as (En & Em & Hd). subst n m.
  pose proof (dense_image_length a Hmem) as Hil. pose proof (dense_receiver alloc a Hal Hmem Hn Hm) as HR.
  destruct (ser_chunks_spec (dense_ser a) (dense_image a) HD (dlen (V := V) (m_rows a) (m_cols a)) c0) as (b & bs & E & Hcc & Hb & HF).
  - unfold HD. lia.
  - rewrite Hil. unfold dlen. lia.
  - done.
  - intros c from Hc Hf Hle. apply dense_ser_spec; [done|unfold HD in Hc; lia|done|done|lia].
  - exists (b :: bs). split; [done|]. split; [done|].
    destruct (deser_chunks_spec _ _ _ _ _ _ HR b bs Hcc Hb) as (o & idx & -> & (Hor & Hoc & _) & Hfl). exists o, idx. rewrite Hil. split; [done|].
    by apply (dense_of_image a).
Qed.

(** Written at once, and read back in pieces of any sizes as long as the first piece contains the header. *)
Theorem C22_whole a n m x alloc : (forall k, length (alloc k) = k) ->
  is_dense a n m x -> contiguous a -> fits32 n -> fits32 m -> (forall r c, r < n -> c < m -> valid (x r c)) ->
  exists bytes, dense_ser a 0 0 = Ok bytes /\ length bytes = dlen (V := V) n m /\
    (exists o, dense_deser (V := V) alloc bytes (length bytes) None 0 = Ok o /\ holds_dense o n m x) /\
    forall b bs, concat (b :: bs) = bytes -> HD <= length b ->
      exists o idx, deser_chunks (dense_deser_header (V := V) alloc) (dense_deser (V := V) alloc) (None, 0, 0) (b :: bs) = Ok (Some o, length bytes, idx) /\ holds_dense o n m x.
Proof.
  intros Hal Hd Hct Hn Hm Hv. pose proof (dense_mem_of _ _ _ _ Hd Hct) as Hmem. destruct Hd as (En & Em & Hd). subst n m.
  pose proof (dense_image_length a Hmem) as Hil. pose proof (dense_receiver alloc a Hal Hmem Hn Hm) as HR.
  exists (dense_image a). split; [|split; [done|split]].
  - assert (E : dense_ser a 0 0 = dense_ser a (dlen (V := V) (m_rows a) (m_cols a)) 0).
    { unfold dense_ser. rewrite (decide_False (P := 0 <> 0)) by auto. rewrite (decide_True (P := dlen (V := V) (m_rows a) (m_cols a) <> 0)) by (unfold dlen, HD; lia). done. }
    rewrite E. rewrite dense_ser_spec; [|done|unfold dlen, HD; lia|unfold dlen; lia|by left|lia]. f_equal. rewrite drop_0. apply take_ge. lia.
  - destruct HR as (Hhd & Hpos & Hlen & Hh & Hdes).
    assert (Hag : agrees (dense_image a) (dense_image a) 0) by (split; [lia|done]).
    destruct (Hh (dense_image a) eq_refl) as (o & Eo & Hg).
    destruct (Hdes (dense_image a) o 0 Hag Hg) as (o' & E' & (Hor & Hoc & Hol) & Hp); [done|by left|].
    exists o'. split.
    + unfold dense_deser in *. destruct (decide (0 = 0 /\ length (dense_image a) < HD)); [done|]. destruct (decide (0 = 0)); [|done].
      assert (Himg : take HD (dense_image a) = dense_header (V := V) (m_rows a) (m_cols a)) by (unfold dense_image; by rewrite take_app_alt).
      rewrite Eo. rewrite (dense_header_parse alloc _ _ _ (Some o) Himg Hn Hm) in E'. exact E'.
    + apply (dense_of_image a); try done. apply list_eq. intros p. rewrite (Hp p), lookup_drop. destruct (decide _) as [?|Hx]; [done|].
      destruct Hg as (_ & _ & Hgl). rewrite !lookup_ge_None_2; [done| |]; unfold dlen in Hil; lia.
  - intros b bs Hcc Hb. destruct (deser_chunks_spec _ _ _ _ _ _ HR b bs Hcc Hb) as (o & idx & -> & (Hor & Hoc & _) & Hfl). exists o, idx. split; [done|].
    by apply (dense_of_image a).
Qed.

(** Too small a chunk is refused. *)
Theorem C22_small_chunk_throws a c0 : c0 < HD -> ser_chunks HD (dlen (V := V) (m_rows a) (m_cols a)) (dense_ser a) c0 = Throw.
Proof. intros Hc. unfold ser_chunks. by rewrite decide_True. Qed.
End C22.

(** Bytes of one value type are not accepted for another, and those of a sparse matrix not for a dense one. *)
Theorem C22_type_checked {V W} `{RepOk V valid} `{RepOk W valid'} (a : dmat V) n m x alloc bytes :
  is_dense a n m x -> contiguous a -> dense_ser a 0 0 = Ok bytes -> vcode (V := W) <> vcode (V := V) -> dense_deser (V := W) alloc bytes (length bytes) None 0 = Throw.
Proof.
  intros Hd Hct Es Hne. pose proof (dense_mem_of _ _ _ _ Hd Hct) as Hmem.
  assert (E : dense_ser a 0 0 = dense_ser a (dlen (V := V) (m_rows a) (m_cols a)) 0).
  { unfold dense_ser. rewrite (decide_False (P := 0 <> 0)) by auto. rewrite (decide_True (P := dlen (V := V) (m_rows a) (m_cols a) <> 0)) by (unfold dlen, HD; lia). done. }
  rewrite E in Es. rewrite dense_ser_spec in Es; [|done|unfold dlen, HD; lia|unfold dlen; lia|by left|lia]. 
  pose proof (dense_image_length a Hmem) as Hil. rewrite drop_0, take_ge in Es by lia. injection Es as <-. unfold dense_deser.
  destruct (decide (0 = 0 /\ length (dense_image a) < HD)); [done|]. rewrite decide_True by done.
  unfold dense_deser_header. assert (Himg : take HD (dense_image a) = dense_header (V := V) (m_rows a) (m_cols a)) by (unfold dense_image; by rewrite take_app_alt).
  rewrite (rd_take _ _ _ 1 DT_DENSE Himg) by done. cbn [obind]. rewrite decide_False by auto.
  rewrite (rd_take _ _ _ 18 (vcode (V := V)) Himg) by done. cbn [obind]. rewrite decide_True by auto. done.
Qed.

(** A column range of a dense matrix (a view whose rows are not contiguous) is not serialized correctly: the code copies
    rows * cols consecutive cells. *)
Definition strided_example : dmat N := mkDM [1; 2; 3; 4]%N 0 2 1 2.
Theorem C22_strided_view_refuted : exists (a : dmat N) x o,
  is_dense a 2 1 x /\ (forall r c, r < 2 -> c < 1 -> (x r c < 256)%N) /\
  (let R := rep_uint 1 3 in exists bytes, dense_ser a 0 0 = Ok bytes /\ dense_deser (V := N) (fun k => replicate k 0%N) bytes (length bytes) None 0 = Ok o /\
    @dec _ R (word vsize 0 (do_mem o)) = x 0 0 /\ @dec _ R (word vsize 1 (do_mem o)) <> x 1 0).
Proof.
  exists strided_example, (fun r _ => N.of_nat (2 * r + 1)), (mkDO 2 1 [1; 2]%N). split; [|split].
  - unfold is_dense. simpl. repeat (split; [done || lia|]). intros [|[|r]] [|c] Hr Hc; (done || lia).
  - intros r c Hr Hc. lia.
  - simpl. eexists. split; [vm_compute; reflexivity|]. split; [vm_compute; reflexivity|]. split; [done|]. vm_compute. discriminate.
Qed.

(** Dimensions of 2^32 or more are cut to 32 bits. *)
Lemma large_dims n : N.of_nat n = (2 ^ 32)%N -> exists (a : dmat N), is_dense a n 0 (fun _ _ => 0%N) /\ contiguous a /\
  let R := rep_uint 1 3 in exists bytes, dense_ser a 0 0 = Ok bytes /\ forall alloc o, dense_deser (V := N) alloc bytes (length bytes) None 0 = Ok o -> do_rows o = 0.
Proof.
  intros Hid.
  pose (R := rep_uint 1 3). pose proof (rep_uint_ok 1 3) as HO. fold R in HO.
  exists (mkDM [] 0 n 0 0). assert (Hd : is_dense (V := N) (mkDM [] 0 n 0 0) n 0 (fun _ _ => 0%N)) by (unfold is_dense; simpl; repeat (split; [done || lia|]); intros; lia).
  assert (Hct : contiguous (V := N) (mkDM [] 0 n 0 0)) by done.
  split; [done|]. split; [done|]. pose proof (dense_mem_of _ _ _ _ Hd Hct) as Hmem. cbn zeta. fold R.
  set (a := mkDM (V := N) [] 0 n 0 0) in *. pose proof (dense_image_length a Hmem) as Hil.
  exists (dense_image a). split.
  - assert (E : dense_ser a 0 0 = dense_ser a (dlen (V := N) (m_rows a) (m_cols a)) 0).
    { unfold dense_ser. rewrite (decide_False (P := 0 <> 0)) by auto. rewrite (decide_True (P := dlen (V := N) (m_rows a) (m_cols a) <> 0)) by (unfold dlen, HD; lia). done. }
    rewrite E, dense_ser_spec; [|done|unfold dlen, HD; lia|unfold dlen; lia|by left|lia]. rewrite drop_0, take_ge by lia. done.
  - intros alloc o. unfold dense_deser. destruct (decide (0 = 0 /\ length (dense_image a) < HD)); [done|]. rewrite decide_True by done.
    unfold dense_deser_header. assert (Himg : take HD (dense_image a) = dense_header (V := N) (m_rows a) (m_cols a)) by (unfold dense_image; by rewrite take_app_alt).
    pose proof (dense_header_length (V := N) (m_rows a) (m_cols a)) as Hl.
    rewrite (rd_take _ _ _ 1 DT_DENSE Himg) by done. cbn [obind]. rewrite decide_False by auto.
    rewrite (rd_take _ _ _ 18 (vcode (V := N)) Himg) by done. cbn [obind]. rewrite decide_False by auto.
    rewrite (rdn_take _ _ _ 35 4 Himg) by (rewrite Hl; unfold HD; lia). cbn [obind].
    rewrite (rdn_take _ _ _ 39 4 Himg) by (rewrite Hl; unfold HD; lia). cbn [obind].
    rewrite (rd_take _ _ _ 43 BT_DENSE Himg) by done. cbn [obind]. rewrite decide_False by done. rewrite decide_True by done. cbn [obind].
    replace (take 4 (drop 35 (dense_header (V := N) (m_rows a) (m_cols a)))) with (le_nat 4 n) by done.
    assert (E0 : unle_nat (le_nat 4 n) = 0) by (unfold unle_nat, le_nat; rewrite unle_le, Hid; done). rewrite E0.
    cbn [do_rows do_cols]. rewrite (decide_False (P := 0 <> 0 /\ 0 < HD)) by (intros [? _]; done). intros Ho.
    destruct (dense_bytes _ _ _ _); cbn [obind] in Ho; try done. destruct (copy_range _ _ _ _ _); cbn [obind] in Ho; try done. by injection Ho as <-.
Qed.
Theorem C22_large_dims_refuted : exists n (a : dmat N), N.of_nat n = (2 ^ 32)%N /\ is_dense a n 0 (fun _ _ => 0%N) /\ contiguous a /\
  let R := rep_uint 1 3 in exists bytes, dense_ser a 0 0 = Ok bytes /\ forall alloc o, dense_deser (V := N) alloc bytes (length bytes) None 0 = Ok o -> do_rows o = 0.
Proof.
  assert (exists n, N.of_nat n = (2 ^ 32)%N) as [n Hn] by (eexists; apply N2Nat.id).
  destruct (large_dims n Hn) as (a & H). exists n, a. split; [exact Hn|exact H].
Qed.

(** The hypotheses of C22 are met: a 2 x 2 matrix of 64-bit integers in chunks of 50 bytes. *)
Definition ex_vals : list Z := [1; -2; 300; 4]%Z.
Definition ex_dense : dmat Z := mkDM ex_vals 0 2 2 2.
Definition ex_cell (r c : nat) : Z := nth (r * 2 + c) ex_vals 0%Z.
Example C22_example : (let R := rep_int 8 2 in
  is_dense ex_dense 2 2 ex_cell /\ contiguous ex_dense /\ fits32 2 /\ HD <= 50 /\
  (forall r c, r < 2 -> c < 2 -> (- 256 ^ 8 <= 2 * ex_cell r c < 256 ^ 8)%Z) /\
  match ser_chunks HD (dlen (V := Z) 2 2) (dense_ser ex_dense) 50 with Ok chunks => length <$> chunks = [50; 27] | _ => False end).
Proof.
  cbn zeta. split; [unfold is_dense; simpl; repeat (split; [done || lia|]); intros [|[|r]] [|[|c]] Hr Hc; (done || lia)|].
  split; [done|]. split; [done|]. split; [unfold HD; lia|]. split; [intros [|[|r]] [|[|c]] Hr Hc; unfold ex_cell; simpl; lia|]. vm_compute. done.
Qed.

(** * C24: sparse matrices *)
Section C24.
Context {V : Type} `{RepOk V valid} `{Val V}.
Implicit Types (b : csrbuf V) (rs : list (row V)).

Lemma csr_len_spec b h base rs : csr_reads b h base rs -> stored rs <= h_max h ->
  exists len, csr_len b h = Ok len /\ length (sparse_image (h_cols h) rs) <= len /\ (csr_isView h = true \/ h_max h = stored rs -> len = length (sparse_image (h_cols h) rs)).
Proof.
  intros HR Hmax. unfold csr_len. rewrite (csr_nzb_spec _ _ _ _ HR), sparse_image_length, <- (rd_rows _ _ _ _ HR). unfold slen.
  destruct (csr_isView h); cbn [obind]; eexists; (split; [done|]); split; try nia; (intros [Hx|Hx]; [done|rewrite Hx; lia]).
Qed.
Lemma shows_max b h rs : shows b h rs -> stored rs <= h_max h.
Proof.
  intros (all & [Hst Hok Hin Hal Hmx] & ->). rewrite Hmx. destruct Hst as (_ & rc & rv & _ & -> & _). rewrite app_length, fmap_length.
  fold (stored all). etransitivity; [apply stored_take_le|]. rewrite <- (take_drop (h_off h) all) at 2. rewrite stored_app. lia.
Qed.
Lemma shows_ok b h rs : shows b h rs -> Forall (row_ok (h_cols h)) rs.
Proof. intros (all & [Hst Hok Hin Hal Hmx] & ->). by apply Forall_take, Forall_drop. Qed.
Lemma shows_len b h rs : shows b h rs -> length rs = h_rows h.
Proof. intros (all & [Hst Hok Hin Hal Hmx] & ->). rewrite take_length, drop_length. lia. Qed.

(** A sparse matrix or view showing the rows [rs], in chunks of any admissible size: the receiver stores the same rows. *)
Theorem C24_chunks b h rs c0 : shows b h rs -> fits32 (h_rows h) -> fits32 (h_cols h) -> fits64 (stored rs) -> Forall valid (concat rs).*2 -> HS <= c0 ->
  exists len chunks, csr_len b h = Ok len /\ ser_chunks HS len (csr_ser b h) c0 = Ok chunks /\ Forall (fun ch => length ch <= c0) chunks /\
    exists o n idx, deser_chunks (csr_deser_header (V := V)) (csr_deser (V := V)) (None, 0, 0) chunks = Ok (Some o, n, idx) /\
      holds_sparse o (h_rows h) (h_cols h) rs /\ forall r c, r < h_rows h -> c < h_cols h -> csr_get (fst (as_csr o)) (snd (as_csr o)) r c = csr_get b h r c.
Proof.
  intros Hs Hr Hc H64 Hv Hc0. destruct (shows_reads _ _ _ Hs) as (base & HR & _). pose proof (shows_len _ _ _ Hs) as Hl.
  destruct (csr_len_spec _ _ _ _ HR (shows_max _ _ _ Hs)) as (len & El & Hlen & _). exists len.
  rewrite <- Hl in Hr. pose proof (sparse_receiver (h_cols h) rs Hr Hc H64) as HRcv.
  destruct (ser_chunks_spec (csr_ser b h) (sparse_image (h_cols h) rs) HS len c0) as (b0 & bs & E & Hcc & Hb & HF).
  - unfold HS. lia.
  - split; [|done]. rewrite sparse_image_length. unfold slen. lia.
  - done.
  - intros c from Hcs Hf Hle. by apply (csr_ser_spec b h base).
  - exists (b0 :: bs). split; [done|]. split; [done|]. split; [done|].
    destruct (deser_chunks_spec _ _ _ _ _ _ HRcv b0 bs Hcc Hb) as (o & idx & -> & Hg & Hfl). eexists _, _, _. split; [done|].
    assert (Hh : holds_sparse o (h_rows h) (h_cols h) rs) by (rewrite <- Hl; apply sparse_of_image; (done || by eapply shows_ok)).
    split; [done|]. intros r c Hrr Hcc'. rewrite (shows_cell b h rs) by done. destruct Hh as (Hcov & H0c & H1' & H2' & H3').
    rewrite (shows_cell _ _ rs); [done| |by rewrite H1'|by rewrite H2']. apply shows_all; [done|done|congruence].
Qed.

(** At once. *)
Theorem C24_whole b h rs : shows b h rs -> fits32 (h_rows h) -> fits32 (h_cols h) -> fits64 (stored rs) -> Forall valid (concat rs).*2 ->
  exists bytes o, csr_ser b h 0 0 = Ok bytes /\ csr_deser (V := V) bytes (length bytes) None 0 = Ok o /\ holds_sparse o (h_rows h) (h_cols h) rs.
Proof.
  intros Hs Hr Hc H64 Hv. destruct (shows_reads _ _ _ Hs) as (base & HR & _). pose proof (shows_len _ _ _ Hs) as Hl. rewrite <- Hl in Hr.
  destruct (csr_len_spec _ _ _ _ HR (shows_max _ _ _ Hs)) as (len & El & Hlen & _).
  pose proof (sparse_receiver (h_cols h) rs Hr Hc H64) as HRcv. set (img := sparse_image (h_cols h) rs) in *.
  assert (Hil : length img = slen (V := V) (length rs) (stored rs)) by apply sparse_image_length. unfold slen in Hil.
  assert (E : csr_ser b h 0 0 = Ok img).
  { assert (E : csr_ser b h 0 0 = csr_ser b h len 0).
    { unfold csr_ser. rewrite El. cbn [obind]. rewrite (decide_False (P := 0 <> 0)) by auto. rewrite (decide_True (P := len <> 0)) by (unfold HS in *; lia). done. }
    rewrite E, (csr_ser_spec b h base rs); [|done|lia|by left]. f_equal. rewrite drop_0. apply take_ge. done. }
  destruct HRcv as (Hhd & Hpos & Hlen' & Hh & Hdes). assert (Hag : agrees img img 0) by (split; [lia|done]).
  destruct (Hh img eq_refl) as (o & Eo & Hg). destruct (Hdes img o 0 Hag Hg) as (o' & E' & Hg' & Hp); [done|by left|].
  exists img, o'. split; [done|]. split.
  - unfold csr_deser in *. destruct (decide (0 = 0 /\ length img < HS)); [done|]. destruct (decide (0 = 0)); [|done]. rewrite Eo.
    assert (Himg : take HS img = csr_header_bytes (V := V) (length rs) (h_cols h) (stored rs)).
    { unfold img, sparse_image. rewrite <- !app_assoc. apply take_app_alt. symmetry. apply csr_header_length. }
    rewrite (csr_header_parse _ _ _ _ (Some o) Himg Hr Hc H64) in E'. exact E'.
  - rewrite <- Hl. apply sparse_of_image; [done| |by eapply shows_ok|done|done|done]. apply list_eq. intros p. rewrite (Hp p), lookup_drop. fold img.
    destruct (decide (0 <= HS + p < 0 + length img)) as [?|Hx]; [done|]. pose proof (Hlen' o Hg). rewrite !lookup_ge_None_2 by lia. done.
Qed.
End C24.

(** The overloads that allocate the buffer themselves: DaphneSerializer.h 243-250 (dense) allocates chunkSize bytes,
    664-671 (sparse) allocates sizeof(chunkSize) = 8 bytes. Writing past the allocation is UB. *)
Definition in_buffer (cap : nat) (r : outcome (list N)) : outcome (list N) := let* bs := r in if decide (length bs <= cap) then Ok bs else UB.
Definition dense_ser_alloc {V} `{Rep V} (a : dmat V) (chunk from : nat) : outcome (list N) :=
  let chunk := if decide (chunk <> 0) then chunk else dlen (V := V) (m_rows a) (m_cols a) in in_buffer chunk (dense_ser a chunk from).
Definition csr_ser_alloc {V} `{Rep V} (b : csrbuf V) (h : csrh) (chunk from : nat) : outcome (list N) :=
  let* len := csr_len b h in let chunk := if decide (chunk = 0) then len else chunk in in_buffer 8 (csr_ser b h chunk from).
(** The dense one never overruns its buffer, the sparse one always does when it starts at the beginning. *)
Theorem C24_alloc_dense {V} `{RepOk V valid} (a : dmat V) n m x chunk from : is_dense a n m x -> contiguous a ->
  (from = 0 \/ HD <= from) -> from <= dlen (V := V) n m -> (from = 0 -> chunk <> 0 -> HD <= chunk) -> exists bs, dense_ser_alloc a chunk from = Ok bs.
Proof.
  intros Hd Hct Hf Hle Hc. pose proof (dense_mem_of _ _ _ _ Hd Hct) as Hmem. destruct Hd as (En & Em & Hd). subst n m. unfold dense_ser_alloc, in_buffer.
  set (c := if decide (chunk <> 0) then chunk else _). assert (Hcc : c <> 0 /\ (from = 0 -> HD <= c)).
  { unfold c. destruct (decide (chunk <> 0)); [auto|]. unfold dlen, HD. lia. }
  rewrite dense_ser_spec by (done || tauto). cbn [obind]. rewrite decide_True by (rewrite take_length; lia). by eexists.
Qed.
Theorem C24_alloc_sparse_refuted {V} `{RepOk V valid} `{Val V} (b : csrbuf V) h rs chunk : shows b h rs -> (chunk <> 0 -> HS <= chunk) -> csr_ser_alloc b h chunk 0 = UB.
Proof.
  intros Hs Hc. destruct (shows_reads _ _ _ Hs) as (base & HR & _). destruct (csr_len_spec _ _ _ _ HR (shows_max _ _ _ Hs)) as (len & El & Hlen & _).
  pose proof (sparse_image_length (h_cols h) rs) as Hil. unfold slen in Hil. unfold csr_ser_alloc. rewrite El. cbn [obind].
  set (c := if decide (chunk = 0) then len else chunk). assert (HS <= c) by (unfold c; destruct (decide (chunk = 0)); [lia|auto]).
  rewrite (csr_ser_spec b h base rs) by (done || by left). unfold in_buffer. cbn [obind]. rewrite decide_False; [done|].
  rewrite take_length, drop_length. unfold HS in *. lia.
Qed.

(** * C23: chunks in any order *)
Section C23.
Context {V : Type} `{RepOk V valid} `{Val V}.

(** [c] is the chunk size; [bufs] are the messages that carry the chunks (with or without unused space at the end), in the
    order in which they were made, [bufs'] the same messages in the order of delivery. *)
Theorem C23_dense (a : dmat V) n m x alloc c : (forall k, length (alloc k) = k) ->
  is_dense a n m x -> contiguous a -> fits32 n -> fits32 m -> fits64 (dlen (V := V) n m) -> (forall r c, r < n -> c < m -> valid (x r c)) -> 2 * HD + 8 <= c ->
  exists chunks, ooo_makes HD (dlen (V := V) n m) (Ok (dense_header (V := V) n m)) (dense_ser a) c 0 chunks /\
    forall bufs bufs', carries c chunks bufs -> bufs' ≡ₚ bufs ->
      (exists o got, ooo_recv_all HD (dense_deser_header (V := V) alloc) (dense_deser (V := V) alloc) (None, 0) bufs' = Ok (Some o, got) /\ holds_dense o n m x /\
        ooo_has_next (dobj_len (V := V)) (Some o, got) = false) /\
      (forall pre, (exists b post, bufs' = pre ++ b :: post) ->
        exists st, ooo_recv_all HD (dense_deser_header (V := V) alloc) (dense_deser (V := V) alloc) (None, 0) pre = Ok st /\ ooo_has_next (dobj_len (V := V)) st = true).
Proof.
  intros Hal Hd Hct Hn Hm H64 Hv Hc. pose proof (dense_mem_of _ _ _ _ Hd Hct) as Hmem. destruct Hd as (En & Em & Hd). subst n m.
  pose proof (dense_image_length a Hmem) as Hil. pose proof (dense_receiver alloc a Hal Hmem Hn Hm) as HR.
  assert (Himg : take HD (dense_image a) = dense_header (V := V) (m_rows a) (m_cols a)) by (unfold dense_image; by rewrite take_app_alt).
  destruct (ooo_makes_spec (dense_image a) HD (Ok (dense_header (V := V) (m_rows a) (m_cols a))) (dense_ser a) (c - (HD + 8))) as (chunks & ts & Hmk & Ht & Hpart).
  - by rewrite Himg.
  - rewrite Hil. unfold dlen, HD. lia.
  - lia.
  - by rewrite Hil.
  - intros from Hf Hlt. apply dense_ser_spec; [done|unfold HD in *; lia|lia|done|lia].
  - replace (c - (HD + 8) + (HD + 8)) with c in * by lia. rewrite Hil in Hmk. exists chunks. split; [done|]. intros bufs bufs' Hcar Hperm.
    destruct (ooo_any_order _ _ _ _ _ _ HR (dobj_len (V := V))) with (c := c - (HD + 8)) (hb := take HD (dense_image a)) (ts := ts) (bufs := bufs) (bufs' := bufs') as [H1' H2']; [|done|done|by apply Hpart|done|].
    + intros o (Hor & Hoc & _). unfold dobj_len. by rewrite Hor, Hoc.
    + split; [|exact H2']. destruct H1' as (o & got & E & (Hor & Hoc & _) & Hfl & Hnx). exists o, got. split; [done|]. split; [|done].
      by apply (dense_of_image a).
Qed.

(** The sparse case: the matrix is a view, or its arrays have no unused space. *)
Theorem C23_sparse (b : csrbuf V) h rs c : shows b h rs -> (csr_isView h = true \/ h_max h = stored rs) ->
  fits32 (h_rows h) -> fits32 (h_cols h) -> fits64 (slen (V := V) (h_rows h) (stored rs)) -> Forall valid (concat rs).*2 -> 2 * HS + 8 <= c ->
  exists len chunks, csr_len b h = Ok len /\ ooo_makes HS len (csr_header b h) (csr_ser b h) c 0 chunks /\
    forall bufs bufs', carries c chunks bufs -> bufs' ≡ₚ bufs ->
      (exists o got, ooo_recv_all HS (csr_deser_header (V := V)) (csr_deser (V := V)) (None, 0) bufs' = Ok (Some o, got) /\ holds_sparse o (h_rows h) (h_cols h) rs /\
        ooo_has_next (sobj_len (V := V)) (Some o, got) = false) /\
      (forall pre, (exists b post, bufs' = pre ++ b :: post) ->
        exists st, ooo_recv_all HS (csr_deser_header (V := V)) (csr_deser (V := V)) (None, 0) pre = Ok st /\ ooo_has_next (sobj_len (V := V)) st = true).
Proof.
  intros Hs Hex Hr Hc H64 Hv Hcc. destruct (shows_reads _ _ _ Hs) as (base & HR & _). pose proof (shows_len _ _ _ Hs) as Hl. rewrite <- Hl in Hr, H64.
  destruct (csr_len_spec _ _ _ _ HR (shows_max _ _ _ Hs)) as (len & El & Hlen & Hlx). specialize (Hlx Hex). subst len.
  pose proof (sparse_image_length (h_cols h) rs) as Hil. set (img := sparse_image (h_cols h) rs) in *.
  assert (H64' : fits64 (stored rs)) by (unfold fits64, slen in *; lia).
  pose proof (sparse_receiver (h_cols h) rs Hr Hc H64') as HRcv. fold img in HRcv.
  assert (Himg : take HS img = csr_header_bytes (V := V) (length rs) (h_cols h) (stored rs)).
  { unfold img, sparse_image. rewrite <- !app_assoc. apply take_app_alt. symmetry. apply csr_header_length. }
  destruct (ooo_makes_spec img HS (csr_header b h) (csr_ser b h) (c - (HS + 8))) as (chunks & ts & Hmk & Ht & Hpart).
  - unfold csr_header. rewrite (csr_nzb_spec _ _ _ _ HR). cbn [obind]. by rewrite Himg, Hl.
  - rewrite Hil. unfold slen, HS. lia.
  - lia.
  - by rewrite Hil.
  - intros from Hf Hlt. apply (csr_ser_spec b h base); [done|lia|done].
  - replace (c - (HS + 8) + (HS + 8)) with c in * by lia. eexists _, chunks. split; [exact El|]. split; [exact Hmk|]. intros bufs bufs' Hcar Hperm.
    destruct (ooo_any_order _ _ _ _ _ _ HRcv (sobj_len (V := V))) with (c := c - (HS + 8)) (hb := take HS img) (ts := ts) (bufs := bufs) (bufs' := bufs') as [H1' H2']; [|done|done|by apply Hpart|done|].
    + intros o (Hor & Hoc & Hom & _). unfold sobj_len. by rewrite Hor, Hom, Hil.
    + split; [|exact H2']. destruct H1' as (o & got & E & Hg & Hfl & Hnx). exists o, got. split; [done|]. split; [|done].
      rewrite <- Hl. apply sparse_of_image; (done || by eapply shows_ok).
Qed.

(** If the arrays have unused space (more allocated than stored), the sending loop never ends, whatever the chunk size. *)
Theorem C23_slack_refuted (b : csrbuf V) h rs c len chunks : shows b h rs -> csr_isView h = false -> stored rs < h_max h -> csr_len b h = Ok len ->
  ~ ooo_makes HS len (csr_header b h) (csr_ser b h) c 0 chunks.
Proof.
  intros Hs Hv Hslack El. destruct (shows_reads _ _ _ Hs) as (base & HR & _). pose proof (shows_len _ _ _ Hs) as Hl.
  pose proof (sparse_image_length (h_cols h) rs) as Hil. set (img := sparse_image (h_cols h) rs) in *.
  assert (Hlen : length img < len). { unfold csr_len in El. rewrite Hv in El. cbn [obind] in El. injection El as <-. rewrite Hil, Hl. unfold slen. nia. }
  enough (forall start, ooo_makes HS len (csr_header b h) (csr_ser b h) c start chunks -> ~ (start <= length img /\ (start = 0 \/ HS <= start))) as HH.
  { intros Hm. apply (HH 0 Hm). split; [lia|by left]. }
  intros start Hm. induction Hm as [|start bs start' rest Hne Hnx Hm IH]; [lia|]. intros [Hle Hst]. apply IH.
  unfold ooo_next in Hnx. destruct (csr_header b h) as [hb| |]; cbn [obind] in Hnx; try done. destruct (decide (c < HS + 8)); [done|].
  assert (Hser : forall ch, csr_ser b h ch start = Throw \/ exists ch', HS <= ch' /\ csr_ser b h ch start = Ok (take ch' (drop start img))).
  { intros ch. destruct (decide (ch <> 0 /\ ch < HS)) as [[Hx Hy]|Hx].
    - left. unfold csr_ser. rewrite El. cbn [obind]. rewrite (decide_True (P := ch <> 0)) by done. apply decide_True. lia.
    - right. destruct (decide (ch = 0)) as [->|Hz].
      + exists len. assert (HS <= len) by (unfold slen in Hil; lia). split; [done|]. unfold img. rewrite <- (csr_ser_spec b h base rs) by done.
        unfold csr_ser. rewrite El. cbn [obind]. rewrite (decide_False (P := 0 <> 0)) by auto. rewrite (decide_True (P := len <> 0)) by (unfold HS in *; lia). done.
      + exists ch. split; [lia|]. apply (csr_ser_spec b h base); [done|lia|done]. }
  destruct (Hser (c - (HS + 8))) as [E|(ch & Hch & E)]; rewrite E in Hnx; cbn [obind] in Hnx; [done|]. destruct (decide _); [done|]. injection Hnx as _ <-.
  rewrite take_length, drop_length. unfold slen in Hil. lia.
Qed.
End C23.

(** The hypotheses of C23 and C24 are met: rows {(0, 7), (2, -1)} and {(1, 5)} of a 2 x 3 matrix, exact and with unused space, and a view of row 1. *)
Definition ex_rows : list (row Z) := [[(0, 7%Z); (2, (-1)%Z)]; [(1, 5%Z)]].
Definition ex_buf (slack : nat) : csrbuf Z := mkBuf ((concat ex_rows).*2 ++ replicate slack 0%Z) ((concat ex_rows).*1 ++ replicate slack 0) (offsets 0 ex_rows).
Definition ex_h (slack : nat) : csrh := mkH 0 2 3 2 false (3 + slack) 0.
Lemma ex_covers slack : covers (ex_buf slack) (ex_h slack) ex_rows.
Proof.
  split; cbn; [|repeat constructor; simpl; try lia; repeat constructor; simpl; lia|lia|lia|by rewrite replicate_length].
  split; [done|]. exists (replicate slack 0), (replicate slack 0%Z). by rewrite !replicate_length.
Qed.
Example C24_example slack : shows (ex_buf slack) (ex_h slack) ex_rows /\ shows (ex_buf slack) (mkH 1 1 3 1 true (3 + slack) 0) [[(1, 5%Z)]].
Proof.
  split; [apply shows_all; [apply ex_covers|done|done]|]. exists ex_rows. split; [|done]. destruct (ex_covers slack) as [H1 H2 H3 H4 H5]. split; cbn in *; (done || lia).
Qed.
Example C23_example : (let R := rep_int 8 2 in csr_isView (ex_h 0) = false /\ h_max (ex_h 0) = stored ex_rows /\ stored ex_rows < h_max (ex_h 1) /\
  fits64 (slen (V := Z) 2 (stored ex_rows)) /\ Forall (fun z => - 256 ^ Z.of_nat 8 <= 2 * z < 256 ^ Z.of_nat 8)%Z (concat ex_rows).*2).
Proof. cbn zeta. split; [done|]. split; [done|]. split; [cbn; lia|]. split; [done|]. change ((concat ex_rows).*2) with [7; -1; 5]%Z. repeat (apply Forall_cons_2; [lia|]). by apply Forall_nil_2. Qed.

Print Assumptions C22_chunks.
Print Assumptions C22_whole.
Print Assumptions C22_type_checked.
Print Assumptions C22_small_chunk_throws.
Print Assumptions C22_strided_view_refuted.
Print Assumptions C22_large_dims_refuted.
Print Assumptions C23_dense.
Print Assumptions C23_sparse.
Print Assumptions C23_slack_refuted.
Print Assumptions C24_chunks.
Print Assumptions C24_whole.
Print Assumptions C24_alloc_dense.
Print Assumptions C24_alloc_sparse_refuted.
