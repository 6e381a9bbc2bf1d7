(** Proofs about dense matrix multiplication. *)
From stdpp Require Import base numbers sorting list list_numbers.
From Coq Require Import Lia.
From Verif Require Import CppBase Mem CSRModel AggModel MatMulModel MatMulSpec DenseMMModel DenseMMSpec.
Local Open Scope nat_scope.

Section mm.
Context {V : Type} `{Val V} (A : arith V).
Implicit Types (X Y : mat V).

Lemma acc_ok K f g (x y : nat -> nat -> V) i j :
  (forall k, k < K -> f k = Ok (x i k)) -> (forall k, k < K -> g k = Ok (y k j)) -> acc A K f g = Ok (prod A K x y i j).
Proof.
  intros Hf Hg. unfold acc.
  destruct (for_up_inv (fun k s => s = prod A k x y i j) 0 K (fun k s => let* x := f k in let* y := g k in Ok (aadd A s (amul A x y))) vzero) as (s & E & ->).
  - lia.
  - done.
  - intros k s Hk ->. rewrite Hf, Hg by lia. cbn [obind]. eexists. split; [done|]. unfold prod. change (1 + k) with (S k). rewrite seq_S, foldl_app. done.
  - done.
Qed.
Lemma acc_UB K f g k : k < K -> (forall j, j < k -> exists v w, f j = Ok v /\ g j = Ok w) -> (exists v, f k = Ok v) -> g k = UB -> acc A K f g = UB.
Proof.
  intros Hk Hb [v Hv] Hu. unfold acc, for_up. rewrite Nat.sub_0_r. replace K with (k + (1 + (K - k - 1))) by lia. rewrite forn_app.
  destruct (forn_inv (fun _ _ => True) k 0 (fun k s => let* x := f k in let* y := g k in Ok (aadd A s (amul A x y))) vzero) as (s & -> & _).
  - done.
  - intros i s Hi _. destruct (Hb i) as (a & b & -> & ->); [lia|]. cbn [obind]. eauto.
  - cbn [obind forn Nat.add]. rewrite Hv, Hu. done.
Qed.

Lemma holds_at a X i j : holds a X -> i < rows X -> j < cols X -> rd (m_buf a) (m_off a + i * m_skip a + j) = Ok (cell X i j).
Proof. intros Ha Hi Hj. exact (dm_at_Ok _ _ _ _ _ _ Ha Hi Hj). Qed.

(** Reading the operand of a routine with a flag. *)
Lemma turned_at a X t i j : holds a X -> i < rows (turned t X) -> j < cols (turned t X) ->
  rd (m_buf a) (if t then m_off a + j * m_skip a + i else m_off a + i * m_skip a + j) = Ok (cell (turned t X) i j).
Proof. intros Ha Hi Hj. destruct t; cbn [turned flip rows cols cell] in *; by apply holds_at. Qed.

Lemma empty_dense junk n m (g : nat -> nat -> V) : length junk = n * m -> n = 0 \/ m = 0 -> is_dense (mkDM junk 0 n m m) n m g.
Proof. intros Hl Hz. apply tabulated_is_dense. split; [done|]. intros r c Hr Hc. lia. Qed.

Lemma blas_gemm_ok ta tb a b X Y junk :
  holds a X -> holds b Y -> cols (turned ta X) = rows (turned tb Y) -> cols (turned ta X) <> 0 -> length junk = rows (turned ta X) * cols (turned tb Y) ->
  let n := rows (turned ta X) in let m := cols (turned tb Y) in
  exists C, blas_gemm A ta tb n m (cols (turned ta X)) (m_buf a) (m_off a) (m_skip a) (m_buf b) (m_off b) (m_skip b) junk 0 m = Ok C /\
    is_dense (mkDM C 0 n m m) n m (cell (times A (turned ta X) (turned tb Y))).
Proof.
  intros Ha Hb HK H0 Hj n m. unfold blas_gemm. fold n m. case_decide as Hc.
  - exists junk. split; [done|]. apply empty_dense; [done|]. destruct Ha as (_ & _ & Hsa & _), Hb as (_ & _ & Hsb & _). subst n m.
    destruct ta, tb; cbn [turned flip rows cols] in *; lia.
  - destruct (for2_tabulate n m (fun i j C =>
      let* v := acc A (cols (turned ta X)) (fun l => rd (m_buf a) (if ta then m_off a + l * m_skip a + i else m_off a + i * m_skip a + l)) (fun l => rd (m_buf b) (if tb then m_off b + j * m_skip b + l else m_off b + l * m_skip b + j)) in
      wr C (0 + i * m + j) v) (cell (times A (turned ta X) (turned tb Y))) junk) as (C & E & HC).
    + done.
    + intros r c C Hr Hcm Hl. rewrite (acc_ok _ _ _ (cell (turned ta X)) (cell (turned tb Y)) r c).
      * cbn [obind]. f_equal.
      * intros k Hk. by apply (turned_at a X ta r k).
      * intros k Hk. apply (turned_at b Y tb k c); [done|lia|done].
    + exists C. split; [exact E|]. by apply tabulated_is_dense.
Qed.

Lemma blas_gemv_ok ta a X B b inc (y : nat -> V) junk :
  holds a X -> (forall k, k < cols (turned ta X) -> rd B (b + k * inc) = Ok (y k)) -> inc <> 0 -> cols (turned ta X) <> 0 -> length junk = rows (turned ta X) ->
  exists C, blas_gemv A ta (rows X) (cols X) (m_buf a) (m_off a) (m_skip a) B b inc junk 0 1 = Ok C /\
    is_dense (mkDM C 0 (rows (turned ta X)) 1 1) (rows (turned ta X)) 1 (prod A (cols (turned ta X)) (cell (turned ta X)) (fun k _ => y k)).
Proof.
  intros Ha Hy Hi H0 Hj. unfold blas_gemv.
  assert (Hempty : rows (turned ta X) = 0 -> is_dense (mkDM junk 0 (rows (turned ta X)) 1 1) (rows (turned ta X)) 1 (prod A (cols (turned ta X)) (cell (turned ta X)) (fun k _ => y k))).
  { intros Hz. apply empty_dense; lia. }
  pose proof Ha as (_ & _ & Hsa & _).
  case_decide as Hc1; [exists junk; split; [done|]; apply Hempty; destruct ta; cbn [turned flip rows cols] in *; lia|].
  case_decide as Hc2; [exists junk; split; [done|]; apply Hempty; destruct ta; cbn [turned flip rows cols] in *; lia|].
  replace (if ta then cols X else rows X) with (rows (turned ta X)) by (by destruct ta).
  replace (if ta then rows X else cols X) with (cols (turned ta X)) by (by destruct ta).
  destruct (for_up_write (rows (turned ta X)) (fun i C =>
     let* v := acc A (cols (turned ta X)) (fun k => rd (m_buf a) (if ta then m_off a + k * m_skip a + i else m_off a + i * m_skip a + k)) (fun k => rd B (b + k * inc)) in
     wr C (0 + i * 1) v) (fun i => prod A (cols (turned ta X)) (cell (turned ta X)) (fun k _ => y k) i 0) junk) as (C & E & Hl & HC).
  - done.
  - intros i C Hin Hl. rewrite (acc_ok _ _ _ (cell (turned ta X)) (fun k _ => y k) i 0).
    + cbn [obind]. f_equal. lia.
    + intros k Hk. by apply (turned_at a X ta i k).
    + intros k Hk. by apply Hy.
  - exists C. split; [exact E|]. apply tabulated_is_dense. split; [lia|]. intros r c Hr Hc. replace (r * 1 + c) with r by lia. rewrite HC by done. done.
Qed.

(** Reading a column of the right operand with the increments of the code. *)
Lemma column_at b Y tb k : holds b Y -> cols (turned tb Y) = 1 -> k < rows (turned tb Y) ->
  rd (m_buf b) (m_off b + k * (if tb then 1 else m_skip b)) = Ok (cell (turned tb Y) k 0).
Proof.
  intros Hb H1 Hk. pose proof (turned_at b Y tb k 0 Hb Hk) as E. rewrite <- E by lia. f_equal. destruct tb; lia.
Qed.
Lemma row_at a X ta k : holds a X -> rows (turned ta X) = 1 -> k < cols (turned ta X) ->
  rd (m_buf a) (m_off a + k * (if ta then m_skip a else 1)) = Ok (cell (turned ta X) 0 k).
Proof.
  intros Ha H1 Hk. pose proof (turned_at a X ta 0 k Ha) as E. rewrite <- E by lia. f_equal. destruct ta; lia.
Qed.

Lemma dot_case (v : V) junk (g : nat -> nat -> V) : length junk = 1 -> v = g 0 0 -> exists C, wr junk 0 v = Ok C /\ is_dense (mkDM C 0 1 1 1) 1 1 g.
Proof.
  intros Hl ->. rewrite wr_Ok by lia. eexists. split; [done|]. apply tabulated_is_dense. split; [by rewrite insert_length|].
  intros r c Hr Hc. replace (r * 1 + c) with 0 by lia. replace r with 0 by lia. replace c with 0 by lia. apply list_lookup_insert. lia.
Qed.

Lemma e_mul_ok dst x y n m K (gx gy : nat -> nat -> V) :
  e_rows x = n -> e_cols x = K -> e_rows y = K -> e_cols y = m -> e_rows dst = n -> e_cols dst = m -> e_off dst = 0 -> e_outer dst = 1 -> e_inner dst = m ->
  length (e_buf dst) = n * m ->
  (forall i k, i < n -> k < K -> e_at x i k = Ok (gx i k)) -> (forall k j, k < K -> j < m -> e_at y k j = Ok (gy k j)) ->
  exists C, e_mul A dst x y = Ok C /\ is_dense (mkDM C 0 n m m) n m (prod A K gx gy).
Proof.
  intros <- <- E1 <- E2 E3 E4 E5 E6 Hl Hx Hy. unfold e_mul. rewrite decide_True by done. rewrite E4, E5, E6.
  destruct (for2_tabulate (e_rows x) (e_cols y) (fun i j C =>
      let* v := acc A (e_cols x) (fun l => e_at x i l) (fun l => e_at y l j) in
      wr C (0 + j * 1 + i * e_cols y) v) (prod A (e_cols x) gx gy) (e_buf dst)) as (C & E & HC).
  - done.
  - intros r c C Hr Hc HlC. rewrite (acc_ok _ _ _ gx gy r c) by auto. cbn [obind]. f_equal. lia.
  - exists C. split; [exact E|]. by apply tabulated_is_dense.
Qed.
Lemma e_at_map a X i j : holds a X -> i < rows X -> j < cols X -> forall r c, e_at (e_map (m_buf a) (m_off a) r c (m_skip a)) i j = Ok (cell X i j).
Proof. intros Ha Hi Hj r c. unfold e_at, e_map. cbn. rewrite <- (holds_at a X i j) by done. f_equal. lia. Qed.
Lemma e_at_trans a X i j : holds a X -> i < rows X -> j < cols X -> forall r c, e_at (e_trans (e_map (m_buf a) (m_off a) r c (m_skip a))) j i = Ok (cell X i j).
Proof. intros Ha Hi Hj r c. unfold e_at, e_trans, e_map. cbn. rewrite <- (holds_at a X i j) by done. f_equal. lia. Qed.

(** Where the integer kernel is right. *)
Definition int_fine (ta tb : bool) (n m K : nat) : Prop := ta = false \/ m = 1 \/ (n = m /\ (tb = true \/ K = m)).

Lemma eigen_gemm_ok ta tb a b X Y junk :
  holds a X -> holds b Y -> cols (turned ta X) = rows (turned tb Y) -> length junk = rows (turned ta X) * cols (turned tb Y) ->
  (ta = false \/ (rows (turned ta X) = cols (turned tb Y) /\ (tb = true \/ cols (turned ta X) = cols (turned tb Y)))) ->
  let n := rows (turned ta X) in let m := cols (turned tb Y) in
  exists C, eigen_gemm A ta tb n m (cols (turned ta X)) (m_buf a) (m_off a) (m_skip a) (m_buf b) (m_off b) (m_skip b) junk 0 m = Ok C /\
    is_dense (mkDM C 0 n m m) n m (cell (times A (turned ta X) (turned tb Y))).
Proof.
  intros Ha Hb HK Hj Hf n m. subst n m. unfold eigen_gemm. destruct ta, tb; cbn [andb turned flip rows cols cell times] in *.
  - destruct Hf as [Hf|[Hf _]]; [done|].
    apply e_mul_ok; cbn; try done; try lia; intros i k Hi Hk; by apply (e_at_trans _ _ _ _ Ha) || (apply (e_at_trans _ _ _ _ Hb); lia).
  - destruct Hf as [Hf|[Hf [Hf'|Hf']]]; [done|done|].
    apply e_mul_ok; cbn; try done; try lia; intros i k Hi Hk; by apply (e_at_trans _ _ _ _ Ha) || (apply (e_at_map _ _ _ _ Hb); lia).
  - apply e_mul_ok; cbn; try done; try lia; intros i k Hi Hk; by apply (e_at_map _ _ _ _ Ha) || (apply (e_at_trans _ _ _ _ Hb); lia).
  - apply e_mul_ok; cbn; try done; try lia; intros i k Hi Hk; by apply (e_at_map _ _ _ _ Ha) || (apply (e_at_map _ _ _ _ Hb); lia).
Qed.
Lemma eigen_gemm_UB ta tb n m K Ab a lda B b ldb C c ldc :
  ~ (ta = false \/ (n = m /\ (tb = true \/ K = m))) -> eigen_gemm A ta tb n m K Ab a lda B b ldb C c ldc = UB.
Proof.
  intros Hf. unfold eigen_gemm. destruct ta; [|tauto]. destruct tb; cbn [andb]; unfold e_mul; cbn; rewrite decide_False; try done; intros (E1 & E2 & E3); apply Hf; right; auto.
Qed.
Lemma eigen_gemv_ok ta a X B b inc (y : nat -> V) junk :
  holds a X -> (forall k, k < cols (turned ta X) -> rd B (b + k * inc) = Ok (y k)) -> length junk = rows (turned ta X) ->
  exists C, eigen_gemv A ta (rows X) (cols X) (m_buf a) (m_off a) (m_skip a) B b inc junk 0 1 = Ok C /\
    is_dense (mkDM C 0 (rows (turned ta X)) 1 1) (rows (turned ta X)) 1 (prod A (cols (turned ta X)) (cell (turned ta X)) (fun k _ => y k)).
Proof.
  intros Ha Hy Hj. unfold eigen_gemv. destruct ta; cbn [turned flip rows cols cell] in *.
  - apply e_mul_ok; cbn; try done; try lia.
    + intros i k Hi Hk. by apply (e_at_trans _ _ _ _ Ha).
    + intros k j Hk Hj1. unfold e_at. cbn. replace j with 0 by lia. rewrite <- Hy by done. f_equal. lia.
  - apply e_mul_ok; cbn; try done; try lia.
    + intros i k Hi Hk. by apply (e_at_map _ _ _ _ Ha).
    + intros k j Hk Hj1. unfold e_at. cbn. replace j with 0 by lia. rewrite <- Hy by done. f_equal. lia.
Qed.

Lemma launch_dot_ok t ta tb a b X Y : holds a X -> holds b Y -> cols (turned ta X) = rows (turned tb Y) -> rows (turned ta X) = 1 -> cols (turned tb Y) = 1 ->
  launch_dot A t (cols (turned ta X)) (m_buf a) (m_off a) (if ta then m_skip a else 1) (m_buf b) (m_off b) (if tb then 1 else m_skip b)
  = Ok (cell (times A (turned ta X) (turned tb Y)) 0 0).
Proof.
  intros Ha Hb HK H1 H2. destruct t; cbn [launch_dot]; unfold blas_dot, eigen_dot; cbn [times cell];
    apply acc_ok; intros k Hk.
  - by apply row_at.
  - apply column_at; [done|done|lia].
  - rewrite <- (row_at a X ta k) by done. unfold e_at, e_map. cbn. f_equal. lia.
  - rewrite <- (column_at b Y tb k) by (done || lia). unfold e_at, e_map. cbn. f_equal. lia.
Qed.

Lemma dense_ext (a : dmat V) n m (x y : nat -> nat -> V) : is_dense a n m x -> (forall i j, i < n -> j < m -> x i j = y i j) -> is_dense a n m y.
Proof. intros (H1 & H2 & H3 & H4 & H5) E. repeat (split; [done|]). intros r c Hr Hc. rewrite <- E by done. auto. Qed.
Lemma prod_ext' K (x x' y y' : nat -> nat -> V) i j i' j' : (forall k, k < K -> amul A (x i k) (y k j) = amul A (x' i' k) (y' k j')) -> prod A K x y i j = prod A K x' y' i' j'.
Proof.
  intros Hx. unfold prod. assert (Hg : forall (q : list nat) s, Forall (fun k => k < K) q -> foldl (fun s k => aadd A s (amul A (x i k) (y k j))) s q = foldl (fun s k => aadd A s (amul A (x' i' k) (y' k j'))) s q).
  { induction q as [|k q IH]; intros s Hq; [done|]. apply Forall_cons in Hq as [Hk Hq]. cbn [foldl]. rewrite Hx by done. by apply IH. }
  apply Hg. apply Forall_seq. lia.
Qed.

Theorem mm_dense_ok t ta tb junk a b X Y :
  holds a X -> holds b Y -> cols (turned ta X) = rows (turned tb Y) ->
  length junk = rows (turned ta X) * cols (turned tb Y) ->
  match t with VFloat => cols (turned ta X) <> 0 | VInt => int_fine ta tb (rows (turned ta X)) (cols (turned tb Y)) (cols (turned ta X)) end ->
  exists res, mm_dense A t ta tb junk a b = Ok res /\ holds res (times A (turned ta X) (turned tb Y)).
Proof.
  intros Ha Hb HK Hj Hok. unfold mm_dense.
  pose proof Ha as (Er & Ec & Hsa & _). pose proof Hb as (Er' & Ec' & Hsb & _).
  replace (if ta then m_cols a else m_rows a) with (rows (turned ta X)) by (rewrite Er, Ec; by destruct ta).
  replace (if ta then m_rows a else m_cols a) with (cols (turned ta X)) by (rewrite Er, Ec; by destruct ta).
  replace (if tb then m_cols b else m_rows b) with (rows (turned tb Y)) by (rewrite Er', Ec'; by destruct tb).
  replace (if tb then m_rows b else m_cols b) with (cols (turned tb Y)) by (rewrite Er', Ec'; by destruct tb).
  rewrite Er, Ec. rewrite decide_False by tauto. unfold holds. cbn [times rows cols].
  case_decide as C1; [|case_decide as C2].
  - destruct C1 as [C1 C2]. rewrite (launch_dot_ok t ta tb a b X Y) by done. cbn [obind].
    destruct (dot_case (cell (times A (turned ta X) (turned tb Y)) 0 0) junk (cell (times A (turned ta X) (turned tb Y)))) as (C & -> & HC).
    + rewrite Hj, C1, C2. done.
    + done.
    + cbn [obind]. eexists. split; [done|]. rewrite C1, C2. exact HC.
  - rewrite C2. rewrite C2 in Hj.
    assert (exists C, launch_gemv A t ta (rows X) (cols X) (m_buf a) (m_off a) (m_skip a) (m_buf b) (m_off b) (if tb then 1 else m_skip b) junk 0 1 = Ok C /\
       is_dense (mkDM C 0 (rows (turned ta X)) 1 1) (rows (turned ta X)) 1 (prod A (cols (turned ta X)) (cell (turned ta X)) (fun k _ => cell (turned tb Y) k 0))) as (C & E & HC).
    { destruct t; cbn [launch_gemv].
      - apply blas_gemv_ok; [done| | |done|lia].
        + intros k Hk. apply column_at; [done|done|lia].
        + destruct tb; cbn [turned flip rows cols] in *; lia.
      - apply eigen_gemv_ok; [done| |lia]. intros k Hk. apply column_at; [done|done|lia]. }
    rewrite E. cbn [obind]. eexists. split; [done|]. eapply dense_ext; [exact HC|].
    intros i j Hi Hj1. cbn [times cell]. apply prod_ext'. intros k Hk. replace j with 0 by lia. done.
  - assert (exists C, launch_gemm A t ta tb (rows (turned ta X)) (cols (turned tb Y)) (cols (turned ta X)) (m_buf a) (m_off a) (m_skip a) (m_buf b) (m_off b) (m_skip b) junk 0 (cols (turned tb Y)) = Ok C /\
       is_dense (mkDM C 0 (rows (turned ta X)) (cols (turned tb Y)) (cols (turned tb Y))) (rows (turned ta X)) (cols (turned tb Y)) (cell (times A (turned ta X) (turned tb Y)))) as (C & E & HC).
    { destruct t; cbn [launch_gemm].
      - by apply blas_gemm_ok.
      - apply eigen_gemm_ok; [done|done|done|done|]. unfold int_fine in Hok. tauto. }
    rewrite E. cbn [obind]. eexists. split; [done|]. exact HC.
Qed.

(** * syrk *)
Lemma blas_syrk_ok tl a X junk :
  let L := turned tl X in
  holds a X -> cols L <> 0 -> length junk = rows L * rows L ->
  exists C, blas_syrk A tl (rows L) (cols L) (m_buf a) (m_off a) (m_skip a) junk 0 (rows L) = Ok C /\ length C = rows L * rows L /\
    forall i j, i < rows L -> j < rows L -> i <= j -> C !! (i * rows L + j) = Some (prod A (cols L) (cell L) (fun k c => cell L c k) i j).
Proof.
  intros L Ha H0 Hj. unfold blas_syrk. pose proof Ha as (_ & _ & Hsa & _).
  case_decide as Hc.
  - exists junk. split; [done|]. split; [done|]. intros i j Hi. subst L. destruct tl; cbn [turned flip rows cols] in *; lia.
  - clear Hc. set (n := rows L) in *. set (g := prod A (cols L) (cell L) (fun k c => cell L c k)).
    destruct (for_up_inv (fun i C => length C = n * n /\ forall r c, r < n -> c < n -> r <= c -> r < i -> C !! (r * n + c) = Some (g r c)) 0 n
      (fun i C => for_up i n (fun j C =>
        let* v := acc A (cols L) (fun l => rd (m_buf a) (if tl then m_off a + l * m_skip a + i else m_off a + i * m_skip a + l)) (fun l => rd (m_buf a) (if tl then m_off a + l * m_skip a + j else m_off a + j * m_skip a + l)) in
        wr C (0 + i * n + j) v) C) junk) as (C & E & Hl & HC).
    + lia.
    + split; [done|]. lia.
    + intros i C Hi (Hl & HC).
      destruct (for_up_inv (fun j C => length C = n * n /\ forall r c, r < n -> c < n -> r <= c -> (r < i \/ (r = i /\ c < j)) -> C !! (r * n + c) = Some (g r c)) i n
        (fun j C =>
          let* v := acc A (cols L) (fun l => rd (m_buf a) (if tl then m_off a + l * m_skip a + i else m_off a + i * m_skip a + l)) (fun l => rd (m_buf a) (if tl then m_off a + l * m_skip a + j else m_off a + j * m_skip a + l)) in
          wr C (0 + i * n + j) v) C) as (C' & E & Hl' & HC').
      * lia.
      * split; [done|]. intros r c Hr Hcn Hrc Hd. apply HC; lia.
      * intros j C1 Hj1 (Hl1 & HC1). rewrite (acc_ok _ _ _ (cell L) (fun k c => cell L c k) i j).
        -- cbn [obind]. fold g. rewrite Nat.add_0_l, wr_Ok by (rewrite Hl1; apply pos_lt; lia). eexists. split; [done|]. split; [by rewrite insert_length|].
           intros r c Hr Hcn Hrc Hd. destruct (decide (r = i /\ c = j)) as [[-> ->]|Hne].
           ++ apply list_lookup_insert. rewrite Hl1. apply pos_lt; lia.
           ++ rewrite list_lookup_insert_ne; [apply HC1; lia|]. intros Ep. apply pos_inj in Ep; [|lia|done]. lia.
        -- intros k Hk. apply (turned_at a X tl i k); [done|change (i < n); lia|done].
        -- intros k Hk. apply (turned_at a X tl j k); [done|change (j < n); lia|done].
      * exists C'. split; [exact E|]. split; [done|]. intros r c Hr Hcn Hrc Hd. apply HC'; [done|done|done|]. lia.
    + exists C. split; [exact E|]. split; [done|]. intros i j Hi Hjn Hij. apply HC; lia.
Qed.

Lemma mirror_ok n (C : list V) (g : nat -> nat -> V) :
  length C = n * n -> (forall i j, i < n -> j < n -> i <= j -> C !! (i * n + j) = Some (g i j)) ->
  exists C', for_up 0 n (fun r C => for_up (r + 1) n (fun c C => let* v := rd C (r * n + c) in wr C (c * n + r) v) C) C = Ok C' /\
    tabulated n n (fun i j => if decide (i <= j) then g i j else g j i) C'.
Proof.
  intros Hl HC.
  set (P := fun (r0 c0 : nat) (D : list V) => length D = n * n /\ (forall i j, i < n -> j < n -> i <= j -> D !! (i * n + j) = Some (g i j)) /\
     (forall i j, i < n -> j < n -> j < i -> (j < r0 \/ (j = r0 /\ i < c0)) -> D !! (i * n + j) = Some (g j i))).
  destruct (for_up_inv (fun r D => P r 0 D) 0 n
    (fun r C => for_up (r + 1) n (fun c C => let* v := rd C (r * n + c) in wr C (c * n + r) v) C) C) as (D & E & HlD & HD1 & HD2).
  - lia.
  - split; [done|]. split; [done|]. lia.
  - intros r D Hr (HlD & H1 & H2).
    destruct (for_up_inv (fun c D => P r c D) (r + 1) n (fun c C => let* v := rd C (r * n + c) in wr C (c * n + r) v) D) as (D' & E' & HlD' & H1' & H2').
    + lia.
    + split; [done|]. split; [done|]. intros i j Hi Hj Hji Hd. apply H2; lia.
    + intros c D1 Hc (Hl1 & H11 & H12). rewrite (rd_Ok D1 (r * n + c) (g r c)) by (apply H11; lia). cbn [obind].
      rewrite wr_Ok by (rewrite Hl1; apply pos_lt; lia). eexists. split; [done|]. split; [by rewrite insert_length|]. split.
      * intros i j Hi Hj Hij. rewrite list_lookup_insert_ne; [by apply H11|]. intros Ep. apply pos_inj in Ep; [|lia|done]. lia.
      * intros i j Hi Hj Hji Hd. destruct (decide (i = c /\ j = r)) as [[-> ->]|Hne].
        -- rewrite list_lookup_insert by (rewrite Hl1; apply pos_lt; lia). done.
        -- rewrite list_lookup_insert_ne; [apply H12; lia|]. intros Ep. apply pos_inj in Ep; [|lia|done]. lia.
    + exists D'. split; [exact E'|]. split; [done|]. split; [done|]. intros i j Hi Hj Hji Hd. apply H2'; lia.
  - exists D. split; [exact E|]. split; [done|]. intros i j Hi Hj. case_decide; [apply HD1; lia|apply HD2; lia].
Qed.

Theorem syrk_dense_ok tl junk a X :
  commutes A -> holds a X -> cols (turned tl X) <> 0 -> length junk = rows (turned tl X) * rows (turned tl X) ->
  exists res, syrk_dense A tl junk a = Ok res /\ holds res (times A (turned tl X) (flip (turned tl X))).
Proof.
  intros Hcm Ha H0 Hj. unfold syrk_dense. pose proof Ha as (Er & Ec & _). rewrite Er, Ec.
  replace (if tl then cols X else rows X) with (rows (turned tl X)) by (by destruct tl).
  replace (if tl then rows X else cols X) with (cols (turned tl X)) by (by destruct tl).
  destruct (blas_syrk_ok tl a X junk Ha H0 Hj) as (C & E & Hl & HC). cbv zeta in E. rewrite E. cbn [obind].
  destruct (mirror_ok _ C _ Hl HC) as (C' & -> & HC'). cbn [obind]. eexists. split; [done|]. unfold holds. cbn [times flip rows cols].
  eapply dense_ext; [by apply tabulated_is_dense|]. intros i j Hi Hjn. cbn beta. cbn [times cell flip]. case_decide; [done|].
  apply prod_ext'. intros k Hk. apply Hcm.
Qed.

(** * gemv *)
Theorem gemv_dense_ok junk a b X Y :
  holds a X -> holds b Y -> rows X = rows Y -> cols Y = 1 -> rows X <> 0 -> length junk = cols X ->
  exists res, gemv_dense A junk a b = Ok res /\ holds res (times A (flip X) Y).
Proof.
  intros Ha Hb HK H1 H0 Hj. unfold gemv_dense. pose proof Ha as (Er & Ec & _). rewrite Er, Ec. pose proof Hb as (_ & _ & Hsb & _).
  destruct (blas_gemv_ok true a X (m_buf b) (m_off b) (m_skip b) (fun k => cell Y k 0) junk Ha) as (C & E & HC).
  - intros k Hk. cbn [turned flip cols] in Hk. exact (column_at b Y false k Hb H1 ltac:(cbn; lia)).
  - lia.
  - done.
  - done.
  - rewrite E. cbn [obind]. eexists. split; [done|]. unfold holds. cbn [times flip rows cols]. rewrite H1. eapply dense_ext; [exact HC|].
    intros i j Hi Hj1. cbn [times cell turned flip cols rows]. apply prod_ext'. intros k Hk. replace j with 0 by lia. done.
Qed.
(** A row vector is read with the wrong distance: fine if it has a single element ... *)
Theorem gemv_dense_row1 junk a b X Y :
  holds a X -> holds b Y -> rows X = 1 -> rows Y = 1 -> cols Y = 1 -> length junk = cols X ->
  exists res, gemv_dense A junk a b = Ok res /\ holds res (times A (flip X) (flip Y)).
Proof.
  intros Ha Hb HX H1 H2 Hj. destruct (gemv_dense_ok junk a b X Y Ha Hb) as (res & E & Hr); try lia.
  exists res. split; [done|]. unfold holds. cbn [times flip rows cols]. rewrite H1. unfold holds in Hr. cbn [times flip rows cols] in Hr. rewrite H2 in Hr.
  eapply dense_ext; [exact Hr|]. intros i j Hi Hj1. cbn [times cell flip cols rows]. apply prod_ext'. intros k Hk. replace j with 0 by lia. replace k with 0 by lia. done.
Qed.
(** ... and out of bounds otherwise. *)
Theorem gemv_dense_row_UB junk a X (b : list V) K :
  holds a X -> rows X = K -> 1 < K -> 0 < cols X -> length b = K -> gemv_dense A junk a (mkDM b 0 1 K K) = UB.
Proof.
  intros Ha HX HK Hc Hb. unfold gemv_dense. pose proof Ha as (Er & Ec & Hs & _). rewrite Er, Ec, HX. cbn [m_buf m_off m_skip]. unfold blas_gemv.
  rewrite decide_False by lia. rewrite decide_False by lia. replace (cols X) with (S (cols X - 1)) by lia. unfold for_up. rewrite Nat.sub_0_r. cbn [forn].
  rewrite (acc_UB K _ _ 1); [done|lia| | |].
  - intros j Hj. replace j with 0 by lia. destruct (rd_lt b (0 + 0 * K)) as (w & _ & Ew); [lia|].
    exists (cell X 0 0), w. split; [|done]. rewrite <- (holds_at a X 0 0) by (done || lia). f_equal.
  - exists (cell X 1 0). rewrite <- (holds_at a X 1 0) by (done || lia). f_equal.
  - unfold rd. rewrite lookup_ge_None_2 by lia. done.
Qed.
End mm.
