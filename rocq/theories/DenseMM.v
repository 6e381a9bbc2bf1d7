(** C60: the product of dense matrices, whichever kernel the compiler chooses for it. *)
From stdpp Require Import base numbers sorting list list_numbers relations.
From Coq Require Import Lia.
From Verif Require Import CppBase Mem CSRModel CSRSpec AggModel MachInt SparseSpec MatMulModel MatMulSpec MatMul DenseMMModel DenseMMSpec DenseMMProofs.
Local Open Scope nat_scope.

Section mm.
Context {V : Type} `{Val V} (A : arith V).
Implicit Types (X Y : mat V).

(** The kernel for floating point numbers, for all shapes with a non-empty inner dimension, all strides and both flags. *)
Theorem C60_matmul_float ta tb junk a b X Y :
  holds a X -> holds b Y -> cols (turned ta X) = rows (turned tb Y) -> cols (turned ta X) <> 0 ->
  length junk = rows (turned ta X) * cols (turned tb Y) ->
  exists res, mm_dense A VFloat ta tb junk a b = Ok res /\ holds res (times A (turned ta X) (turned tb Y)).
Proof. intros. by apply mm_dense_ok. Qed.

(** The kernel for integers: always right if the left operand is not transposed ... *)
Theorem C60_matmul_int tb junk a b X Y :
  holds a X -> holds b Y -> cols X = rows (turned tb Y) -> length junk = rows X * cols (turned tb Y) ->
  exists res, mm_dense A VInt false tb junk a b = Ok res /\ holds res (times A X (turned tb Y)).
Proof. intros Ha Hb HK Hj. apply (mm_dense_ok A VInt false tb junk a b X Y Ha Hb HK Hj). by left. Qed.
(** ... and otherwise right for vectors and certain square shapes, and undefined in all other cases. *)
Theorem C60_matmul_int_transposed tb junk a b X Y :
  holds a X -> holds b Y -> rows X = rows (turned tb Y) -> length junk = cols X * cols (turned tb Y) ->
  let n := cols X in let m := cols (turned tb Y) in let K := rows X in
  (m = 1 \/ (n = m /\ (tb = true \/ K = m)) -> exists res, mm_dense A VInt true tb junk a b = Ok res /\ holds res (times A (flip X) (turned tb Y))) /\
  (~ (m = 1 \/ (n = m /\ (tb = true \/ K = m))) -> mm_dense A VInt true tb junk a b = UB).
Proof.
  intros Ha Hb HK Hj n m K. split.
  - intros Hf. apply (mm_dense_ok A VInt true tb junk a b X Y Ha Hb HK Hj). cbn [turned flip rows cols]. by right.
  - intros Hf. pose proof Ha as (Er & Ec & _). pose proof Hb as (Er' & Ec' & _). unfold mm_dense.
    replace (if tb then m_cols b else m_rows b) with (rows (turned tb Y)) by (rewrite Er', Ec'; by destruct tb).
    replace (if tb then m_rows b else m_cols b) with (cols (turned tb Y)) by (rewrite Er', Ec'; by destruct tb).
    rewrite Er, Ec. rewrite decide_False by tauto. fold n m K. rewrite (decide_False (P := n = 1 /\ m = 1)) by tauto. rewrite decide_False by tauto. cbn [launch_gemm].
    rewrite eigen_gemm_UB; [done|]. intros [?|?]; [done|tauto].
Qed.

(** Operands that do not fit are rejected. *)
Theorem C60_rejects t ta tb junk a b X Y :
  holds a X -> holds b Y -> cols (turned ta X) <> rows (turned tb Y) -> mm_dense A t ta tb junk a b = Throw.
Proof.
  intros Ha Hb HK. pose proof Ha as (Er & Ec & _). pose proof Hb as (Er' & Ec' & _). unfold mm_dense.
  rewrite Er, Ec, Er', Ec'. rewrite decide_True; [done|]. intros E. apply HK. by destruct ta, tb.
Qed.

(** Syrk computes X t(X) and t(X) X. *)
Theorem C60_syrk tl junk a X :
  commutes A -> holds a X -> cols (turned tl X) <> 0 -> length junk = rows (turned tl X) * rows (turned tl X) ->
  exists res, syrk_dense A tl junk a = Ok res /\ holds res (times A (turned tl X) (flip (turned tl X))).
Proof. apply syrk_dense_ok. Qed.
(** Gemv computes t(X) v for a column v of the right length ... *)
Theorem C60_gemv junk a b X Y :
  holds a X -> holds b Y -> rows X = rows Y -> cols Y = 1 -> rows X <> 0 -> length junk = cols X ->
  exists res, gemv_dense A junk a b = Ok res /\ holds res (times A (flip X) Y).
Proof. apply gemv_dense_ok. Qed.
(** ... but is given a row w for t(X) t(w), too, and then reads outside of it, unless it has a single element. *)
Theorem C60_gemv_row junk a X (b : list V) K :
  holds a X -> rows X = K -> 1 < K -> 0 < cols X -> length b = K -> gemv_dense A junk a (mkDM b 0 1 K K) = UB.
Proof. apply gemv_dense_row_UB. Qed.
(** For a sparse matrix it computes X v. *)
Theorem C60_gemv_sparse junk b h vec n K x y :
  zero_laws A -> sparse_cells b h n K x -> is_dense vec K 1 y -> length junk = n ->
  exists res, gemv_csr A junk b h vec = Ok res /\ is_dense res n 1 (prod A K x y).
Proof. intros Hz Hs Hd Hj. apply (C30_sparse_dense A junk b h vec n K 1 x y Hz Hs Hd). lia. Qed.

(** * The choice of the compiler. *)
Lemma same_sym X Y : same_mat X Y -> same_mat Y X.
Proof. intros (H1 & H2 & H3). split; [done|]. split; [done|]. intros i j Hi Hj. symmetry. apply H3; congruence. Qed.
Lemma same_trans X Y (Z0 : mat V) : same_mat X Y -> same_mat Y Z0 -> same_mat X Z0.
Proof. intros (H1 & H2 & H3) (G1 & G2 & G3). split; [congruence|]. split; [congruence|]. intros i j Hi Hj. rewrite H3 by done. apply G3; congruence. Qed.
Lemma same_refl X : same_mat X X.
Proof. done. Qed.
Lemma same_flip X Y : same_mat X Y -> same_mat (flip X) (flip Y).
Proof. intros (H1 & H2 & H3). split; [done|]. split; [done|]. intros i j Hi Hj. cbn in *. by apply H3. Qed.
Lemma same_times X X' Y Y' : same_mat X X' -> same_mat Y Y' -> cols X = rows Y -> same_mat (times A X Y) (times A X' Y').
Proof.
  intros (H1 & H2 & H3) (G1 & G2 & G3) HK. split; [done|]. split; [done|]. intros i j Hi Hj. cbn [times rows cols cell] in *. rewrite <- H2. apply prod_ext'.
  intros k Hk. rewrite H3 by done. rewrite G3 by (lia || done). done.
Qed.
Lemma holds_same a X Y : holds a X -> same_mat X Y -> holds a Y.
Proof. intros Ha (H1 & H2 & H3). unfold holds in *. rewrite <- H1, <- H2. by eapply dense_ext. Qed.
Lemma same_turned b v w (val : nat -> mat V) : same_mat (val v) (flip (val w)) -> same_mat (turned b (val v)) (turned (negb b) (val w)).
Proof. intros Hs. destruct b; cbn [turned negb]; [apply same_flip in Hs; exact Hs|done]. Qed.

Lemma canon_steps tr low tyr tyc arr (val : nat -> mat V) o o' : program tr tyr tyc arr val -> rtc (fun o o' => canon1 tr low o = Some o') o o' ->
  o_lhs o' = o_lhs o /\ o_ta o' = o_ta o /\ same_mat (turned (o_tb o) (val (o_rhs o))) (turned (o_tb o') (val (o_rhs o'))).
Proof.
  intros (_ & Ht & _) Hs. induction Hs as [o|o o1 o2 H1 _ (IH1 & IH2 & IH3)]; [split; [done|split; [done|apply same_refl]]|].
  unfold canon1 in H1. destruct (tr (o_rhs o)) as [y|] eqn:Ey; [|done]. destruct (low (o_rhs o)); [done|]. injection H1 as <-.
  split; [done|]. split; [done|]. eapply same_trans; [|exact IH3]. cbn [o_tb o_rhs]. by apply same_turned, Ht.
Qed.

(** Floating point numbers: after any number of canonicalizations of the operation X @ Y (the parser sets no flag for X), the kernel that is chosen computes
    the product of X and Y, unless it is gemv for a row vector with more than one element. *)
Theorem C60_compiled tr low tyr tyc arr (val : nat -> mat V) o o' junk :
  commutes A -> program tr tyr tyc arr val -> rtc (fun o o' => canon1 tr low o = Some o') o o' -> o_ta o = false ->
  let X := val (o_lhs o) in let Y := turned (o_tb o) (val (o_rhs o)) in
  cols X = rows Y -> cols X <> 0 -> length junk = rows X * cols Y ->
  (forall m v, select tr tyr tyc o' = PGemv m v -> o_tb o' = false \/ cols X = 1) ->
  exists res, run_plan A VFloat junk arr (select tr tyr tyc o') = Ok res /\ holds res (times A X Y).
Proof.
  intros Hcm Hp Hs Hta X Y HK H0 Hj Hg. destruct (canon_steps _ _ _ _ _ _ _ _ Hp Hs) as (El & Eta & Hsame). destruct Hp as (Ha & Ht & Hty).
  set (Y' := turned (o_tb o') (val (o_rhs o'))) in *.
  assert (Hgoal : forall p, (exists res, run_plan A VFloat junk arr p = Ok res /\ holds res (times A X Y')) -> exists res, run_plan A VFloat junk arr p = Ok res /\ holds res (times A X Y)).
  { intros p (res & E & Hr). exists res. split; [done|]. eapply holds_same; [exact Hr|]. apply same_times; [apply same_refl|by apply same_sym|].
    destruct Hsame as (Hr1 & _). rewrite HK. exact Hr1. }
  apply Hgoal. clear Hgoal. assert (HK' : cols X = rows Y') by (destruct Hsame as (Hr1 & _); rewrite HK; exact Hr1).
  assert (Hj' : length junk = rows X * cols Y') by (destruct Hsame as (_ & Hr2 & _); fold Y in Hr2; rewrite <- Hr2; done).
  clear Hsame HK Hj Y. subst X. rewrite <- El in *. rewrite <- Eta in Hta. clear El Eta Hs o.
  assert (Hmm : exists res, run_plan A VFloat junk arr (PMatMul (o_lhs o') (o_rhs o') (o_ta o') (o_tb o')) = Ok res /\ holds res (times A (val (o_lhs o')) Y')).
  { cbn [run_plan]. rewrite Hta. by apply (mm_dense_ok A VFloat false (o_tb o') junk _ _ (val (o_lhs o')) (val (o_rhs o'))). }
  unfold select in *. case_decide as C1; [|case_decide as C2].
  - destruct C1 as (C1 & C2). specialize (Ht _ _ C1). cbn [run_plan]. unfold Y' in *. rewrite C2 in *. cbn [turned] in *. pose proof Ht as (E1 & E2 & _). cbn [flip rows cols] in E1, E2.
    destruct (syrk_dense_ok A true junk (arr (o_rhs o')) (val (o_rhs o')) Hcm (Ha _)) as (res & E & Hr).
    + cbn [turned flip cols]. lia.
    + cbn [turned flip rows]. rewrite Hj', E1. done.
    + exists res. split; [done|]. eapply holds_same; [exact Hr|]. apply same_times; [by apply same_sym|by split; [|split]|done].
  - cbn [run_plan]. assert (Hf : same_mat (flip (val (o_lhs o'))) Y').
    { unfold Y'. destruct C2 as [[Eb C2]|[Eb C2]]; rewrite Eb; cbn [turned]; [by apply same_sym, Ht|by rewrite C2]. }
    destruct (syrk_dense_ok A false junk (arr (o_lhs o')) (val (o_lhs o')) Hcm (Ha _)) as (res & E & Hr).
    + done.
    + destruct Hf as (_ & E2 & _). cbn [turned flip cols] in *. rewrite Hj', <- E2. done.
    + exists res. split; [done|]. eapply holds_same; [exact Hr|]. cbn [turned]. apply same_times; [apply same_refl|done|done].
  - destruct (tr (o_lhs o')) as [m|] eqn:Em; [|exact Hmm]. case_decide as C3; [|exact Hmm]. clear Hmm. specialize (Ht _ _ Em). specialize (Hg _ _ eq_refl).
    cbn [run_plan]. pose proof Ht as (E1 & E2 & _). cbn [flip rows cols] in E1, E2. specialize (Hty (o_rhs o')).
    assert (Hone : cols Y' = 1) by (unfold Y'; destruct C3 as [[-> C3]|[-> C3]]; cbn [turned flip cols]; lia).
    destruct Hg as [Eb|Eb].
    + unfold Y' in *. rewrite Eb in *. cbn [turned] in *.
      destruct (gemv_dense_ok A junk (arr m) (arr (o_rhs o')) (val m) (val (o_rhs o')) (Ha _) (Ha _)) as (res & E & Hr); try lia; try (rewrite Hj'; nia).
      exists res. split; [done|]. eapply holds_same; [exact Hr|]. apply same_times; [by apply same_sym|apply same_refl|cbn [flip cols]; lia].
    + destruct (o_tb o') eqn:Etb.
      * unfold Y' in *. cbn [turned flip rows cols] in *.
        destruct (gemv_dense_row1 A junk (arr m) (arr (o_rhs o')) (val m) (val (o_rhs o')) (Ha _) (Ha _)) as (res & E & Hr); try lia; try (rewrite Hj'; nia).
        exists res. split; [done|]. eapply holds_same; [exact Hr|]. apply same_times; [by apply same_sym|apply same_refl|cbn [flip rows cols]; lia].
      * unfold Y' in *. cbn [turned] in *.
        destruct (gemv_dense_ok A junk (arr m) (arr (o_rhs o')) (val m) (val (o_rhs o')) (Ha _) (Ha _)) as (res & E & Hr); try lia; try (rewrite Hj'; nia).
        exists res. split; [done|]. eapply holds_same; [exact Hr|]. apply same_times; [by apply same_sym|apply same_refl|cbn [flip cols]; lia].
Qed.

(** Integers: the product, if the operation stays a multiplication; if it becomes one of the other two there is no kernel. *)
Theorem C60_compiled_int tr low tyr tyc arr (val : nat -> mat V) o o' junk :
  program tr tyr tyc arr val -> rtc (fun o o' => canon1 tr low o = Some o') o o' -> o_ta o = false ->
  let X := val (o_lhs o) in let Y := turned (o_tb o) (val (o_rhs o)) in
  cols X = rows Y -> length junk = rows X * cols Y ->
  match select tr tyr tyc o' with
  | PMatMul _ _ _ _ => exists res, run_plan A VInt junk arr (select tr tyr tyc o') = Ok res /\ holds res (times A X Y)
  | _ => run_plan A VInt junk arr (select tr tyr tyc o') = Throw
  end.
Proof.
  intros Hp Hs Hta X Y HK Hj. destruct (canon_steps _ _ _ _ _ _ _ _ Hp Hs) as (El & Eta & Hsame). destruct Hp as (Ha & Ht & Hty). fold Y in Hsame.
  destruct (select tr tyr tyc o') as [v tl|m v|l r ta tb] eqn:Es; [done|done|].
  assert (l = o_lhs o' /\ r = o_rhs o' /\ ta = o_ta o' /\ tb = o_tb o') as (-> & -> & -> & ->).
  { unfold select in Es. repeat case_decide; try done; destruct (tr (o_lhs o')); try case_decide; simplify_eq; done. }
  cbn [run_plan]. rewrite Eta, Hta, El.
  destruct (C60_matmul_int (o_tb o') junk (arr (o_lhs o)) (arr (o_rhs o')) X (val (o_rhs o')) (Ha _) (Ha _)) as (res & E & Hr).
  - destruct Hsame as (Hr1 & _). by rewrite HK.
  - destruct Hsame as (_ & Hr2 & _). by rewrite <- Hr2.
  - exists res. split; [done|]. eapply holds_same; [exact Hr|]. apply same_times; [apply same_refl|by apply same_sym|]. destruct Hsame as (Hr1 & _). by rewrite HK.
Qed.
End mm.

(** * Concrete cases, with int64_t arithmetic. *)
Theorem C60_int64 : commutes ar64 /\ zero_laws ar64.
Proof. split; [|apply C30_int64]. intros x y. cbn [amul ar64]. by rewrite Z.mul_comm. Qed.

Definition of_rows (n m : nat) (l : list Z) : mat int64 := mkM n m (fun i j => w (nth (i * m + j) l 0%Z)).
Definition arr_of (n m : nat) (l : list Z) : dmat int64 := mkDM (w <$> l) 0 n m m.
Lemma arr_holds n m l : length l = n * m -> holds (arr_of n m l) (of_rows n m l).
Proof.
  intros Hl. apply tabulated_is_dense. split; [by rewrite fmap_length|]. intros r c Hr Hc. rewrite list_lookup_fmap.
  destruct (lookup_lt_is_Some_2 l (r * m + c)) as (z & Ez); [rewrite Hl; by apply pos_lt|]. cbn [of_rows cols]; rewrite Ez. cbn. f_equal. f_equal. symmetry. by apply nth_lookup_Some with (d := 0%Z) in Ez.
Qed.
(** Values: 0: M (3 x 2), 1: t(M), 2: a column v of length 3, 3: a row w of length 3, 4: t(w). *)
Definition c60_tr (v : nat) : option nat := match v with 1 => Some 0 | 4 => Some 3 | _ => None end.
Definition c60_low (v : nat) : bool := false.
Definition c60_arr (v : nat) : dmat int64 :=
  match v with
  | 0 => arr_of 3 2 [1; 2; 3; 4; 5; 6]%Z | 1 => arr_of 2 3 [1; 3; 5; 2; 4; 6]%Z | 2 => arr_of 3 1 [1; 2; 3]%Z
  | 3 => arr_of 1 3 [1; 2; 3]%Z | 4 => arr_of 3 1 [1; 2; 3]%Z | _ => arr_of 0 0 [] end.
Definition c60_val (v : nat) : mat int64 :=
  match v with
  | 0 => of_rows 3 2 [1; 2; 3; 4; 5; 6]%Z | 1 => of_rows 2 3 [1; 3; 5; 2; 4; 6]%Z | 2 => of_rows 3 1 [1; 2; 3]%Z
  | 3 => of_rows 1 3 [1; 2; 3]%Z | 4 => of_rows 3 1 [1; 2; 3]%Z | _ => of_rows 0 0 [] end.
Definition c60_tyr (v : nat) : Z := Z.of_nat (rows (c60_val v)).
Definition c60_tyc (v : nat) : Z := Z.of_nat (cols (c60_val v)).
Lemma c60_program : program c60_tr c60_tyr c60_tyc c60_arr c60_val.
Proof.
  split; [|split].
  - intros v. do 5 (destruct v as [|v]; [by apply arr_holds|]). by apply arr_holds.
  - intros v x E. unfold c60_tr in E. do 5 (destruct v as [|v]; [simplify_eq; try (split; [done|split; [done|]]; intros i j Hi Hj; cbn in Hi, Hj; do 3 (destruct i as [|i]; [do 3 (destruct j as [|j]; [try done; try lia|]); lia|]); lia)|]). done.
  - intros v. split; by right.
Qed.
Definition show_mm (r : outcome (dmat int64)) : option (nat * nat * list Z) := match r with Ok a => Some (m_rows a, m_cols a, ival <$> m_buf a) | _ => None end.
Definition c60_run (t : vty) (o : mmop) (n : nat) := show_mm (run_plan ar64 t (replicate n (w 77)) c60_arr (select c60_tr c60_tyr c60_tyc o)).
(** t(M) @ M becomes syrk, t(M) @ v becomes gemv, M @ t(M) stays or, canonicalized, becomes syrk. *)
Example C60_ex_syrk : select c60_tr c60_tyr c60_tyc (mkMM 1 0 false false) = PSyrk 0 true /\ c60_run VFloat (mkMM 1 0 false false) 4 = Some (2, 2, [35; 44; 44; 56]%Z).
Proof. split; vm_compute; done. Qed.
Example C60_ex_gemv : select c60_tr c60_tyr c60_tyc (mkMM 1 2 false false) = PGemv 0 2 /\ c60_run VFloat (mkMM 1 2 false false) 2 = Some (2, 1, [22; 28]%Z).
Proof. split; vm_compute; done. Qed.
Example C60_ex_canon : canon1 c60_tr c60_low (mkMM 0 1 false false) = Some (mkMM 0 0 false true) /\
  select c60_tr c60_tyr c60_tyc (mkMM 0 0 false true) = PSyrk 0 false /\ c60_run VFloat (mkMM 0 0 false true) 9 = Some (3, 3, [5; 11; 17; 11; 25; 39; 17; 39; 61]%Z).
Proof. split; [done|]. split; vm_compute; done. Qed.
Example C60_ex_matmul : c60_run VFloat (mkMM 2 3 false false) 9 = Some (3, 3, [1; 2; 3; 2; 4; 6; 3; 6; 9]%Z) /\ c60_run VInt (mkMM 0 1 false false) 9 = None /\ c60_run VInt (mkMM 2 3 false false) 9 = Some (3, 3, [1; 2; 3; 2; 4; 6; 3; 6; 9]%Z).
Proof. split; [|split]; vm_compute; done. Qed.
(** The theorem applies to t(M) @ v. *)
Example C60_ex_applies : exists res, run_plan ar64 VFloat (replicate 2 (w 77)) c60_arr (select c60_tr c60_tyr c60_tyc (mkMM 1 2 false false)) = Ok res /\ holds res (times ar64 (c60_val 1) (c60_val 2)).
Proof. apply (C60_compiled ar64 c60_tr c60_low c60_tyr c60_tyc c60_arr c60_val (mkMM 1 2 false false) (mkMM 1 2 false false)); try done; [apply C60_int64|apply c60_program|intros; by left]. Qed.

(** * What does not hold. *)
(** t(M) @ t(w) for a row w: the canonicalized operation is lowered to gemv(M, w), which reads outside of w. *)
Theorem C60_gemv_row_refuted : exists o o', program c60_tr c60_tyr c60_tyc c60_arr c60_val /\ rtc (fun o o' => canon1 c60_tr c60_low o = Some o') o o' /\ o_ta o = false /\
  cols (c60_val (o_lhs o)) = rows (turned (o_tb o) (c60_val (o_rhs o))) /\ cols (c60_val (o_lhs o)) <> 0 /\
  forall junk, run_plan ar64 VFloat junk c60_arr (select c60_tr c60_tyr c60_tyc o') = UB.
Proof.
  exists (mkMM 1 4 false false), (mkMM 1 3 false true). split; [apply c60_program|]. split; [by apply rtc_once|]. do 3 (split; [done|]).
  intros junk. change (gemv_dense ar64 junk (c60_arr 0) (mkDM (w <$> [1; 2; 3]%Z) 0 1 3 3) = UB). apply (C60_gemv_row ar64 junk _ (c60_val 0) _ 3); [apply c60_program|done|lia|cbn; lia|done].
Qed.
(** Gemv does not check the length of the vector: t(M) @ v with a v that is too long yields a result where the multiplication throws. *)
Theorem C60_gemv_mismatch_refuted : exists (a b t : dmat int64) X Y, holds a X /\ holds b Y /\ holds t (flip X) /\ cols Y = 1 /\ rows X <> rows Y /\
  mm_dense ar64 VFloat false false (replicate 2 (w 77)) t b = Throw /\ show_mm (gemv_dense ar64 (replicate 2 (w 77)) a b) = Some (2, 1, [1; 2]%Z).
Proof.
  exists (arr_of 1 2 [1; 2]%Z), (arr_of 2 1 [1; 7]%Z), (arr_of 2 1 [1; 2]%Z), (of_rows 1 2 [1; 2]%Z), (of_rows 2 1 [1; 7]%Z).
  split; [by apply arr_holds|]. split; [by apply arr_holds|]. split; [|repeat (split; [done|]); vm_compute; done].
  eapply dense_ext; [by apply (arr_holds 2 1)|]. intros i j Hi Hj. cbn in Hi, Hj. destruct i as [|[|i]]; [| |lia]; (destruct j as [|j]; [done|lia]).
Qed.
(** Gemv of a sparse matrix: M @ v instead of t(M) @ v. *)
Theorem C60_gemv_sparse_refuted : exists (b : csrbuf int64) h (vec : dmat int64) x y res, sparse_cells b h 2 2 x /\ is_dense vec 2 1 y /\
  gemv_csr ar64 (replicate 2 (w 77)) b h vec = Ok res /\ dm_at res 0 0 = Ok (w 5) /\ prod ar64 2 (fun i k => x k i) y 0 0 = w 1.
Proof.
  exists c30_b, c30_h, (arr_of 2 1 [1; 2]%Z), c30_x, (cell (of_rows 2 1 [1; 2]%Z)). eexists. split; [apply c30_sparse|]. split; [by apply (arr_holds 2 1)|].
  split; [vm_compute; reflexivity|]. split; vm_compute; done.
Qed.
(** An empty inner dimension: the product is all zeros, but for floating point numbers nothing is written to the new array. *)
Theorem C60_empty_refuted : exists (a b : dmat int64) X Y, holds a X /\ holds b Y /\ cols X = rows Y /\ rows X = 2 /\ cols Y = 2 /\
  forall junk, length junk = 4 -> mm_dense ar64 VFloat false false junk a b = Ok (mkDM junk 0 2 2 2).
Proof. exists (arr_of 2 0 []), (arr_of 0 2 []), (of_rows 2 0 []), (of_rows 0 2 []). split; [by apply arr_holds|]. split; [by apply arr_holds|]. done. Qed.
(** t(M) @ M does not compile for integers. *)
Theorem C60_int_refuted : exists o, program c60_tr c60_tyr c60_tyc c60_arr c60_val /\ o_ta o = false /\ cols (c60_val (o_lhs o)) = rows (turned (o_tb o) (c60_val (o_rhs o))) /\
  forall junk, run_plan ar64 VInt junk c60_arr (select c60_tr c60_tyr c60_tyc o) = Throw.
Proof. exists (mkMM 1 0 false false). split; [apply c60_program|]. done. Qed.

Print Assumptions C60_matmul_float.
Print Assumptions C60_matmul_int_transposed.
Print Assumptions C60_compiled.
Print Assumptions C60_compiled_int.
Print Assumptions C60_gemv_sparse.
Print Assumptions C60_gemv_row_refuted.
Print Assumptions C60_empty_refuted.
