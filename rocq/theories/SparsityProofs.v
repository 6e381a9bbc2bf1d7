(** Proofs about the inference of sparsity. *)
From stdpp Require Import base numbers list.
From Coq Require Import ZArith QArith Qcanon Lia.
From Verif Require Import CppBase SparsityModel SparsitySpec.
Open Scope Z_scope.

(** * Numbers *)
Lemma qz_add a b : qz (a + b) = (qz a + qz b)%Qc.
Proof. unfold qz. apply Qc_is_canon. cbn [this Qcplus Q2Qc]. rewrite !Qred_correct. rewrite inject_Z_plus. reflexivity. Qed.
Lemma qz_mul a b : qz (a * b) = (qz a * qz b)%Qc.
Proof. unfold qz. apply Qc_is_canon. cbn [this Qcmult Q2Qc]. rewrite !Qred_correct. rewrite inject_Z_mult. reflexivity. Qed.
Lemma qz_opp a : qz (- a) = (- qz a)%Qc.
Proof. unfold qz. apply Qc_is_canon. cbn [this Qcopp Q2Qc]. rewrite !Qred_correct. rewrite inject_Z_opp. reflexivity. Qed.
Lemma qz_sub a b : qz (a - b) = (qz a - qz b)%Qc.
Proof. unfold Z.sub, Qcminus. rewrite qz_add, qz_opp. reflexivity. Qed.
Lemma qz_inj a b : qz a = qz b -> a = b.
Proof.
  intros H. unfold qz in H. apply (f_equal this) in H. cbn [this Q2Qc] in H.
  assert (E : (inject_Z a == inject_Z b)%Q) by (rewrite <- (Qred_correct (inject_Z a)), <- (Qred_correct (inject_Z b)), H; reflexivity).
  unfold Qeq, inject_Z in E. cbn [Qnum Qden] in E. lia.
Qed.
Lemma qz_le a b : (qz a <= qz b)%Qc <-> a <= b.
Proof.
  unfold qz, Qcle. cbn [this Q2Qc]. rewrite !Qred_correct. unfold Qle, inject_Z. cbn [Qnum Qden]. lia.
Qed.
Lemma qz_lt a b : (qz a < qz b)%Qc <-> a < b.
Proof.
  unfold qz, Qclt. cbn [this Q2Qc]. rewrite !Qred_correct. unfold Qlt, inject_Z. cbn [Qnum Qden]. lia.
Qed.
Lemma qz_0 : qz 0 = 0%Qc. Proof. reflexivity. Qed.
Lemma qz_1 : qz 1 = 1%Qc. Proof. reflexivity. Qed.
Lemma qn_add a b : qn (a + b) = (qn a + qn b)%Qc.
Proof. unfold qn. rewrite Nat2Z.inj_add. apply qz_add. Qed.
Lemma qn_mul a b : qn (a * b) = (qn a * qn b)%Qc.
Proof. unfold qn. rewrite Nat2Z.inj_mul. apply qz_mul. Qed.
Lemma qn_pos n : (0 < n)%nat -> qn n <> 0%Qc.
Proof. intros H E. change 0%Qc with (qz 0) in E. apply qz_inj in E. lia. Qed.
Lemma qn_inj a b : qn a = qn b -> a = b.
Proof. intros H. apply qz_inj in H. lia. Qed.
Lemma qn_lt0 n : (0 < n)%nat -> (0 < qn n)%Qc.
Proof. intros H. change 0%Qc with (qz 0). apply qz_lt. lia. Qed.

Lemma frac_eq a b c d : (0 < b)%nat -> (0 < d)%nat -> (qn a / qn b = qn c / qn d)%Qc <-> (a * d = c * b)%nat.
Proof.
  intros Hb Hd. pose proof (qn_pos b Hb) as Nb. pose proof (qn_pos d Hd) as Nd. split; intros H.
  - apply qn_inj. rewrite !qn_mul.
    replace (qn a) with (qn a / qn b * qn b)%Qc by (field; assumption). rewrite H. field. assumption.
  - apply (f_equal qn) in H. rewrite !qn_mul in H.
    replace (qn a / qn b)%Qc with (qn a * qn d / (qn b * qn d))%Qc by (field; split; assumption).
    rewrite H. field. split; assumption.
Qed.
Lemma frac_ge0 a b : (0 < b)%nat -> (0 <= qn a / qn b)%Qc.
Proof.
  intros Hb. apply Qcmult_lt_0_le_reg_r with (qn b); [apply qn_lt0, Hb|].
  replace (qn a / qn b * qn b)%Qc with (qn a) by (field; apply qn_pos, Hb).
  replace (0 * qn b)%Qc with (qz 0) by (rewrite qz_0; ring). apply qz_le. lia.
Qed.
Lemma frac_le1 a b : (0 < b)%nat -> (a <= b)%nat -> (qn a / qn b <= 1)%Qc.
Proof.
  intros Hb Hab. apply Qcmult_lt_0_le_reg_r with (qn b); [apply qn_lt0, Hb|].
  replace (qn a / qn b * qn b)%Qc with (qn a) by (field; apply qn_pos, Hb).
  replace (1 * qn b)%Qc with (qn b) by ring. apply qz_le. lia.
Qed.
Lemma not_unknown q : (0 <= q)%Qc -> q <> unknown.
Proof. intros H ->. change 0%Qc with (qz 0) in H. unfold unknown in H. rewrite qz_le in H. lia. Qed.

(** * Counting *)
Lemma trues_cons b l : trues (b :: l) = ((if b then 1 else 0) + trues l)%nat.
Proof. unfold trues. rewrite filter_cons. destruct b; cbn; reflexivity. Qed.
Lemma trues_app l k : trues (l ++ k) = (trues l + trues k)%nat.
Proof. unfold trues. rewrite filter_app, app_length. reflexivity. Qed.
Lemma trues_le l : (trues l <= length l)%nat.
Proof. induction l as [|b l IH]; [reflexivity|]. rewrite trues_cons. cbn [length]. destruct b; lia. Qed.
Lemma trues_map_filter {A} (P : A -> Prop) `{forall x, Decision (P x)} (l : list A) :
  trues (map (fun x => bool_decide (P x)) l) = length (filter P l).
Proof.
  induction l as [|x l IH]; [reflexivity|]. cbn [map]. rewrite trues_cons, filter_cons, IH.
  destruct (decide (P x)) as [HP|HP].
  - rewrite bool_decide_eq_true_2 by exact HP. reflexivity.
  - rewrite bool_decide_eq_false_2 by exact HP. reflexivity.
Qed.
Lemma nnz_filter M : nnz M = length (filter (fun p => cell M (fst p) (snd p) <> 0) (cells M)).
Proof. unfold nnz, pattern. rewrite trues_map_filter. reflexivity. Qed.
Lemma cells_length M : length (cells M) = (nr M * nc M)%nat.
Proof. unfold cells. rewrite prod_length, !seq_length. reflexivity. Qed.
Lemma nnz_le M : (nnz M <= nr M * nc M)%nat.
Proof. rewrite <- cells_length. unfold nnz. etransitivity; [apply trues_le|]. unfold pattern. rewrite map_length. reflexivity. Qed.
Lemma elem_cells M p : p ∈ cells M <-> (fst p < nr M)%nat /\ (snd p < nc M)%nat.
Proof.
  destruct p as [i j]. unfold cells. rewrite elem_of_list_In, in_prod_iff, !in_seq. cbn [fst snd]. lia.
Qed.
Lemma NoDup_prod {A B} (l : list A) (k : list B) : NoDup l -> NoDup k -> NoDup (list_prod l k).
Proof.
  intros Hl Hk. induction Hl as [|x l Hx Hl IH]; [constructor|]. cbn [list_prod].
  apply NoDup_app. split; [|split; [|exact IH]].
  - apply NoDup_fmap_2 with (f := fun y => (x, y)); [intros a b E; congruence|exact Hk].
  - intros [a b] H1 H2. apply elem_of_list_In in H1. apply in_map_iff in H1 as (y & E & _). injection E as -> ->.
    apply elem_of_list_In in H2. apply in_prod_iff in H2 as [H2 _]. apply Hx, elem_of_list_In, H2.
Qed.
Lemma NoDup_cells M : NoDup (cells M).
Proof. apply NoDup_prod; apply NoDup_ListNoDup, List.seq_NoDup. Qed.

Lemma NoDup_map_in {A B} (f : A -> B) (l : list A) : (forall a b, a ∈ l -> b ∈ l -> f a = f b -> a = b) -> NoDup l -> NoDup (map f l).
Proof.
  intros Hf Hl. induction Hl as [|x l Hx Hl IH]; [constructor|]. cbn [map]. constructor.
  - intros H. apply elem_of_list_In, in_map_iff in H as (y & E & Hy). apply elem_of_list_In in Hy.
    apply Hx. rewrite (Hf x y); [exact Hy|left|right; exact Hy|symmetry; exact E].
  - apply IH. intros a b Ha Hb. apply Hf; right; assumption.
Qed.

(** The number of non-zeros through a bijection of the non-zero cells. *)
Lemma nnz_bij M N (f g : nat * nat -> nat * nat) :
  (forall p, p ∈ cells M -> cell M (fst p) (snd p) <> 0 -> f p ∈ cells N /\ cell N (fst (f p)) (snd (f p)) <> 0 /\ g (f p) = p) ->
  (forall p, p ∈ cells N -> cell N (fst p) (snd p) <> 0 -> g p ∈ cells M /\ cell M (fst (g p)) (snd (g p)) <> 0 /\ f (g p) = p) ->
  nnz M = nnz N.
Proof.
  intros H1 H2. rewrite !nnz_filter.
  rewrite <- (map_length f (filter _ (cells M))). apply Permutation_length, NoDup_Permutation.
  - apply NoDup_map_in.
    + intros a b Ha Hb E. apply elem_of_list_filter in Ha as [Ha Ha']. apply elem_of_list_filter in Hb as [Hb Hb'].
      destruct (H1 a Ha' Ha) as (_ & _ & Ea). destruct (H1 b Hb' Hb) as (_ & _ & Eb). congruence.
    + apply NoDup_filter, NoDup_cells.
  - apply NoDup_filter, NoDup_cells.
  - intros q. rewrite elem_of_list_filter. split.
    + intros H. apply elem_of_list_In, in_map_iff in H as (p & <- & Hp). apply elem_of_list_In, elem_of_list_filter in Hp as [Hp Hp'].
      destruct (H1 p Hp' Hp) as (? & ? & _). split; assumption.
    + intros [Hq Hq']. destruct (H2 q Hq' Hq) as (A & B & E). apply elem_of_list_In, in_map_iff.
      exists (g q). split; [exact E|]. apply elem_of_list_In, elem_of_list_filter. split; assumption.
Qed.

Lemma nnz_trans e : nnz (eval (TransE e)) = nnz (eval e).
Proof.
  apply (nnz_bij _ _ (fun p => (snd p, fst p)) (fun p => (snd p, fst p))); intros [i j]; rewrite !elem_cells; cbn [eval nr nc cell fst snd]; tauto.
Qed.
Lemma nnz_diag e : nc (eval e) = 1%nat -> nnz (eval (DiagE e)) = nnz (eval e).
Proof.
  intros Hc. apply (nnz_bij _ _ (fun p => (fst p, 0%nat)) (fun p => (fst p, fst p))); intros [i j]; rewrite !elem_cells; cbn [eval nr nc cell fst snd]; rewrite ?Hc.
  - intros [Hi Hj] H. destruct (decide (i = j)) as [->|]; [|congruence]. repeat split; try assumption; lia.
  - intros [Hi Hj] H. assert (j = 0%nat) as -> by lia. rewrite decide_True by reflexivity. repeat split; assumption.
Qed.
Lemma nnz_reshape e n m : (n * m = nr (eval e) * nc (eval e))%nat -> nnz (eval (ReshapeE e n m)) = nnz (eval e).
Proof.
  intros Hs. set (c := nc (eval e)) in *. set (r := nr (eval e)) in *.
  apply (nnz_bij _ _ (fun p => ((fst p * m + snd p) / c, (fst p * m + snd p) mod c)%nat) (fun p => ((fst p * c + snd p) / m, (fst p * c + snd p) mod m)%nat));
    intros [i j]; rewrite !elem_cells; cbn [eval nr nc cell fst snd]; fold c r.
  - intros [Hi Hj] H. assert (c <> 0)%nat by (intros ->; nia).
    assert (Hlt : (i * m + j < r * c)%nat) by (rewrite <- Hs; nia).
    pose proof (Nat.div_mod (i * m + j) c ltac:(assumption)) as D. pose proof (Nat.mod_upper_bound (i * m + j) c ltac:(assumption)) as U.
    assert (E : ((i * m + j) / c * c + (i * m + j) mod c = i * m + j)%nat) by lia.
    split; [split; [apply Nat.div_lt_upper_bound; lia|exact U]|]. split; [exact H|]. rewrite E.
    f_equal; [|rewrite Nat.add_comm, Nat.mod_add by lia; apply Nat.mod_small; lia].
    rewrite Nat.div_add_l by lia. rewrite (Nat.div_small j m) by lia. lia.
  - intros [Hi Hj] H. assert (m <> 0)%nat by (intros ->; nia).
    assert (Hlt : (i * c + j < n * m)%nat) by (rewrite Hs; nia).
    pose proof (Nat.div_mod (i * c + j) m ltac:(assumption)) as D. pose proof (Nat.mod_upper_bound (i * c + j) m ltac:(assumption)) as U.
    assert (E : ((i * c + j) / m * m + (i * c + j) mod m = i * c + j)%nat) by lia.
    assert (E1 : ((i * c + j) / c = i)%nat) by (rewrite Nat.div_add_l by lia; rewrite (Nat.div_small j c) by lia; lia).
    assert (E2 : ((i * c + j) mod c = j)%nat) by (rewrite Nat.add_comm, Nat.mod_add by lia; apply Nat.mod_small; lia).
    rewrite E, E1, E2. split; [split; [apply Nat.div_lt_upper_bound; lia|exact U]|]. split; [exact H|reflexivity].
Qed.

(** The literal loop counts the non-zeros. *)
Lemma count_row (f : nat -> Z) hi n : for_up 0 hi (fun c n => Ok (if decide (f c <> 0) then S n else n)) n = Ok (n + length (filter (fun c => f c <> 0%Z) (seq 0 hi)))%nat.
Proof.
  unfold for_up.
  assert (G : forall k lo n, forn k lo (fun c n => Ok (if decide (f c <> 0) then S n else n)) n = Ok (n + length (filter (fun c => f c <> 0%Z) (seq lo k)))%nat).
  { induction k as [|k IH]; intros lo m; cbn [forn seq]; [cbn; f_equal; lia|].
    cbn [obind]. rewrite IH, filter_cons. destruct (decide (f lo <> 0)); cbn [length]; f_equal; lia. }
  rewrite G. rewrite Nat.sub_0_r. reflexivity.
Qed.
Lemma filter_map_length {A B} (g : A -> B) (P : B -> Prop) `{forall x, Decision (P x)} (l : list A) :
  length (filter P (map g l)) = length (filter (fun x => P (g x)) l).
Proof. induction l as [|x l IH]; [reflexivity|]. cbn [map]. rewrite !filter_cons. destruct (decide (P (g x))); cbn [length]; congruence. Qed.
Fixpoint rsum (f : nat -> nat) (lo n : nat) : nat := match n with O => 0%nat | S n => (f lo + rsum f (S lo) n)%nat end.
Definition row_nnz (M : mat) (i : nat) : nat := length (filter (fun j => cell M i j <> 0) (seq 0 (nc M))).
Lemma nnz_rows M : nnz M = rsum (row_nnz M) 0 (nr M).
Proof.
  rewrite nnz_filter. unfold cells. 
  assert (G : forall n lo, length (filter (fun p => cell M (fst p) (snd p) <> 0) (list_prod (seq lo n) (seq 0 (nc M)))) = rsum (row_nnz M) lo n); [|apply G].
  induction n as [|n IH]; intros lo; [reflexivity|].
  cbn [seq list_prod rsum]. rewrite filter_app, app_length, IH, filter_map_length. reflexivity.
Qed.
Lemma lit_exact M : lit_sparsity M = fraction M.
Proof.
  unfold lit_sparsity, fraction. rewrite nnz_rows.
  assert (G : forall k lo n, forn k lo (fun r n => for_up 0 (nc M) (fun c n => Ok (if decide (cell M r c <> 0) then S n else n)) n) n = Ok (n + rsum (row_nnz M) lo k)%nat).
  { induction k as [|k IH]; intros lo n; cbn [forn rsum]; [f_equal; lia|].
    rewrite count_row. cbn [obind]. rewrite IH. unfold row_nnz. f_equal. lia. }
  unfold for_up at 1. rewrite G. rewrite Nat.sub_0_r. reflexivity.
Qed.

Section shapes.
Context (rk ck : exp -> bool).

Lemma exact_cells e : exact_exp rk e -> has_cells (eval e).
Proof.
  induction 1 as [M H|M H|M H|e He IH K C|e He IH|e n m He IH S]; cbn [eval]; try exact H; destruct IH as [A B]; unfold has_cells; cbn [nr nc].
  - split; assumption.
  - split; assumption.
  - assert (0 < n * m)%nat by (rewrite S; nia). nia.
Qed.
Lemma fraction_ge0 M : has_cells M -> (0 <= fraction M)%Qc.
Proof. intros [A B]. apply frac_ge0. nia. Qed.
Lemma exact_sound e : exact_exp rk e -> sparsity_of rk ck e = fraction (eval e).
Proof.
  induction 1 as [M H|M H|M H|e He IH K C|e He IH|e n m He IH S]; cbn [sparsity_of].
  - apply lit_exact.
  - reflexivity.
  - cbn [read_sparsity eval]. unfold fraction. rewrite qn_mul. destruct H as [A B]. field. split; apply qn_pos; assumption.
  - rewrite IH. pose proof (exact_cells e He) as HC. unfold diag_sparsity. rewrite decide_False by (apply not_unknown, fraction_ge0, HC).
    unfold k_rows. rewrite K. unfold fraction. rewrite (nnz_diag e C). cbn [eval nr nc]. rewrite C, Nat.mul_1_r, qn_mul.
    destruct HC as [A B]. field. apply qn_pos, A.
  - rewrite IH. unfold fraction. rewrite nnz_trans. cbn [eval nr nc]. rewrite Nat.mul_comm. reflexivity.
  - rewrite IH. unfold fraction. rewrite (nnz_reshape e n m S). cbn [eval nr nc]. rewrite S. reflexivity.
Qed.
End shapes.

(** * Range *)
Definition in01 (q : Qc) : Prop := (0 <= q <= 1)%Qc.
Definition u01 (q : Qc) : Prop := q = unknown \/ in01 q.
Lemma in01_known q : in01 q -> q <> unknown.
Proof. intros [H _]. apply not_unknown, H. Qed.
Lemma in01_mul a b : in01 a -> in01 b -> in01 (a * b)%Qc.
Proof.
  intros [A1 A2] [B1 B2]. split.
  - replace 0%Qc with (0 * b)%Qc by ring. apply Qcmult_le_compat_r; assumption.
  - apply Qcle_trans with (1 * b)%Qc; [apply Qcmult_le_compat_r; assumption|]. replace (1 * b)%Qc with b by ring. exact B2.
Qed.
Lemma in01_compl a : in01 a -> in01 (1 - a)%Qc.
Proof.
  intros [A1 A2]. split.
  - apply (proj1 (Qcle_minus_iff a 1)), A2.
  - apply Qcle_minus_iff. replace (1 + - (1 - a))%Qc with a by ring. exact A1.
Qed.
Lemma in01_both a b : in01 a -> in01 b -> in01 (a + b - a * b)%Qc.
Proof.
  intros A B. replace (a + b - a * b)%Qc with (1 - (1 - a) * (1 - b))%Qc by ring.
  apply in01_compl, in01_mul; apply in01_compl; assumption.
Qed.
Lemma in01_0 : in01 0%Qc. Proof. split; [apply Qcle_refl|change 0%Qc with (qz 0); change 1%Qc with (qz 1); apply qz_le; lia]. Qed.
Lemma in01_1 : in01 1%Qc. Proof. split; [change 0%Qc with (qz 0); change 1%Qc with (qz 1); apply qz_le; lia|apply Qcle_refl]. Qed.
Lemma in01_pow a k : in01 a -> in01 (qpow a k).
Proof. intros A. induction k as [|k IH]; cbn [qpow]; [exact in01_1|apply in01_mul; assumption]. Qed.
Lemma in01_frac a b : (0 < b)%nat -> (a <= b)%nat -> in01 (qn a / qn b)%Qc.
Proof. intros. split; [apply frac_ge0|apply frac_le1]; assumption. Qed.
Lemma in01_div a k : in01 a -> (0 < k)%nat -> in01 (a / qn k)%Qc.
Proof.
  intros A K. replace (a / qn k)%Qc with (a * (qn 1 / qn k))%Qc.
  - apply in01_mul; [exact A|]. apply in01_frac; lia.
  - change (qn 1) with 1%Qc. field. apply qn_pos, K.
Qed.

(** Truncation: of a number between 0 and 1 to 0 or 1. *)
Lemma to_ssize_unknown : to_ssize unknown = -1. Proof. reflexivity. Qed.
Lemma to_ssize_01 q : in01 q -> (q <> 1%Qc -> to_ssize q = 0) /\ (q = 1%Qc -> to_ssize q = 1).
Proof.
  intros [A B]. split; [|intros ->; reflexivity]. intros N.
  unfold to_ssize. apply Z.quot_small. 
  change (0 * Zpos (Qden (this q)) <= Qnum (this q) * 1) in A. change (Qnum (this q) * 1 <= 1 * Zpos (Qden (this q))) in B.
  split; [lia|]. destruct (Z.eq_dec (Qnum (this q)) (Zpos (Qden (this q)))) as [E|]; [|lia].
  exfalso. apply N. apply Qc_is_canon. change (this 1%Qc) with 1%Q. unfold Qeq. cbn [Qnum Qden]. lia.
Qed.

Section shapes2.
Context (rk ck : exp -> bool).
Lemma range_sound e : proper rk e -> u01 (sparsity_of rk ck e).
Proof.
  induction e as [sup M|s M|M|v n m|z M|M|e IH|up d vs e IH|e IH|e IH n m|a IHa b IHb|a IHa b IHb|a IHa b IHb|e IH z|e IH z|a IHa b IHb|c a IHa b IHb];
    cbn [proper sparsity_of]; intros H.
  - destruct sup; [|left; reflexivity]. right. rewrite lit_exact. destruct H as [A B]. apply in01_frac; [nia|apply nnz_le].
  - destruct s as [q|]; [right; exact H|left; reflexivity].
  - right. exact in01_1.
  - left. reflexivity.
  - destruct H as [[A B] H]. destruct z as [z|]; [|left; reflexivity]. right. cbn [read_sparsity].
    replace (qn z / qn (nr M) / qn (nc M))%Qc with (qn z / qn (nr M * nc M))%Qc by (rewrite qn_mul; field; split; apply qn_pos; assumption).
    apply in01_frac; [nia|exact H].
  - left. reflexivity.
  - destruct H as (H & K & P). right. unfold diag_sparsity, k_rows. rewrite K. apply in01_div; [|exact P].
    destruct (decide (sparsity_of rk ck e = unknown)) as [E|E]; [exact in01_1|]. destruct (IH H) as [?|?]; [contradiction|assumption].
  - unfold tri_sparsity. destruct (decide _) as [E|E]; [left; reflexivity|]. right. change (qz 2) with (qn 2). apply in01_div; [|lia].
    destruct (IH H) as [?|?]; [contradiction|assumption].
  - apply IH, H.
  - apply IH, H.
  - destruct H as [Ha Hb]. unfold ew_both. destruct (decide _) as [[A B]|]; [|left; reflexivity]. right.
    destruct (IHa Ha) as [?|?]; [contradiction|]. destruct (IHb Hb) as [?|?]; [contradiction|]. apply in01_both; assumption.
  - destruct H as [Ha Hb]. unfold ew_both. destruct (decide _) as [[A B]|]; [|left; reflexivity]. right.
    destruct (IHa Ha) as [?|?]; [contradiction|]. destruct (IHb Hb) as [?|?]; [contradiction|]. apply in01_both; assumption.
  - destruct H as [Ha Hb]. unfold ew_either. destruct (decide _) as [[A B]|].
    + right. destruct (IHa Ha) as [?|?]; [contradiction|]. destruct (IHb Hb) as [?|?]; [contradiction|]. apply in01_mul; assumption.
    + destruct (decide _); [apply IHa, Ha|]. destruct (decide _); [apply IHb, Hb|left; reflexivity].
  - unfold ew_both. rewrite decide_False by tauto. left. reflexivity.
  - unfold ew_either. rewrite decide_False by tauto. destruct (decide _); [apply IH, H|]. rewrite decide_False by tauto. left. reflexivity.
  - destruct H as [Ha Hb]. unfold mm_sparsity. destruct (decide _) as [|N]; [left; reflexivity|].
    destruct (IHa Ha) as [?|A]; [tauto|]. destruct (IHb Hb) as [?|B]; [tauto|].
    destruct (match k_cols ck a with Some k => Some k | None => k_rows rk b end) as [k|]; [|left; reflexivity].
    right. rewrite qz_1. apply in01_compl, in01_pow, in01_compl, in01_mul; assumption.
  - destruct H as [Ha Hb]. unfold merge_sparsity. destruct (decide _) as [E|]; [|left; reflexivity].
    destruct (IHa Ha) as [->|A]; [left; reflexivity|]. right. destruct (to_ssize_01 _ A) as [T1 T2].
    destruct (decide (sparsity_of rk ck a = 1%Qc)) as [Q|Q]; [rewrite (T2 Q); exact in01_1|rewrite (T1 Q); exact in01_0].
Qed.

Lemma sym_sound e : (symmetric_of rk ck e = BTrue -> symmetric (eval e)) /\ (symmetric_of rk ck e = BFalse -> ~ symmetric (eval e)).
Proof.
  induction e as [sup M|s M|M|v n m|z M|M|e IH|up d vs e IH|e IH|e IH n m|a IHa b IHb|a IHa b IHb|a IHa b IHb|e IH z|e IH z|a IHa b IHb|c a IHa b IHb];
    cbn [symmetric_of]; try (split; discriminate).
  - unfold k_rows, k_cols. destruct (rk _); [|split; discriminate]. destruct (ck _); [|split; discriminate]. cbn [eval nr nc].
    destruct (decide (n = m)) as [->|N]; split; try discriminate.
    + intros _. split; [reflexivity|]. cbn [nr nc cell]. reflexivity.
    + intros _ [E _]. cbn [nr nc] in E. contradiction.
  - assert (G : symmetric (eval (TransE e)) <-> symmetric (eval e)).
    { unfold symmetric. cbn [eval nr nc cell]. split; intros [E S]; (split; [congruence|]); intros i j Hi Hj; symmetry; apply S; congruence. }
    rewrite G. exact IH.
  - unfold merge_sym. destruct (decide _) as [E|]; [|split; discriminate]. cbn [eval]. destruct c; [exact IHa|]. rewrite E. exact IHb.
Qed.
End shapes2.

(** * The estimates are averages *)
Fixpoint pats (N b : nat) : list (list bool) :=
  match N with
  | O => match b with O => [[]] | S _ => [] end
  | S N => map (cons false) (pats N b) ++ match b with O => [] | S b => map (cons true) (pats N b) end
  end.
Lemma pats_elem N : forall b p, p ∈ pats N b <-> length p = N /\ trues p = b.
Proof.
  induction N as [|N IH]; intros b p; cbn [pats].
  - destruct b as [|b].
    + rewrite elem_of_list_singleton. split; [intros ->; split; reflexivity|]. intros [H _]. destruct p; [reflexivity|discriminate].
    + rewrite elem_of_nil. split; [tauto|]. intros [H H2]. destruct p; discriminate.
  - rewrite elem_of_app. split.
    + intros [H|H].
      * apply elem_of_list_In, in_map_iff in H as (q & <- & Hq). apply elem_of_list_In, IH in Hq as [L T]. rewrite trues_cons. cbn [length]. split; lia.
      * destruct b as [|b]; [apply elem_of_nil in H as []|]. apply elem_of_list_In, in_map_iff in H as (q & <- & Hq).
        apply elem_of_list_In, IH in Hq as [L T]. rewrite trues_cons. cbn [length]. split; lia.
    + intros [L T]. destruct p as [|x p]; [discriminate L|]. cbn [length] in L. rewrite trues_cons in T. destruct x.
      * right. destruct b as [|b]; [lia|]. apply elem_of_list_In, in_map_iff. exists p. split; [reflexivity|]. apply elem_of_list_In, IH. lia.
      * left. apply elem_of_list_In, in_map_iff. exists p. split; [reflexivity|]. apply elem_of_list_In, IH. lia.
Qed.
Lemma pats_nodup N : forall b, NoDup (pats N b).
Proof.
  induction N as [|N IH]; intros b; cbn [pats]; [destruct b; [apply NoDup_singleton|constructor]|].
  apply NoDup_app. split; [|split].
  - apply NoDup_fmap_2; [intros x y E; congruence|apply IH].
  - intros p H1 H2. apply elem_of_list_In, in_map_iff in H1 as (q & <- & _). destruct b as [|b]; [apply elem_of_nil in H2 as []|].
    apply elem_of_list_In, in_map_iff in H2 as (q' & E & _). discriminate.
  - destruct b as [|b]; [constructor|]. apply NoDup_fmap_2; [intros x y E; congruence|apply IH].
Qed.
Definition band : list bool -> list bool -> list bool := zip_with andb.
Definition bor : list bool -> list bool -> list bool := zip_with orb.
Definition nsum (l : list nat) : nat := foldr Nat.add 0%nat l.
Lemma nsum_app l k : nsum (l ++ k) = (nsum l + nsum k)%nat.
Proof. induction l as [|x l IH]; cbn; [reflexivity|]. unfold nsum in *. rewrite IH. lia. Qed.
Lemma nsum_const {A} (f : A -> nat) c l : nsum (map (fun x => c + f x)%nat l) = (c * length l + nsum (map f l))%nat.
Proof. induction l as [|x l IH]; cbn [map nsum foldr length]; [lia|]. unfold nsum in *. rewrite IH. lia. Qed.
Lemma both_sum_0 A : nsum (map (fun B => trues (band A B)) (pats (length A) 0)) = 0%nat.
Proof.
  induction A as [|x A IH]; [reflexivity|]. cbn [length pats]. rewrite app_nil_r, map_map.
  etransitivity; [|exact IH]. f_equal. apply map_ext. intros B. unfold band. cbn [zip_with]. rewrite trues_cons, andb_false_r. reflexivity.
Qed.
Lemma both_sum A : forall n b, length A = S n -> nsum (map (fun B => trues (band A B)) (pats (S n) (S b))) = (trues A * length (pats n b))%nat.
Proof.
  induction A as [|x A IH]; intros n b L; [discriminate|]. cbn [length] in L. injection L as L.
  change (pats (S n) (S b)) with (map (cons false) (pats n (S b)) ++ map (cons true) (pats n b)).
  rewrite map_app, nsum_app, !map_map.
  rewrite (map_ext (fun B => trues (band (x :: A) (false :: B))) (fun B => trues (band A B)))
    by (intros B; unfold band; cbn [zip_with]; rewrite trues_cons, andb_false_r; reflexivity).
  rewrite (map_ext (fun B => trues (band (x :: A) (true :: B))) (fun B => (if x then 1 else 0) + trues (band A B))%nat)
    by (intros B; unfold band; cbn [zip_with]; rewrite trues_cons, andb_true_r; reflexivity).
  rewrite nsum_const, trues_cons.
  destruct n as [|n].
  - destruct A; [|discriminate]. cbn. destruct b; cbn; destruct x; reflexivity.
  - rewrite (IH n b L). destruct b as [|b].
    + rewrite <- L at 2. rewrite both_sum_0. rewrite Nat.add_0_r.
      change (pats (S n) 0) with (map (cons false) (pats n 0) ++ []). rewrite app_nil_r, map_length. lia.
    + rewrite (IH n b L).
      change (pats (S n) (S b)) with (map (cons false) (pats n (S b)) ++ map (cons true) (pats n b)).
      rewrite app_length, !map_length. lia.
Qed.
Lemma band_repeat n B : length B = n -> band (repeat true n) B = B.
Proof. revert B. induction n as [|n IH]; intros [|b B] H; try discriminate; [reflexivity|]. cbn. f_equal. apply IH. cbn in H. lia. Qed.
Lemma trues_repeat n : trues (repeat true n) = n.
Proof. induction n as [|n IH]; [reflexivity|]. cbn [repeat]. rewrite trues_cons, IH. reflexivity. Qed.
Lemma nsum_all {A} (f : A -> nat) c l : (forall x, x ∈ l -> f x = c) -> nsum (map f l) = (length l * c)%nat.
Proof.
  induction l as [|x l IH]; intros H; [reflexivity|]. cbn [map nsum foldr length]. rewrite (H x) by left.
  unfold nsum in IH. rewrite IH by (intros y Hy; apply H; right; exact Hy). lia.
Qed.
Lemma absorb n b : (S b * length (pats (S n) (S b)) = S n * length (pats n b))%nat.
Proof.
  pose proof (both_sum (repeat true (S n)) n b (repeat_length _ _)) as H. rewrite trues_repeat in H. rewrite <- H.
  rewrite (nsum_all _ (S b)); [lia|]. intros B HB. apply pats_elem in HB as [L T]. rewrite band_repeat by exact L. exact T.
Qed.
Lemma both_avg A b : (length A * nsum (map (fun B => trues (band A B)) (pats (length A) b)) = trues A * b * length (pats (length A) b))%nat.
Proof.
  destruct b as [|b]; [rewrite both_sum_0; lia|]. destruct A as [|x A]; [reflexivity|]. cbn [length].
  rewrite (both_sum (x :: A) (length A) b eq_refl). pose proof (absorb (length A) b) as E. nia.
Qed.
Lemma or_and A : forall B, length A = length B -> (trues (bor A B) + trues (band A B) = trues A + trues B)%nat.
Proof.
  induction A as [|x A IH]; intros [|y B] L; try discriminate; [reflexivity|]. unfold band, bor in *. cbn [zip_with]. rewrite !trues_cons.
  cbn [length] in L. specialize (IH B ltac:(lia)). destruct x, y; cbn [andb orb]; lia.
Qed.
Lemma either_avg A b : (length A * nsum (map (fun B => trues (bor A B)) (pats (length A) b)) + trues A * b * length (pats (length A) b) = length A * (trues A + b) * length (pats (length A) b))%nat.
Proof.
  rewrite <- both_avg, <- Nat.mul_add_distr_l, <- Nat.mul_assoc. f_equal.
  assert (G : forall l, (forall B, B ∈ l -> length B = length A /\ trues B = b) ->
    (nsum (map (fun B => trues (bor A B)) l) + nsum (map (fun B => trues (band A B)) l) = (trues A + b) * length l)%nat).
  { induction l as [|B l IH]; intros H; [cbn; lia|]. cbn [map nsum foldr length]. unfold nsum in IH.
    specialize (IH ltac:(intros; apply H; right; assumption)). destruct (H B ltac:(left)) as [L T].
    pose proof (or_and A B ltac:(congruence)) as E. rewrite T in E. nia. }
  apply G. intros B HB. apply pats_elem in HB. exact HB.
Qed.

(** Sums over any enumeration of the placements. *)
Lemma nsum_perm l k : l ≡ₚ k -> nsum l = nsum k.
Proof. induction 1; cbn in *; unfold nsum in *; lia. Qed.
Lemma placements_perm n m b Bs : all_placements n m b Bs -> map pattern Bs ≡ₚ pats (n * m) b.
Proof.
  intros (H & ND & C). apply NoDup_Permutation; [exact ND|apply pats_nodup|]. intros p. rewrite pats_elem. split.
  - intros Hp. apply elem_of_list_In, in_map_iff in Hp as (B & <- & HB). apply elem_of_list_In, H in HB as (R & S & T).
    split; [|exact T]. unfold pattern. rewrite map_length, cells_length, R, S. reflexivity.
  - intros [L T]. apply C; assumption.
Qed.
Lemma placements_sum n m b Bs (f : list bool -> nat) : all_placements n m b Bs ->
  nsum (map (fun B => f (pattern B)) Bs) = nsum (map f (pats (n * m) b)) /\ length Bs = length (pats (n * m) b).
Proof.
  intros H. pose proof (placements_perm _ _ _ _ H) as P. split.
  - rewrite <- map_map. apply nsum_perm. apply Permutation_map, P.
  - rewrite <- (map_length pattern Bs). apply Permutation_length, P.
Qed.
Lemma total_frac {A} (f : A -> nat) N l : total (map (fun x => qn (f x) / qn N)%Qc l) = (qn (nsum (map f l)) / qn N)%Qc.
Proof.
  induction l as [|x l IH].
  - cbn. change (qn 0) with 0%Qc. change (qz 0) with 0%Qc. unfold Qcdiv. ring.
  - cbn [map total nsum foldr]. unfold total, nsum in IH. rewrite IH, qn_add. unfold Qcdiv. ring.
Qed.
Lemma zip_with_map {A} (f g : A -> bool) (h : bool -> bool -> bool) l : zip_with h (map f l) (map g l) = map (fun x => h (f x) (g x)) l.
Proof. induction l as [|x l IH]; [reflexivity|]. cbn [map zip_with]. rewrite IH. reflexivity. Qed.
Lemma bool_ext (a b : bool) : (a = true <-> b = true) -> a = b.
Proof. destruct a, b; intros [H1 H2]; try reflexivity; [symmetry; apply H1; reflexivity|apply H2; reflexivity]. Qed.
Lemma pattern_mul A B : nr A = nr B -> nc A = nc B -> pattern (mkMat (nr A) (nc A) (fun i j => cell A i j * cell B i j)) = band (pattern A) (pattern B).
Proof.
  intros R C. unfold pattern, band, cells. cbn [nr nc cell]. rewrite <- R, <- C, zip_with_map. apply map_ext. intros [i j]. cbn [fst snd].
  apply bool_ext. rewrite andb_true_iff, !bool_decide_eq_true. nia.
Qed.
Lemma pattern_add A B : nr A = nr B -> nc A = nc B -> nonneg A -> nonneg B ->
  pattern (mkMat (nr A) (nc A) (fun i j => cell A i j + cell B i j)) = bor (pattern A) (pattern B).
Proof.
  intros R C NA NB. unfold pattern, bor, cells. cbn [nr nc cell]. rewrite <- R, <- C, zip_with_map. apply map_ext. intros [i j]. cbn [fst snd].
  specialize (NA i j). specialize (NB i j). apply bool_ext. rewrite orb_true_iff, !bool_decide_eq_true. lia.
Qed.
Lemma pattern_length M : length (pattern M) = (nr M * nc M)%nat.
Proof. unfold pattern. rewrite map_length. apply cells_length. Qed.
