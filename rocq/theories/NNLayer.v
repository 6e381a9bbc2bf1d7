(** Property C91: adding a bias, batch normalization and softmax. *)
From stdpp Require Import base numbers list list_numbers.
From Coq Require Import Lia ZArith Field_theory Field.
From Verif Require Import CppBase Mem NNLayerModel.

(** * Specification *)
(** The cells of channel [c] of image [i] are the columns c * hw, ..., c * hw + hw - 1 of row [i]. *)
Fixpoint ssum {F} (f0 : F) (fadd : F -> F -> F) (n : nat) (g : nat -> F) : F :=
  match n with 0 => f0 | S n => fadd (ssum f0 fadd n g) (g n) end.
(** A vector of [n] numbers, stored one after the other *)
Definition is_vec {F} (a : dmat F) (n : nat) (x : nat -> F) : Prop := forall c, c < n -> m_buf a !! (m_off a + c) = Some (x c).
(** A matrix stored row by row without gaps *)
Definition packed {F} (a : dmat F) (n m : nat) (x : nat -> nat -> F) : Prop := is_dense a n m x /\ m_skip a = m.

Lemma pos_inj m i k i' k' : k < m -> k' < m -> i * m + k = i' * m + k' -> i = i' /\ k = k'.
Proof.
  intros Hk Hk' E. assert (i = i') as ->; [|lia].
  destruct (Nat.lt_trichotomy i i') as [H|[H|H]]; [|done|]; nia.
Qed.
Lemma vals_packed {F} (a : dmat F) n m x i k : packed a n m x -> i < n -> k < m -> vals a (i * m + k) = Ok (x i k).
Proof. intros [(_ & _ & _ & _ & H) E] Hi Hk. unfold vals. apply rd_Ok. rewrite Nat.add_assoc, <- E at 1. by apply H. Qed.
Lemma vals_vec {F} (a : dmat F) n x c : is_vec a n x -> c < n -> vals a c = Ok (x c).
Proof. intros H Hc. unfold vals. apply rd_Ok. by apply H. Qed.
Lemma forn_Ok_all {St} n lo (f : nat -> St -> outcome St) s s' : forn n lo f s = Ok s' -> forall i, i < n -> exists t u, f (lo + i) t = Ok u.
Proof.
  revert lo s. induction n as [|n IH]; intros lo s E i Hi; [lia|]. cbn in E. destruct (f lo s) as [t| |] eqn:Ef; try done. cbn in E.
  destruct i as [|i]; [exists s, t; by rewrite Nat.add_0_r|]. destruct (IH _ _ E i) as (u & v & Huv); [lia|]. exists u, v. by replace (lo + S i) with (S lo + i) by lia.
Qed.
Lemma for2_Ok_all {St} n m (f : nat -> nat -> St -> outcome St) s s' : for2 n m f s = Ok s' -> forall r c, r < n -> c < m -> exists t u, f r c t = Ok u.
Proof.
  intros E r c Hr Hc. unfold for2, for_up in E. rewrite !Nat.sub_0_r in E. destruct (forn_Ok_all _ _ _ _ _ E r Hr) as (t & u & E1). cbn in E1.
  by apply (forn_Ok_all _ _ _ _ _ E1 c Hc).
Qed.
Lemma int_idx_ok off : (Z.of_nat off < 2147483648)%Z -> int_idx off = Ok off.
Proof. intros H. unfold int_idx. by rewrite decide_True. Qed.

(** Writing one channel *)
Lemma channel_write {F} n hw chw c (f : nat -> nat -> list F -> outcome (list F)) (h : nat -> nat -> F) b :
  length b = n * chw -> c * hw + hw <= chw ->
  (forall i j b, i < n -> j < hw -> length b = n * chw -> f i j b = wr b (i * chw + c * hw + j) (h i j)) ->
  exists b', for2 n hw f b = Ok b' /\ length b' = n * chw /\
    (forall i j, i < n -> j < hw -> b' !! (i * chw + (c * hw + j)) = Some (h i j)) /\
    (forall i k, i < n -> k < chw -> ~ (c * hw <= k < c * hw + hw) -> b' !! (i * chw + k) = b !! (i * chw + k)).
Proof.
  intros Hl Hc Hf.
  destruct (for2_inv (fun r cc b' => length b' = n * chw /\
    (forall i j, i < n -> j < hw -> i < r \/ (i = r /\ j < cc) -> b' !! (i * chw + (c * hw + j)) = Some (h i j)) /\
    (forall i k, i < n -> k < chw -> ~ (c * hw <= k < c * hw + hw) -> b' !! (i * chw + k) = b !! (i * chw + k))) n hw f b) as (b' & E & H1 & H2 & H3).
  - split_and!; [done|lia|done].
  - intros r cc s Hr Hcc (H1 & H2 & H3). rewrite Hf by done. assert (Hb : r * chw + c * hw + cc < n * chw) by nia.
    rewrite wr_Ok by lia. eexists. split; [done|]. split_and!.
    + by rewrite insert_length.
    + intros i j Hi Hj Hij. destruct (decide (i = r /\ j = cc)) as [[-> ->]|Hn].
      * rewrite <- Nat.add_assoc. apply list_lookup_insert. lia.
      * rewrite list_lookup_insert_ne; [apply H2; try done; lia|]. intros E. rewrite <- Nat.add_assoc in E. apply pos_inj in E; lia.
    + intros i k Hi Hk Hn. rewrite list_lookup_insert_ne; [by apply H3|]. intros E. rewrite <- Nat.add_assoc in E. apply pos_inj in E; lia.
  - intros r s Hr (H1 & H2 & H3). split_and!; [done| |done]. intros i j Hi Hj [Hlt|[-> Hlt]]; [|lia]. apply H2; [done|done|].
    destruct (decide (i = r)); [right|left]; lia.
  - exists b'. split_and!; [done|done| |done]. intros i j Hi Hj. apply H2; [done|done|lia].
Qed.

Section Layers.
  Context {F : Type} (f0 f1 : F) (fadd fmul fsub fdiv : F -> F -> F) (fopp finv fsqrt : F -> F) (of_nat : nat -> F).
  Context (Hf : field_theory f0 f1 fadd fmul fsub fopp fdiv finv eq).
  Add Field FF : Hf.
  Local Notation "x ⊕ y" := (fadd x y) (at level 50, left associativity).
  Local Notation "x ⊖ y" := (fsub x y) (at level 50, left associativity).
  Local Notation "x ⊗ y" := (fmul x y) (at level 40, left associativity).
  Local Notation "x ⊘ y" := (fdiv x y) (at level 40, left associativity).
  Local Notation Σ := (ssum f0 fadd).
  (** The sum over all cells of channel [c] *)
  Definition chan_sum (n hw c : nat) (x : nat -> nat -> F) : F := Σ n (fun i => Σ hw (fun j => x i (c * hw + j))).

  Lemma ssum_ext n g h : (forall i, i < n -> g i = h i) -> Σ n g = Σ n h.
  Proof. induction n as [|n IH]; intros H; [done|]. cbn. rewrite IH by (intros; apply H; lia). by rewrite H by lia. Qed.
  Lemma ssum_scale n a g : Σ n (fun i => a ⊗ g i) = a ⊗ Σ n g.
  Proof. induction n as [|n IH]; cbn; [ring|]. rewrite IH. ring. Qed.
  Lemma ssum_add n g h : Σ n (fun i => g i ⊕ h i) = Σ n g ⊕ Σ n h.
  Proof. induction n as [|n IH]; cbn; [ring|]. rewrite IH. ring. Qed.
  Lemma chan_scale n hw c a x : chan_sum n hw c (fun i k => a ⊗ x i k) = a ⊗ chan_sum n hw c x.
  Proof. unfold chan_sum. rewrite <- ssum_scale. apply ssum_ext. intros i _. by rewrite ssum_scale. Qed.
  Lemma chan_add n hw c x y : chan_sum n hw c (fun i k => x i k ⊕ y i k) = chan_sum n hw c x ⊕ chan_sum n hw c y.
  Proof. unfold chan_sum. rewrite <- ssum_add. apply ssum_ext. intros i _. by rewrite ssum_add. Qed.
  Lemma chan_ext n hw c x y : (forall i j, i < n -> j < hw -> x i (c * hw + j) = y i (c * hw + j)) -> chan_sum n hw c x = chan_sum n hw c y.
  Proof. intros H. unfold chan_sum. apply ssum_ext. intros i Hi. apply ssum_ext. intros j Hj. by apply H. Qed.

  (** Accumulating over a channel *)
  Lemma for2_sum n m (f : nat -> nat -> F -> outcome F) g :
    (forall i j s, i < n -> j < m -> f i j s = Ok (s ⊕ g i j)) -> for2 n m f f0 = Ok (Σ n (fun i => Σ m (g i))).
  Proof.
    intros H. destruct (for2_inv (fun r c s => s = Σ r (fun i => Σ m (g i)) ⊕ Σ c (g r)) n m f f0) as (s & E & ->).
    - cbn. ring.
    - intros r c s Hr Hc ->. rewrite H by done. eexists. split; [done|]. cbn. ring.
    - intros r s Hr ->. cbn. ring.
    - rewrite E. f_equal. cbn. ring.
  Qed.
  Lemma for2_sum3 n m (f : nat -> nat -> F * F * F -> outcome (F * F * F)) g1 g2 g3 :
    (forall i j s, i < n -> j < m -> f i j s = Ok (fst (fst s) ⊕ g1 i j, snd (fst s) ⊕ g2 i j, snd s ⊖ g3 i j)) ->
    for2 n m f (f0, f0, f0) = Ok (Σ n (fun i => Σ m (g1 i)), Σ n (fun i => Σ m (g2 i)), fopp (Σ n (fun i => Σ m (g3 i)))).
  Proof.
    intros H. destruct (for2_inv (fun r c s => s = (Σ r (fun i => Σ m (g1 i)) ⊕ Σ c (g1 r), Σ r (fun i => Σ m (g2 i)) ⊕ Σ c (g2 r),
      fopp (Σ r (fun i => Σ m (g3 i)) ⊕ Σ c (g3 r)))) n m f (f0, f0, f0)) as (s & E & ->).
    - cbn. f_equal; [f_equal|]; ring.
    - intros r c s Hr Hc ->. rewrite H by done. eexists. split; [done|]. cbn. f_equal; [f_equal|]; ring.
    - intros r s Hr ->. cbn. f_equal; [f_equal|]; ring.
    - rewrite E. f_equal. cbn. f_equal; [f_equal|]; ring.
  Qed.

  (** * Adding a bias: the bias of its channel is added to each cell.  Columns left over after the last whole channel become zero. *)
  Theorem C91_bias inp bias n chw x C b : packed inp n chw x -> m_rows bias = C -> is_vec bias C b -> 0 < C ->
    exists res, bias_add f0 fadd inp bias = Ok res /\ length res = n * chw /\
      forall i k, i < n -> k < chw -> res !! (i * chw + k) = Some (if decide (k < C * (chw / C)) then x i k ⊕ b (k / (chw / C)) else f0).
  Proof.
    intros Hi HC Hb Cpos. pose proof Hi as [(Er & Ec & _) _]. unfold bias_add. rewrite Er, Ec, HC. unfold chan_size. rewrite decide_False by lia. cbn [obind].
    set (hw := chw / C). assert (Hhw : C * hw <= chw) by (apply Nat.mul_div_le; lia).
    destruct (for_up_inv (fun r res => length res = n * chw /\
      (forall i k, i < n -> k < chw -> i < r -> res !! (i * chw + k) = Some (if decide (k < C * hw) then x i k ⊕ b (k / hw) else f0)) /\
      (forall i k, i < n -> k < chw -> r <= i -> res !! (i * chw + k) = Some f0)) 0 n
      (fun i b0 => for2 C hw (fun c j b1 => let* x0 := vals inp (i * chw + c * hw + j) in let* v := vals bias c in wr b1 (i * chw + c * hw + j) (x0 ⊕ v)) b0)
      (replicate (n * chw) f0)) as (res & E & H1 & H2 & _).
    - lia.
    - split_and!; [by rewrite replicate_length|lia|]. intros i k Hi' Hk _. apply lookup_replicate. split; [done|nia].
    - intros r s [_ Hr] (H1 & H2 & H3).
      destruct (for2_inv (fun c j s' => length s' = n * chw /\
        (forall i k, i < n -> k < chw -> i <> r -> s' !! (i * chw + k) = s !! (i * chw + k)) /\
        (forall k, k < chw -> s' !! (r * chw + k) = Some (if decide (k < c * hw + j) then x r k ⊕ b (k / hw) else f0))) C hw
        (fun c j b1 => let* x0 := vals inp (r * chw + c * hw + j) in let* v := vals bias c in wr b1 (r * chw + c * hw + j) (x0 ⊕ v)) s) as (s' & E & G1 & G2 & G3).
      + split_and!; [done|done|]. intros k Hk. rewrite decide_False by lia. by apply H3.
      + intros c j s' Hc Hj (G1 & G2 & G3). assert (c * hw + j < chw) by nia. rewrite <- Nat.add_assoc. rewrite (vals_packed _ _ _ _ _ _ Hi) by done.
        cbn [obind]. rewrite (vals_vec _ _ _ _ Hb) by done. cbn [obind]. rewrite wr_Ok by nia. eexists. split; [done|]. split_and!.
        * by rewrite insert_length.
        * intros i k Hi' Hk Hn. rewrite list_lookup_insert_ne; [by apply G2|]. intros Eq. apply pos_inj in Eq; lia.
        * intros k Hk. destruct (decide (k = c * hw + j)) as [->|Hn].
          -- rewrite list_lookup_insert by nia. rewrite decide_True by lia. do 3 f_equal. rewrite Nat.add_comm, Nat.div_add by lia. by rewrite Nat.div_small.
          -- rewrite list_lookup_insert_ne by (intros Eq; apply pos_inj in Eq; lia). rewrite G3 by done. destruct (decide (k < c * hw + j)).
             ++ by rewrite decide_True by lia.
             ++ by rewrite decide_False by lia.
      + intros c s' Hc (G1 & G2 & G3). split_and!; [done|done|]. intros k Hk. rewrite G3 by done. by replace ((1 + c) * hw + 0) with (c * hw + hw) by lia.
      + exists s'. split; [exact E|]. split_and!; [done| |].
        * intros i k Hi' Hk Hlt. destruct (decide (i = r)) as [->|Hn]; [|rewrite G2 by done; apply H2; lia]. rewrite G3 by done. by rewrite Nat.add_0_r.
        * intros i k Hi' Hk Hle. rewrite G2 by lia. apply H3; lia.
    - exists res. split_and!; [exact E|done|]. intros i k Hi' Hk. apply H2; done.
  Qed.
  (** No bias: division by zero *)
  Theorem C91_bias_empty_refuted inp bias : m_rows bias = 0 -> bias_add f0 fadd inp bias = UB.
  Proof. intros H. unfold bias_add. by rewrite H. Qed.

  (** * Batch normalization, inference.  FAILS: what is used for image [i] is the mean, variance, gamma and beta of channel [i]. *)
  Definition bn (g be mu v eps x : F) : F := g ⊗ ((x ⊖ mu) ⊘ fsqrt (v ⊕ eps)) ⊕ be.
  Theorem C91_test_rows_refuted inp gamma beta mean var eps n size x g be mu v : packed inp n size x ->
    is_vec gamma n g -> is_vec beta n be -> is_vec mean n mu -> is_vec var n v -> (Z.of_nat (n * size) <= 2147483648)%Z ->
    exists res, bn_test f0 fadd fmul fsub fdiv fsqrt inp gamma beta mean var eps = Ok res /\ length res = n * size /\
      forall i j, i < n -> j < size -> res !! (i * size + j) = Some (bn (g i) (be i) (mu i) (v i) eps (x i j)).
  Proof.
    intros Hi Hg Hbe Hm Hv L. pose proof Hi as [(Er & Ec & _) _]. unfold bn_test. rewrite Er, Ec.
    destruct (for2_tabulate n size (fun i j b => let* off := int_idx (i * size + j) in let* x := vals inp off in let* mu := vals mean i in let* v := vals var i in
      let x_hat := (x ⊖ mu) ⊘ fsqrt (v ⊕ eps) in let* g := vals gamma i in let* be := vals beta i in wr b off (g ⊗ x_hat ⊕ be))
      (fun i j => bn (g i) (be i) (mu i) (v i) eps (x i j)) (replicate (n * size) f0)) as (res & E & Hl & H).
    - by rewrite replicate_length.
    - intros i j b Hi' Hj _. rewrite int_idx_ok by nia. cbn [obind]. rewrite (vals_packed _ _ _ _ _ _ Hi) by done. cbn [obind].
      rewrite (vals_vec _ _ _ _ Hm), (vals_vec _ _ _ _ Hv) by done. cbn [obind]. by rewrite (vals_vec _ _ _ _ Hg), (vals_vec _ _ _ _ Hbe).
    - exists res. split; [exact E|]. split; [rewrite Hl; done|]. intros i j Hi' Hj. by apply H.
  Qed.
  (** More images than channels: the memory of the means is left. *)
  Theorem C91_test_images_refuted inp gamma beta mean var eps n size C : m_rows inp = n -> m_cols inp = size -> 0 < size ->
    length (m_buf mean) = m_off mean + C -> C < n -> forall res, bn_test f0 fadd fmul fsub fdiv fsqrt inp gamma beta mean var eps <> Ok res.
  Proof.
    intros Er Ec Hs Hl HC res E. unfold bn_test in E. rewrite Er, Ec in E. destruct (for2_Ok_all _ _ _ _ _ E C 0 HC Hs) as (t & u & E1).
    destruct (int_idx (C * size + 0)) as [off| |]; try done. cbn [obind] in E1. destruct (vals inp off); try done. cbn [obind] in E1.
    unfold vals at 1, rd in E1. by rewrite lookup_ge_None_2 in E1 by lia.
  Qed.
  (** More than 2^31 cells: the position does not fit into an int. *)
  Theorem C91_test_large_refuted inp gamma beta mean var eps : (2147483648 < Z.of_nat (m_rows inp * m_cols inp))%Z ->
    forall res, bn_test f0 fadd fmul fsub fdiv fsqrt inp gamma beta mean var eps <> Ok res.
  Proof.
    intros L res E. unfold bn_test in E. assert (0 < m_rows inp /\ 0 < m_cols inp) as [H1 H2] by nia.
    destruct (for2_Ok_all _ _ _ _ _ E (m_rows inp - 1) (m_cols inp - 1)) as (t & u & E1); [lia|lia|].
    unfold int_idx in E1. rewrite decide_False in E1; [done|]. nia.
  Qed.

  (** * Batch normalization, training *)
  Definition chan_mean (n hw c : nat) (x : nat -> nat -> F) : F := chan_sum n hw c x ⊘ of_nat (n * hw).
  Definition chan_var (n hw c : nat) (x : nat -> nat -> F) : F :=
    chan_mean n hw c (fun i k => (x i k ⊖ chan_mean n hw c x) ⊗ (x i k ⊖ chan_mean n hw c x)).
  Lemma sum_div n hw c x a : chan_sum n hw c (fun i k => x i k ⊘ a) = chan_sum n hw c x ⊘ a.
  Proof.
    rewrite (Fdiv_def Hf (chan_sum n hw c x)). transitivity (finv a ⊗ chan_sum n hw c x); [|ring]. rewrite <- chan_scale. apply chan_ext. intros i j _ _.
    rewrite (Fdiv_def Hf). ring.
  Qed.
  (** Each cell is normalized with the mean and variance of its channel over all images; the running mean and variance move by [mu] towards them.
      The vectors are the first rows of matrices of C x C. *)
  Theorem C91_train inp gamma beta ema_mean ema_var eps mu n chw C x g be em ev : packed inp n chw x -> m_rows gamma = C -> 0 < C ->
    is_vec gamma C g -> is_vec beta C be -> is_vec ema_mean C em -> is_vec ema_var C ev -> (Z.of_nat (n * chw) <= 2147483648)%Z ->
    let hw := chw / C in
    exists t, bn_train f0 f1 fadd fmul fsub fdiv fsqrt of_nat inp gamma beta ema_mean ema_var eps mu = Ok t /\
      length (t_res t) = n * chw /\
      (forall i k, i < n -> k < C * hw -> t_res t !! (i * chw + k) =
        Some (bn (g (k / hw)) (be (k / hw)) (chan_mean n hw (k / hw) x) (chan_var n hw (k / hw) x) eps (x i k))) /\
      (forall i k, i < n -> C * hw <= k < chw -> t_res t !! (i * chw + k) = Some f0) /\
      (forall c, c < C -> t_mean t !! c = Some (chan_mean n hw c x) /\ t_inv t !! c = Some (f1 ⊘ fsqrt (chan_var n hw c x ⊕ eps)) /\
        t_ema_mean t !! c = Some ((f1 ⊖ mu) ⊗ em c ⊕ mu ⊗ chan_mean n hw c x) /\
        t_ema_var t !! c = Some ((f1 ⊖ mu) ⊗ ev c ⊕ mu ⊗ chan_var n hw c x)) /\
      (forall k, C <= k < C * C -> t_mean t !! k = Some f0 /\ t_inv t !! k = Some f0 /\ t_ema_mean t !! k = Some f0 /\ t_ema_var t !! k = Some f0).
  Proof.
    intros Hi HC Cpos Hg Hbe Hem Hev L hw. pose proof Hi as [(Er & Ec & _) _]. unfold bn_train. rewrite Er, Ec, HC. unfold chan_size.
    rewrite decide_False by lia. cbn [obind]. fold hw. assert (Hhw : C * hw <= chw) by (apply Nat.mul_div_le; lia).
    set (vec := fun (l : list F) r (y : nat -> F) => length l = C * C /\ (forall c, c < r -> l !! c = Some (y c)) /\ (forall k, r <= k < C * C -> l !! k = Some f0)).
    assert (Hvec : forall l r y, vec l r y -> r < C -> exists l', wr l r (y r) = Ok l' /\ vec l' (1 + r) y).
    { intros l r y (V1 & V2 & V3) Hr. rewrite wr_Ok by nia. eexists. split; [done|]. unfold vec. split_and!; [by rewrite insert_length| |].
      - intros c Hc. destruct (decide (c = r)) as [->|]; [apply list_lookup_insert; nia|]. rewrite list_lookup_insert_ne by done. apply V2. lia.
      - intros k Hk. rewrite list_lookup_insert_ne by lia. apply V3. lia. }
    assert (Hz : forall y, vec (replicate (C * C) f0) 0 y).
    { intros y. unfold vec. split_and!; [by rewrite replicate_length|lia|]. intros k Hk. apply lookup_replicate. split; [done|lia]. }
    set (Y := fun k i => bn (g (k / hw)) (be (k / hw)) (chan_mean n hw (k / hw) x) (chan_var n hw (k / hw) x) eps (x i k)).
    match goal with |- context [for_up 0 C ?f ?s] => destruct (for_up_inv (fun r t => length (t_res t) = n * chw /\
      (forall i k, i < n -> k < r * hw -> t_res t !! (i * chw + k) = Some (Y k i)) /\
      (forall i k, i < n -> r * hw <= k < chw -> t_res t !! (i * chw + k) = Some f0) /\
      vec (t_mean t) r (fun c => chan_mean n hw c x) /\ vec (t_inv t) r (fun c => f1 ⊘ fsqrt (chan_var n hw c x ⊕ eps)) /\
      vec (t_ema_mean t) r (fun c => (f1 ⊖ mu) ⊗ em c ⊕ mu ⊗ chan_mean n hw c x) /\
      vec (t_ema_var t) r (fun c => (f1 ⊖ mu) ⊗ ev c ⊕ mu ⊗ chan_var n hw c x)) 0 C f s) as (t & E & H1 & H2 & H3 & V1 & V2 & V3 & V4) end.
    - lia.
    - cbn. split_and!; try apply Hz; [by rewrite replicate_length|lia|]. intros i k Hi' Hk. apply lookup_replicate. split; [done|nia].
    - intros c t [_ Hc] (H1 & H2 & H3 & V1 & V2 & V3 & V4).
      assert (Hx : forall i j, i < n -> j < hw -> (let* off := int_idx (i * chw + c * hw + j) in vals inp off) = Ok (x i (c * hw + j)) /\
        int_idx (i * chw + c * hw + j) = Ok (i * chw + c * hw + j)).
      { intros i j Hi' Hj. assert (c * hw + j < chw) by nia. rewrite int_idx_ok by nia. split; [|done]. cbn [obind]. rewrite <- Nat.add_assoc. by apply (vals_packed _ _ _ _ _ _ Hi). }
      assert (Hx' : forall i j, i < n -> j < hw -> vals inp (i * chw + c * hw + j) = Ok (x i (c * hw + j))).
      { intros i j Hi' Hj. destruct (Hx i j Hi' Hj) as [A B]. rewrite B in A. exact A. }
      rewrite (for2_sum n hw _ (fun i j => x i (c * hw + j) ⊘ of_nat (n * hw))).
      2: { intros i j s Hi' Hj. rewrite (proj2 (Hx i j Hi' Hj)). cbn [obind]. by rewrite Hx'. }
      cbn [obind]. change (Σ n (fun i => Σ hw (fun j => x i (c * hw + j) ⊘ of_nat (n * hw)))) with (chan_sum n hw c (fun i k => x i k ⊘ of_nat (n * hw))).
      rewrite sum_div. fold (chan_mean n hw c x).
      rewrite (for2_sum n hw _ (fun i j => ((x i (c * hw + j) ⊖ chan_mean n hw c x) ⊗ (x i (c * hw + j) ⊖ chan_mean n hw c x)) ⊘ of_nat (n * hw))).
      2: { intros i j s Hi' Hj. rewrite (proj2 (Hx i j Hi' Hj)). cbn [obind]. by rewrite Hx'. }
      cbn [obind].
      change (Σ n (fun i => Σ hw (fun j => ((x i (c * hw + j) ⊖ chan_mean n hw c x) ⊗ (x i (c * hw + j) ⊖ chan_mean n hw c x)) ⊘ of_nat (n * hw)))) with
        (chan_sum n hw c (fun i k => ((x i k ⊖ chan_mean n hw c x) ⊗ (x i k ⊖ chan_mean n hw c x)) ⊘ of_nat (n * hw))).
      rewrite sum_div. fold (chan_mean n hw c (fun i k => (x i k ⊖ chan_mean n hw c x) ⊗ (x i k ⊖ chan_mean n hw c x))). fold (chan_var n hw c x).
      destruct (Hvec _ _ _ V1 Hc) as (l1 & E1 & W1). rewrite E1. cbn [obind]. destruct (Hvec _ _ _ V2 Hc) as (l2 & E2 & W2). rewrite E2. cbn [obind].
      rewrite (vals_vec _ _ _ _ Hem) by done. cbn [obind]. destruct (Hvec _ _ _ V3 Hc) as (l3 & E3 & W3). rewrite E3. cbn [obind].
      rewrite (vals_vec _ _ _ _ Hev) by done. cbn [obind]. destruct (Hvec _ _ _ V4 Hc) as (l4 & E4 & W4). rewrite E4. cbn [obind].
      match goal with |- context [for2 n hw ?f (t_res t)] =>
        destruct (channel_write n hw chw c f (fun i j => bn (g c) (be c) (chan_mean n hw c x) (chan_var n hw c x) eps (x i (c * hw + j))) (t_res t))
          as (b' & E5 & B1 & B2 & B3) end; [done|nia| |].
      { intros i j b Hi' Hj _. rewrite (proj2 (Hx i j Hi' Hj)). cbn [obind]. rewrite Hx' by done. cbn [obind].
        by rewrite (vals_vec _ _ _ _ Hg), (vals_vec _ _ _ _ Hbe). }
      rewrite E5. cbn [obind]. eexists. split; [done|]. cbn [t_res t_mean t_inv t_ema_mean t_ema_var]. split_and!; try done.
      + intros i k Hi' Hk. destruct (decide (k < c * hw)) as [Hlt|Hge].
        * rewrite B3 by nia. by apply H2.
        * replace k with (c * hw + (k - c * hw)) at 1 by lia. rewrite B2 by nia. unfold Y. assert (k / hw = c) as ->.
          { symmetry. apply (Nat.div_unique k hw c (k - c * hw)); nia. }
          by replace (c * hw + (k - c * hw)) with k by lia.
      + intros i k Hi' Hk. rewrite B3 by nia. apply H3; [done|nia].
    - rewrite E. exists t. split_and!; try done.
      + intros c Hc. split_and!; [by apply V1|by apply V2|by apply V3|by apply V4].
      + intros k Hk. split_and!; [by apply V1|by apply V2|by apply V3|by apply V4].
  Qed.

  (** * Batch normalization, gradients *)
  (** The textbook formulas: with y = (x - mean) * invvar, d(beta) = sum of dout, d(gamma) = sum of dout * y,
      dx = gamma * invvar * (dout - average of dout - y * average of dout * y). *)
  Theorem C91_back mean invvar inp dout gamma n chw C x d mu iv g : packed inp n chw x -> packed dout n chw d -> m_rows gamma = C -> 0 < C ->
    is_vec gamma C g -> is_vec mean C mu -> is_vec invvar C iv -> (Z.of_nat (n * chw) <= 2147483648)%Z ->
    let hw := chw / C in
    f1 ⊕ f1 <> f0 -> of_nat (n * hw) <> f0 -> (forall c, c < C -> chan_sum n hw c (fun i k => x i k ⊖ mu c) = f0) ->
    let y c i k := (x i k ⊖ mu c) ⊗ iv c in
    exists t, bn_back f0 f1 fadd fmul fsub fdiv fopp of_nat mean invvar inp dout gamma = Ok t /\
      (forall c, c < C -> b_beta t !! c = Some (chan_sum n hw c d) /\ b_gamma t !! c = Some (chan_sum n hw c (fun i k => d i k ⊗ y c i k))) /\
      (forall i k, i < n -> k < C * hw -> let c := k / hw in b_x t !! (i * chw + k) =
        Some (g c ⊗ iv c ⊗ (d i k ⊖ chan_mean n hw c d ⊖ y c i k ⊗ chan_mean n hw c (fun i k => d i k ⊗ y c i k)))) /\
      (forall i k, i < n -> C * hw <= k < chw -> b_x t !! (i * chw + k) = Some f0).
  Proof.
    intros Hi Hd HC Cpos Hg Hm Hv L hw H2' Hm0 Hzero y. pose proof Hi as [(Er & Ec & _) _]. unfold bn_back. rewrite Er, Ec, HC. unfold chan_size.
    rewrite decide_False by lia. cbn [obind]. fold hw. assert (Hhw : C * hw <= chw) by (apply Nat.mul_div_le; lia). rewrite Nat.mul_1_r.
    set (vec := fun (l : list F) r (y : nat -> F) => length l = C /\ (forall c, c < r -> l !! c = Some (y c))).
    assert (Hvec : forall l r y, vec l r y -> r < C -> exists l', wr l r (y r) = Ok l' /\ vec l' (1 + r) y).
    { intros l r y0 (V1 & V2) Hr. rewrite wr_Ok by nia. eexists. split; [done|]. unfold vec. split_and!; [by rewrite insert_length|].
      intros c Hc. destruct (decide (c = r)) as [->|]; [apply list_lookup_insert; nia|]. rewrite list_lookup_insert_ne by done. apply V2. lia. }
    set (Y := fun k i => let c := k / hw in g c ⊗ iv c ⊗ (d i k ⊖ chan_mean n hw c d ⊖ y c i k ⊗ chan_mean n hw c (fun i k => d i k ⊗ y c i k))).
    match goal with |- context [for_up 0 C ?f ?s] => destruct (for_up_inv (fun r t => length (b_x t) = n * chw /\
      (forall i k, i < n -> k < r * hw -> b_x t !! (i * chw + k) = Some (Y k i)) /\
      (forall i k, i < n -> r * hw <= k < chw -> b_x t !! (i * chw + k) = Some f0) /\
      vec (b_beta t) r (fun c => chan_sum n hw c d) /\ vec (b_gamma t) r (fun c => chan_sum n hw c (fun i k => d i k ⊗ y c i k))) 0 C f s)
      as (t & E & H1 & H2 & H3 & V1 & V2) end.
    - lia.
    - cbn. unfold vec. split_and!; rewrite ?replicate_length; try done; try lia. intros i k Hi' Hk. apply lookup_replicate. split; [done|nia].
    - intros c t [_ Hc] (H1 & H2 & H3 & V1 & V2).
      assert (Hx : forall i j, i < n -> j < hw -> int_idx (i * chw + c * hw + j) = Ok (i * chw + c * hw + j) /\
        vals inp (i * chw + c * hw + j) = Ok (x i (c * hw + j)) /\ vals dout (i * chw + c * hw + j) = Ok (d i (c * hw + j))).
      { intros i j Hi' Hj. assert (c * hw + j < chw) by nia. rewrite int_idx_ok by nia. rewrite <- Nat.add_assoc.
        split_and!; [done|by apply (vals_packed _ _ _ _ _ _ Hi)|by apply (vals_packed _ _ _ _ _ _ Hd)]. }
      set (half := f1 ⊘ (f1 ⊕ f1)). set (M := of_nat (n * hw)). set (c2m := (f1 ⊕ f1) ⊘ M).
      pose proof (vals_vec _ _ _ _ Hm Hc) as Rm. pose proof (vals_vec _ _ _ _ Hv Hc) as Rv. pose proof (vals_vec _ _ _ _ Hg Hc) as Rg.
      rewrite (for2_sum3 n hw _ (fun i j => d i (c * hw + j)) (fun i j => d i (c * hw + j) ⊗ (x i (c * hw + j) ⊖ mu c) ⊗ iv c)
        (fun i j => d i (c * hw + j) ⊗ g c ⊗ (x i (c * hw + j) ⊖ mu c) ⊗ half ⊗ (iv c ⊗ iv c ⊗ iv c))).
      2: { intros i j s Hi' Hj. destruct (Hx i j Hi' Hj) as (A1 & A2 & A3). rewrite A1. cbn [obind]. rewrite A3. cbn [obind]. rewrite A2. cbn [obind].
           rewrite Rm. cbn [obind]. rewrite Rv. cbn [obind]. by rewrite Rg. }
      cbn [obind fst snd].
      set (S2 := chan_sum n hw c (fun i k => d i k ⊗ (x i k ⊖ mu c))).
      assert (Es2 : Σ n (fun i => Σ hw (fun j => d i (c * hw + j) ⊗ (x i (c * hw + j) ⊖ mu c) ⊗ iv c)) = chan_sum n hw c (fun i k => d i k ⊗ y c i k)).
      { apply (chan_ext n hw c (fun i k => d i k ⊗ (x i k ⊖ mu c) ⊗ iv c)). intros i j _ _. unfold y. ring. }
      assert (Es3 : Σ n (fun i => Σ hw (fun j => d i (c * hw + j) ⊗ g c ⊗ (x i (c * hw + j) ⊖ mu c) ⊗ half ⊗ (iv c ⊗ iv c ⊗ iv c))) =
        g c ⊗ half ⊗ (iv c ⊗ iv c ⊗ iv c) ⊗ S2).
      { unfold S2. rewrite <- chan_scale.
        apply (chan_ext n hw c (fun i k => d i k ⊗ g c ⊗ (x i k ⊖ mu c) ⊗ half ⊗ (iv c ⊗ iv c ⊗ iv c))). intros i j _ _. ring. }
      assert (Ey2 : chan_sum n hw c (fun i k => d i k ⊗ y c i k) = iv c ⊗ S2).
      { unfold S2. rewrite <- chan_scale. apply chan_ext. intros i j _ _. unfold y. ring. }
      rewrite Es2, Es3. set (dvar := fopp (g c ⊗ half ⊗ (iv c ⊗ iv c ⊗ iv c) ⊗ S2)).
      change (Σ n (fun i => Σ hw (fun j => d i (c * hw + j)))) with (chan_sum n hw c d).
      destruct (Hvec _ _ _ V1 Hc) as (l1 & E1 & W1). cbn beta in E1. rewrite E1. cbn [obind].
      destruct (Hvec _ _ _ V2 Hc) as (l2 & E2 & W2). cbn beta in E2. rewrite E2. cbn [obind].
      rewrite (for2_sum n hw _ (fun i j => d i (c * hw + j) ⊗ g c ⊗ fopp (iv c) ⊕ dvar ⊗ fopp c2m ⊗ (x i (c * hw + j) ⊖ mu c))).
      2: { intros i j s Hi' Hj. destruct (Hx i j Hi' Hj) as (A1 & A2 & A3). rewrite A1. cbn [obind]. rewrite A3. cbn [obind]. rewrite A2. cbn [obind].
           rewrite Rm. cbn [obind]. rewrite Rv. cbn [obind]. by rewrite Rg. }
      cbn [obind].
      assert (Ed : Σ n (fun i => Σ hw (fun j => d i (c * hw + j) ⊗ g c ⊗ fopp (iv c) ⊕ dvar ⊗ fopp c2m ⊗ (x i (c * hw + j) ⊖ mu c))) =
        fopp (g c ⊗ iv c ⊗ chan_sum n hw c d)).
      { transitivity (chan_sum n hw c (fun i k => (fopp (g c ⊗ iv c)) ⊗ d i k ⊕ (dvar ⊗ fopp c2m) ⊗ (x i k ⊖ mu c))).
        - apply (chan_ext n hw c (fun i k => d i k ⊗ g c ⊗ fopp (iv c) ⊕ dvar ⊗ fopp c2m ⊗ (x i k ⊖ mu c))). intros i j _ _. ring.
        - rewrite chan_add, !chan_scale, Hzero by done. ring. }
      rewrite Ed.
      match goal with |- context [for2 n hw ?f (b_x t)] =>
        destruct (channel_write n hw chw c f (fun i j => d i (c * hw + j) ⊗ g c ⊗ iv c ⊕ dvar ⊗ c2m ⊗ (x i (c * hw + j) ⊖ mu c) ⊕
          fopp (g c ⊗ iv c ⊗ chan_sum n hw c d) ⊘ M) (b_x t)) as (b' & E5 & B1 & B2 & B3) end; [done|nia| |].
      { intros i j b Hi' Hj _. destruct (Hx i j Hi' Hj) as (A1 & A2 & A3). rewrite A1. cbn [obind]. rewrite A3. cbn [obind]. rewrite A2. cbn [obind].
        rewrite Rm. cbn [obind]. rewrite Rv. cbn [obind]. by rewrite Rg. }
      rewrite E5. cbn [obind]. eexists. split; [done|]. cbn [b_x b_gamma b_beta]. split_and!; try done.
      + intros i k Hi' Hk. destruct (decide (k < c * hw)) as [Hlt|Hge].
        * rewrite B3 by nia. by apply H2.
        * replace k with (c * hw + (k - c * hw)) at 1 by lia. rewrite B2 by nia. unfold Y. assert (k / hw = c) as ->.
          { symmetry. apply (Nat.div_unique k hw c (k - c * hw)); nia. }
          replace (c * hw + (k - c * hw)) with k by lia. cbv zeta. f_equal. unfold chan_mean. rewrite Ey2. fold M. unfold y, dvar, c2m, half. field. done.
      + intros i k Hi' Hk. rewrite B3 by nia. apply H3; [done|nia].
    - rewrite E. exists t. split_and!; try done. intros c Hc. split; [by apply V1|by apply V2].
  Qed.

  (** * Softmax *)
  Section Softmax.
    Context {A : Type} (a0 : A) (asub : A -> A -> A) (ale : A -> A -> Prop) `{!RelDecision ale} (e : A -> F).
    Definition fsum (l : list F) : F := foldr fadd f0 l.
    (** The exponential function turns differences into quotients. *)
    Definition exponential : Prop := (forall a b, e (asub a b) ⊗ e b = e a) /\ (forall a, e a <> f0).
    Lemma foldl_fsum l : forall s, foldl fadd s l = s ⊕ fsum l.
    Proof. unfold fsum. induction l as [|a l IH]; intros s; cbn; [ring|]. rewrite IH. ring. Qed.
    Lemma fsum_scale a l : fsum (map (fmul a) l) = a ⊗ fsum l.
    Proof. unfold fsum. induction l as [|b l IH]; cbn; [ring|]. rewrite IH. ring. Qed.
    Lemma shifted m xs : exponential -> map (fun x => e (asub x m)) xs = map (fmul (finv (e m))) (map e xs).
    Proof.
      intros [He Hn]. rewrite map_map. apply map_ext. intros x. rewrite <- (He x m). field. apply Hn.
    Qed.
    Lemma normalized m xs : exponential -> fsum (map e xs) <> f0 ->
      map (fun v => v ⊗ (f1 ⊘ fsum (map (fun x => e (asub x m)) xs))) (map (fun x => e (asub x m)) xs) = map (fun x => e x ⊘ fsum (map e xs)) xs.
    Proof.
      intros He Hs. rewrite (shifted m xs He), fsum_scale, !map_map. apply map_ext. intros x. field.
      split; [exact Hs|]. apply He.
    Qed.
    (** Each cell becomes its share in the sum of the exponentials of its row. *)
    Theorem C91_softmax xs : exponential -> xs <> [] -> fsum (map e xs) <> f0 ->
      softmax_row f0 f1 fadd fmul fdiv asub ale e xs = Ok (map (fun x => e x ⊘ fsum (map e xs)) xs).
    Proof.
      intros He Hx Hs. unfold softmax_row, row_max. destruct xs as [|x xs]; [done|]. cbn [obind]. rewrite foldl_fsum.
      replace (f0 ⊕ fsum _) with (fsum (map (fun y => e (asub y (foldl (amax ale) x xs))) (x :: xs))) by ring. f_equal. by apply normalized.
    Qed.
    (** A matrix without columns: the first value of a row is read nevertheless. *)
    Theorem C91_softmax_empty_refuted : softmax_row f0 f1 fadd fmul fdiv asub ale e [] = UB.
    Proof. done. Qed.
    (** Numerical stability: no exponential of a positive number is taken; what is subtracted is the greatest number of the row. *)
    Context (ale_total : forall a b, ale a b \/ ale b a) (ale_trans : forall a b c, ale a b -> ale b c -> ale a c).
    Lemma amax_ge a b : ale a (amax ale a b) /\ ale b (amax ale a b) /\ (amax ale a b = a \/ amax ale a b = b).
    Proof using ale_total.
      assert (R : forall c, ale c c) by (intros c; destruct (ale_total c c) as [H|H]; exact H). unfold amax. destruct (decide (ale b a)) as [H|H].
      - split; [apply R|]. split; [exact H|]. left. reflexivity.
      - split; [|split; [apply R|right; reflexivity]]. destruct (ale_total a b) as [H'|H']; [exact H'|destruct (H H')].
    Qed.
    Lemma foldl_max {B} (p : B -> A) l : forall m, let r := foldl (fun m b => amax ale m (p b)) m l in
      ale m r /\ Forall (fun b => ale (p b) r) l /\ (r = m \/ r ∈ map p l).
    Proof using ale_total ale_trans.
      induction l as [|b l IH]; intros m; cbn.
      - split; [destruct (ale_total m m) as [H|H]; exact H|]. split; [constructor|left; reflexivity].
      - destruct (IH (amax ale m (p b))) as (H1 & H2 & H3). destruct (amax_ge m (p b)) as (G1 & G2 & G3). split_and!.
        + by eapply ale_trans.
        + constructor; [by eapply ale_trans|done].
        + destruct H3 as [->|H3]; [|right; by right]. destruct G3 as [->| ->]; [by left|right; left].
    Qed.
    Theorem C91_softmax_max xs m : row_max ale xs = Ok m -> m ∈ xs /\ Forall (fun x => ale x m) xs.
    Proof using ale_total ale_trans.
      unfold row_max. destruct xs as [|x xs]; [done|]. intros [= <-]. destruct (foldl_max id xs x) as (H1 & H2 & H3). cbn in H1, H2, H3.
      split; [|by constructor]. rewrite map_id in H3. destruct H3 as [E|H3]; [|by right]. rewrite E at 1. left.
    Qed.

    (** A row of a sparse matrix: [row] lists columns below [n], no one twice, with their values. *)
    Definition dense_row (n : nat) (row : list (nat * A)) : list A :=
      map (fun c => match list_find (fun cv => fst cv = c) row with Some (_, cv) => snd cv | None => a0 end) (seq 0 n).
    Lemma fsum_insert l : forall i v w, l !! i = Some w -> fsum (<[i := v]> l) = fsum l ⊕ (v ⊖ w).
    Proof.
      unfold fsum. induction l as [|a l IH]; intros [|i] v w E; try done; cbn in E.
      - injection E as ->. cbn. ring.
      - cbn. rewrite (IH _ _ _ E). ring.
    Qed.
    Context (of_nat_0 : of_nat 0 = f0) (of_nat_S : forall n, of_nat (S n) = f1 ⊕ of_nat n).
    Lemma fsum_replicate n z : fsum (replicate n z) = z ⊗ of_nat n.
    Proof. unfold fsum. induction n as [|n IH]; cbn; [rewrite of_nat_0; ring|]. rewrite IH, of_nat_S. ring. Qed.
    Lemma find_snoc c row cv : list_find (fun cv : nat * A => fst cv = c) (row ++ [cv]) =
      match list_find (fun cv => fst cv = c) row with Some r => Some r | None => if decide (fst cv = c) then Some (length row, cv) else None end.
    Proof.
      destruct (list_find (fun cv => fst cv = c) row) as [r|] eqn:E.
      - destruct r as [i r]. by apply list_find_app_l.
      - rewrite list_find_app_r by done. cbn -[decide]. case_decide; cbn; [|done]. by rewrite ?Nat.add_0_r, ?Nat.add_0_l.
    Qed.
    Lemma map_const_seq n : forall lo (z : F), map (fun _ => z) (seq lo n) = replicate n z.
    Proof. induction n as [|n IH]; intros lo z; cbn; [done|]. by rewrite IH. Qed.
    (** The same result as for the dense row *)
    Theorem C91_softmax_sparse n row : exponential -> NoDup (map fst row) -> Forall (fun cv => fst cv < n) row -> fsum (map e (dense_row n row)) <> f0 ->
      softmax_sparse_row f1 fadd fmul fsub fdiv of_nat a0 asub ale e n row = Ok (map (fun x => e x ⊘ fsum (map e (dense_row n row))) (dense_row n row)).
    Proof.
      intros He Hd Hn Hs. unfold softmax_sparse_row. set (m := sparse_max a0 ale n row). set (z := e (asub a0 m)). set (E := fun x => e (asub x m)).
      match goal with |- context [forn (length row) 0 ?f ?s0] => destruct (forn_inv (fun i s => s = (map E (dense_row n (take i row)), fsum (map E (dense_row n (take i row)))))
        (length row) 0 f s0) as (s & Es & ->) end.
      - rewrite take_0. assert (map E (dense_row n []) = replicate n z) as ->.
        { unfold dense_row. cbn [list_find]. rewrite map_map. apply (map_const_seq n 0 z). }
        by rewrite fsum_replicate.
      - intros i s Hi ->. destruct (lookup_lt_is_Some_2 row i) as [[c v] Ec]; [lia|]. rewrite (rd_Ok _ _ _ Ec). cbn [obind fst snd].
        assert (Hc : c < n) by (rewrite Forall_lookup in Hn; by apply (Hn i (c, v))).
        assert (Hnew : list_find (fun cv : nat * A => fst cv = c) (take i row) = None).
        { apply list_find_None. apply Forall_forall. intros [c' v'] (j & Ej)%elem_of_list_lookup. cbn. intros ->. apply lookup_take_Some in Ej as [Ej Hj].
          assert (i = j); [|lia]. eapply NoDup_lookup; [exact Hd| |]; rewrite list_lookup_fmap; [by rewrite Ec|by rewrite Ej]. }
        assert (Hold : map E (dense_row n (take i row)) !! c = Some z).
        { unfold dense_row. rewrite !list_lookup_fmap, lookup_seq_lt by done. cbn [fmap option_fmap option_map Nat.add]. by rewrite Hnew. }
        rewrite wr_Ok by (by eapply lookup_lt_Some). cbn [obind].
        assert (Enew : <[c := E v]> (map E (dense_row n (take i row))) = map E (dense_row n (take (1 + i) row))).
        { apply list_eq. intros k. cbn [Nat.add]. rewrite (take_S_r _ _ _ Ec). unfold dense_row. destruct (decide (k < n)) as [Hk|Hk].
          - destruct (decide (k = c)) as [->|Hne].
            + rewrite list_lookup_insert by (by rewrite !map_length, seq_length). rewrite !list_lookup_fmap, lookup_seq_lt by done. cbn [fmap option_fmap option_map Nat.add].
              rewrite find_snoc, Hnew. cbn [fst]. by rewrite decide_True.
            + rewrite list_lookup_insert_ne by done. rewrite !list_lookup_fmap, lookup_seq_lt by done. cbn [fmap option_fmap option_map Nat.add].
              rewrite find_snoc. cbn [fst]. rewrite decide_False by done. repeat case_match; congruence.
          - rewrite !lookup_ge_None_2; [done|..]; rewrite ?insert_length, !map_length, seq_length; lia. }
        eexists. split; [done|]. rewrite <- Enew. f_equal. by rewrite (fsum_insert _ _ _ _ Hold).
      - rewrite Es. cbn [obind fst snd]. f_equal. cbn [Nat.add]. rewrite firstn_all. by apply normalized.
    Qed.
    (** Numerical stability, if no value is left out: the greatest number of the row (zeros included) is subtracted. *)
    Theorem C91_softmax_sparse_max n row :
      Forall (fun cv => ale (snd cv) (sparse_max a0 ale n row)) row /\ (length row < n -> ale a0 (sparse_max a0 ale n row)) /\
      (sparse_max a0 ale n row = a0 \/ sparse_max a0 ale n row ∈ map snd row).
    Proof using ale_total ale_trans.
      unfold sparse_max. destruct row as [|[c v] row]; cbn [drop foldl map length].
      - split_and!; [constructor| |].
        + intros H. rewrite decide_True by done. apply amax_ge.
        + left. case_decide; [|done]. destruct (amax_ge a0 a0) as (_ & _ & [?|?]); done.
      - assert (Hq : forall q, q = v -> q ∈ v :: map snd row) by (intros q ->; left). case_decide as Hl.
        + destruct (foldl_max (@snd nat A) row (amax ale v a0)) as (H1 & H2 & H3). destruct (amax_ge v a0) as (G1 & G2 & G3). split_and!.
          * constructor; [|done]. cbn. by eapply ale_trans.
          * intros _. by eapply ale_trans.
          * destruct H3 as [H3|H3]; [|right; by right]. destruct G3 as [G3|G3]; [right; apply Hq|left]; (etrans; [exact H3|exact G3]).
        + destruct (foldl_max (@snd nat A) row v) as (H1 & H2 & H3). split_and!; [by constructor|lia|]. destruct H3 as [H3|H3]; [right; by apply Hq|right; by right].
    Qed.
  End Softmax.
End Layers.

(** * Instance: rational numbers; instead of exp, the powers of two of integers *)
From Coq Require Import QArith Qcanon Qpower.
Local Close Scope Q_scope.
Local Close Scope Qc_scope.
Local Open Scope nat_scope.
Definition q (z : Z) : Qc := Q2Qc (inject_Z z).
Definition qn (n : nat) : Qc := q (Z.of_nat n).
Definition pow2 (z : Z) : Qc := Q2Qc (Qpower (inject_Z 2) z).
(** A packed matrix of integers *)
Definition qmat (n m : nat) (l : list Z) : dmat Qc := mkDM (map q l) 0 n m m.
(** A view of the first [m] of [skip] columns *)
Definition qview (n m skip : nat) (l : list Z) : dmat Qc := mkDM (map q l) 0 n m skip.
Definition qcell (m : nat) (l : list Z) (i k : nat) : Qc := nth (i * m + k) (map q l) (q 0).
Lemma q_lookup l k : k < length l -> map q l !! k = Some (nth k (map q l) (q 0)).
Proof. intros H. rewrite nth_lookup. destruct (map q l !! k) eqn:E; [done|]. apply lookup_ge_None in E. rewrite map_length in E. lia. Qed.
Lemma qmat_packed n m l : length l = n * m -> packed (qmat n m l) n m (qcell m l).
Proof.
  intros H. split; [|done]. apply tabulated_is_dense. split; [by rewrite map_length|]. intros r c Hr Hc. apply q_lookup. nia.
Qed.
Lemma qmat_vec n l : length l = n -> is_vec (qmat n 1 l) n (fun c => nth c (map q l) (q 0)).
Proof. intros H c Hc. cbn. apply q_lookup. lia. Qed.
Lemma pow2_exponential : exponential (q 0) Qcmult Z.sub pow2.
Proof.
  split.
  - intros a b. unfold pow2. apply Qc_is_canon. cbn. rewrite !Qred_correct. rewrite <- Qpower_plus by done. by replace (a - b + b)%Z with a by lia.
  - intros a E. apply (f_equal this) in E. cbn in E. assert (Qpower (inject_Z 2) a == 0)%Q as H.
    { rewrite <- (Qred_correct (Qpower (inject_Z 2) a)). rewrite E. reflexivity. }
    revert H. apply Qpower_not_0. done.
Qed.
Local Notation bias' := (bias_add (q 0) Qcplus).
Local Notation test' := (bn_test (q 0) Qcplus Qcmult Qcminus Qcdiv id).
Local Notation train' := (bn_train (q 0) (q 1) Qcplus Qcmult Qcminus Qcdiv id qn).
Local Notation back' := (bn_back (q 0) (q 1) Qcplus Qcmult Qcminus Qcdiv Qcopp qn).
Definition nums (l : list Qc) : list Q := map this l.
Definition onums (o : outcome (list Qc)) : outcome (list Q) := let* l := o in Ok (nums l).

(** Five columns, two channels: the fifth cell of each row is lost. *)
Theorem C91_bias_rest_refuted : onums (bias' (qmat 2 5 [1; 2; 3; 4; 5; 6; 7; 8; 9; 10]%Z) (qmat 2 1 [10; 20]%Z)) =
  Ok (map inject_Z [11; 12; 23; 24; 0; 16; 17; 28; 29; 0]%Z).
Proof. by vm_compute. Qed.
(** A view of the first two of three columns: cells that do not belong to it are read. *)
Theorem C91_bias_view_refuted : is_dense (qview 2 2 3 [1; 2; 100; 3; 4; 100]%Z) 2 2 (qcell 3 [1; 2; 100; 3; 4; 100]%Z) /\ onums (bias' (qview 2 2 3 [1; 2; 100; 3; 4; 100]%Z) (qmat 1 1 [10]%Z)) = Ok (map inject_Z [11; 12; 110; 13]%Z).
Proof.
  split; [|by vm_compute]. unfold is_dense. cbn. split_and!; try done; [lia|right; lia|].
  intros [|[|r]] [|[|c]] Hr Hc; try lia; done.
Qed.
(** Inference, two images of two channels of one pixel: the cell of image 0 and channel 1 is normalized with the parameters of channel 0. *)
Theorem C91_test_channels_refuted : let x := [7; 7; 7; 7]%Z in let g := [1; 10]%Z in let be := [0; 5]%Z in let mu := [1; 2]%Z in let v := [1; 1]%Z in
  exists res, test' (qmat 2 2 x) (qmat 2 1 g) (qmat 2 1 be) (qmat 2 1 mu) (qmat 2 1 v) (q 0) = Ok res /\   res !! 1 = Some (bn Qcplus Qcmult Qcminus Qcdiv id (q 1) (q 0) (q 1) (q 1) (q 0) (q 7)) /\
    res !! 1 <> Some (bn Qcplus Qcmult Qcminus Qcdiv id (q 10) (q 5) (q 2) (q 1) (q 0) (q 7)).
Proof.
  cbv zeta. destruct (C91_test_rows_refuted (q 0) Qcplus Qcmult Qcminus Qcdiv id _ _ _ _ _ (q 0) 2 2 _ _ _ _ _
    (qmat_packed 2 2 [7; 7; 7; 7]%Z eq_refl) (qmat_vec 2 [1; 10]%Z eq_refl) (qmat_vec 2 [0; 5]%Z eq_refl) (qmat_vec 2 [1; 2]%Z eq_refl)
    (qmat_vec 2 [1; 1]%Z eq_refl)) as (res & E & _ & H); [done|].
  exists res. split; [exact E|]. pose proof (H 0 1) as H1. cbn [Nat.mul Nat.add] in H1. rewrite H1 by lia. split; [done|].
  intros E2. injection E2 as E2. by vm_compute in E2.
Qed.
(** Cases that meet the hypotheses of the theorems about training and gradients *)
Theorem C91_train_example : exists t, train' (qmat 2 2 [1; 10; 3; 30]%Z) (qmat 2 1 [1; 1]%Z) (qmat 2 1 [0; 0]%Z) (qmat 2 1 [0; 0]%Z) (qmat 2 1 [0; 0]%Z) (q 0) (q 1) = Ok t /\ nums (t_mean t) = map inject_Z [2; 20; 0; 0]%Z /\ nums (t_ema_var t) = map inject_Z [1; 100; 0; 0]%Z /\ nums (t_res t) = [(-1)#1; (-1)#10; 1#1; 1#10]%Q.
Proof.
  match goal with |- exists t, ?e = Ok t /\ _ => destruct e as [t| |] eqn:E; vm_compute in E; try discriminate E end.
  exists t. split; [done|]. injection E as <-. by vm_compute.
Qed.
Theorem C91_back_hypotheses : let x := [1; 10; 3; 30]%Z in
  (q 1 + q 1)%Qc <> q 0 /\ qn (2 * 1) <> q 0 /\ forall c, c < 2 -> chan_sum (q 0) Qcplus 2 1 c (fun i k => Qcminus (qcell 2 x i k) (nth c (map q [2; 20]%Z) (q 0))) = q 0.
Proof.
  cbv zeta. split_and!; [by vm_compute|by vm_compute|]. intros [|[|c]] Hc; [| |lia]; by apply Qc_is_canon; vm_compute.
Qed.
(** The maximum of three columns; exponentials of 1, 1, 0 in base 2 are 2, 2, 1. *)
Theorem C91_softmax_example : onums (softmax_row (q 0) (q 1) Qcplus Qcmult Qcdiv Z.sub Z.le pow2 [1; 1; 0]%Z) = Ok [2#5; 2#5; 1#5]%Q /\ onums (softmax_sparse_row (q 1) Qcplus Qcmult Qcminus Qcdiv qn 0%Z Z.sub Z.le pow2 3 [(0, 1%Z); (1, 1%Z)]) = Ok [2#5; 2#5; 1#5]%Q /\
    softmax_row (q 0) (q 1) Qcplus Qcmult Qcdiv Z.sub Z.le pow2 [1; 1; 0]%Z =
    Ok (map (fun x => Qcdiv (pow2 x) (fsum (q 0) Qcplus (map pow2 [1; 1; 0]%Z))) [1; 1; 0]%Z).
Proof.
  split_and!; [by vm_compute|by vm_compute|].
  apply (C91_softmax (q 0) (q 1) Qcplus Qcmult Qcminus Qcdiv Qcopp Qcinv Qcft); [apply pow2_exponential|done|by vm_compute].
Qed.
(** Overflow: numbers with None for those that are infinite or not a number, and exponentials that overflow beyond [B].  FAILS for sparse matrices:
    in a row of negative numbers without zeros, the exponential of the zeros, which are not there, overflows, and all cells become not a number. *)
Definition lift2 (f : Qc -> Qc -> Qc) (a b : option Qc) : option Qc := match a, b with Some a, Some b => Some (f a b) | _, _ => None end.
Definition pow2_ov (B : Z) (z : Z) : option Qc := if decide (z <= B)%Z then Some (pow2 z) else None.
Local Notation sparse_ov B := (softmax_sparse_row (Some (q 1)) (lift2 Qcplus) (lift2 Qcmult) (lift2 Qcminus) (lift2 Qcdiv) (fun n => Some (qn n)) 0%Z Z.sub Z.le (pow2_ov B)).
Local Notation dense_ov B := (softmax_row (Some (q 0)) (Some (q 1)) (lift2 Qcplus) (lift2 Qcmult) (lift2 Qcdiv) Z.sub Z.le (pow2_ov B)).
Lemma lift2_None_r f a : lift2 f a None = None.
Proof. by destruct a. Qed.
Theorem C91_softmax_sparse_overflow_refuted B n row : (0 <= B)%Z -> length row = n -> row <> [] -> Forall (fun cv => fst cv < n /\ (snd cv < - B)%Z) row ->
  sparse_ov B n row = Ok (replicate n None).
Proof.
  intros HB Hn Hr Hv. unfold softmax_sparse_row. set (m := sparse_max 0%Z Z.le n row).
  assert (Hm : (m < - B)%Z).
  { unfold m, sparse_max. destruct row as [|[c v] row]; [done|]. rewrite decide_False by lia. cbn [drop].
    destruct (foldl_max Z.le Z.le_ge_cases Z.le_trans (@snd nat Z) row v) as (_ & _ & H3).
    inversion Hv as [|? ? [_ H1] H2]; subst. assert (G : forall r, r = v \/ r ∈ map snd row -> (r < - B)%Z); [|apply G; exact H3].
    intros r [->|Hr']; [done|]. apply elem_of_list_fmap in Hr' as (cv & -> & Hin). rewrite Forall_forall in H2. apply (H2 _ Hin). }
  assert (Hz : pow2_ov B (0 - m) = None) by (unfold pow2_ov; rewrite decide_False by lia; done). rewrite Hz.
  match goal with |- context [forn (length row) 0 ?f ?s0] => destruct (forn_inv (fun i (s : list (option Qc) * option Qc) => length (fst s) = n /\ snd s = None)
    (length row) 0 f s0) as ([l t] & E & Hl & Ht) end.
  - cbn. by rewrite replicate_length.
  - intros i [l t] Hi [Hl Ht]. cbn in Hl, Ht. subst t. destruct (lookup_lt_is_Some_2 row i) as [[c v] Ec]; [lia|]. rewrite (rd_Ok _ _ _ Ec). cbn [obind fst snd].
    rewrite Forall_lookup in Hv. destruct (Hv _ _ Ec) as [Hc _]. cbn in Hc. rewrite wr_Ok by lia. cbn [obind]. eexists. split; [done|]. cbn. by rewrite insert_length.
  - rewrite E. cbn [obind fst snd]. cbn in Hl, Ht. rewrite Ht. f_equal. cbn [lift2]. rewrite <- Hl. clear. induction l as [|a l IH]; [done|].
    cbn. rewrite lift2_None_r. f_equal. exact IH.
Qed.
(** The same row of a dense matrix *)
Theorem C91_softmax_dense_no_overflow : sparse_ov 1000 2 [(0, (-2000)%Z); (1, (-2000)%Z)] = Ok [None; None] /\
  (let* l := dense_ov 1000 [(-2000)%Z; (-2000)%Z] in Ok (map (fmap this) l)) = Ok [Some (1#2)%Q; Some (1#2)%Q].
Proof.
  split; [|by vm_compute]. apply (C91_softmax_sparse_overflow_refuted 1000 2); [lia|done|done|]. repeat constructor; cbn; lia.
Qed.
Print Assumptions C91_bias. Print Assumptions C91_train. Print Assumptions C91_back. Print Assumptions C91_softmax.
Print Assumptions C91_softmax_sparse. Print Assumptions C91_softmax_example. Print Assumptions C91_test_channels_refuted.
Print Assumptions C91_softmax_sparse_overflow_refuted.
