(** Lemmas about contingency tables, sequences, replacing values and binning. *)
From stdpp Require Import base numbers list list_numbers.
From Coq Require Import Lia QArith.Qround QArith.QArith QArith.Qabs Lqa.
From Verif Require Import CppBase Mem EncodeModel EncodeProofs.
Local Open Scope nat_scope.

(** ** Contingency tables *)
Section ctable.
  Context {W : Type} (wzero : W) (wadd : W -> W -> W).
  Definition hits (x y : nat -> Z) (n : nat) (i j : nat) : nat :=
    length (filter (fun k => x k = Z.of_nat i /\ y k = Z.of_nat j) (seq 0 n)).
  Definition tally (w : W) (k : nat) : W := Nat.iter k (fun v => wadd v w) wzero.

  Lemma hits_S x y n i j : hits x y (S n) i j = if decide (x n = Z.of_nat i /\ y n = Z.of_nat j) then S (hits x y n i j) else hits x y n i j.
  Proof.
    unfold hits. rewrite seq_S, filter_app, app_length. cbn [Nat.add]. rewrite filter_cons. case_decide; simpl; lia.
  Qed.
  Lemma coord_Ok a n x i : is_dense a n 1 (fun k _ => x k) -> m_skip a = 1 -> i < n -> coord a i = Ok (x i).
  Proof. intros (_ & _ & _ & _ & H) Hs Hi. unfold coord. apply rd_Ok. rewrite <- (H i 0) by lia. f_equal. rewrite Hs. lia. Qed.
  Lemma max_coord_spec a n x : is_dense a n 1 (fun k _ => x k) -> m_skip a = 1 -> 0 < n ->
    exists v, max_coord a n = Ok v /\ (forall k, k < n -> (x k <= v)%Z) /\ exists k, k < n /\ x k = v.
  Proof.
    intros Ha Hs Hn. unfold max_coord. rewrite decide_False by lia. rewrite (coord_Ok a n x 0) by done. cbn [obind].
    destruct (for_up_inv (fun i v => (forall k, k < i -> (x k <= v)%Z) /\ exists k, k < n /\ x k = v) 1 n
      (fun i m => let* y := coord a i in Ok (if decide (m < y)%Z then y else m)) (x 0)) as (v & E & H1 & H2).
    - lia.
    - split; [|by exists 0]. intros k Hk. by replace k with 0 by lia.
    - intros i v Hi (H1 & k & Hk & Ek). rewrite (coord_Ok a n x i) by (done || lia). cbn [obind]. eexists. split; [done|].
      split.
      + intros k' Hk'. destruct (decide (k' = i)) as [->|]; [case_decide; lia|]. specialize (H1 k' ltac:(lia)). case_decide; lia.
      + case_decide; [by exists i; split; [lia|]|by exists k].
    - eauto.
  Qed.
  Lemma bump_spec R C b w (g : nat -> nat -> W) r c : tabulated R C g b -> r < R -> c < C ->
    exists b', bump wadd b (Z.of_nat r * Z.of_nat C + Z.of_nat c)%Z w = Ok b' /\
      tabulated R C (fun r' c' => if decide (r' = r /\ c' = c) then wadd (g r c) w else g r' c') b'.
  Proof.
    intros [Hl Hg] Hr Hc. unfold bump. rewrite decide_True by lia. replace (Z.to_nat _) with (r * C + c) by lia.
    rewrite (rd_Ok _ _ _ (Hg r c Hr Hc)). cbn [obind]. pose proof (pos_lt R C r c Hr Hc). rewrite wr_Ok by lia. eexists. split; [done|]. split; [by rewrite insert_length|].
    intros r' c' Hr' Hc'. case_decide as Hd.
    - destruct Hd as [-> ->]. apply list_lookup_insert. lia.
    - rewrite list_lookup_insert_ne; [by apply Hg|]. intros E. apply Hd. apply pos_inj in E; [|done|done]. lia.
  Qed.
  Lemma tally_loop R C n x y w (f : nat -> list W -> outcome (list W)) :
    (forall i b, i < n -> f i b = if decide (x i < Z.of_nat R /\ y i < Z.of_nat C)%Z then bump wadd b (x i * Z.of_nat C + y i)%Z w else Ok b) ->
    (forall i, i < n -> (0 <= x i /\ 0 <= y i)%Z) ->
    exists b, for_up 0 n f (replicate (R * C) wzero) = Ok b /\ tabulated R C (fun r c => tally w (hits x y n r c)) b.
  Proof.
    intros Hf Hpos.
    destruct (for_up_inv (fun i b => tabulated R C (fun r c => tally w (hits x y i r c)) b) 0 n f (replicate (R * C) wzero)) as (b & E & H).
    - lia.
    - split; [by rewrite replicate_length|]. intros r c Hr Hc. apply lookup_replicate. split; [done|]. by apply pos_lt.
    - intros i b Hi H. rewrite Hf by lia. destruct (Hpos i ltac:(lia)) as [Hx Hy]. case_decide as Hd.
      + destruct (bump_spec R C b w _ (Z.to_nat (x i)) (Z.to_nat (y i)) H) as (b' & E & Hb); [lia|lia|].
        rewrite !Z2Nat.id in E by lia. rewrite E. eexists. split; [done|]. destruct Hb as [Hl Hb]. split; [done|]. intros r c Hr Hc. rewrite Hb by done.
        rewrite hits_S. f_equal. destruct (decide (r = Z.to_nat (x i) /\ c = Z.to_nat (y i))) as [[-> ->]|Hn].
        * rewrite decide_True by lia. done.
        * rewrite decide_False by lia. done.
      + eexists. split; [done|]. destruct H as [Hl H]. split; [done|]. intros r c Hr Hc. rewrite H by done. rewrite hits_S.
        rewrite decide_False by lia. done.
    - eauto.
  Qed.

  Lemma size_spec a n x s : is_dense a n 1 (fun k _ => x k) -> m_skip a = 1 -> (forall i, i < n -> (0 <= x i)%Z) -> (0 <= s)%Z \/ 0 < n ->
    exists R : nat, (if decide (s < 0)%Z then let* v := max_coord a n in Ok (v + 1)%Z else Ok s) = Ok (Z.of_nat R) /\
      ((0 <= s)%Z -> Z.of_nat R = s) /\ ((s < 0)%Z -> (forall k, k < n -> (x k < Z.of_nat R)%Z) /\ exists k, k < n /\ (x k + 1 = Z.of_nat R)%Z).
  Proof.
    intros Ha Hs Hpos Hor. destruct (decide (s < 0)%Z) as [Hn|Hn].
    - destruct (max_coord_spec a n x Ha Hs) as (v & -> & H1 & k & Hk & Ek); [lia|]. cbn [obind].
      specialize (Hpos k Hk). exists (Z.to_nat (v + 1)). rewrite Z2Nat.id by lia. split; [done|]. split; [lia|]. intros _. split.
      + intros k' Hk'. specialize (H1 k' Hk'). lia.
      + exists k. split; [done|]. lia.
    - exists (Z.to_nat s). rewrite Z2Nat.id by lia. split; [done|]. split; [done|lia].
  Qed.

  Lemma ctable_spec lhs rhs n x y w rows cols :
    is_dense lhs n 1 (fun k _ => x k) -> is_dense rhs n 1 (fun k _ => y k) -> m_skip lhs = 1 -> m_skip rhs = 1 ->
    (forall i, i < n -> (0 <= x i /\ 0 <= y i)%Z) -> 0 < n \/ (0 <= rows /\ 0 <= cols)%Z ->
    exists R C b, ctable wzero wadd lhs rhs w rows cols = Ok (R, C, b) /\
      ((0 <= rows)%Z -> Z.of_nat R = rows) /\ ((rows < 0)%Z -> (forall k, k < n -> (x k < Z.of_nat R)%Z) /\ exists k, k < n /\ (x k + 1 = Z.of_nat R)%Z) /\
      ((0 <= cols)%Z -> Z.of_nat C = cols) /\ ((cols < 0)%Z -> (forall k, k < n -> (y k < Z.of_nat C)%Z) /\ exists k, k < n /\ (y k + 1 = Z.of_nat C)%Z) /\
      tabulated R C (fun i j => tally w (hits x y n i j)) b.
  Proof.
    intros Hx Hy Sx Sy Hpos Hor. pose proof Hx as (Rx & Cx & _). pose proof Hy as (Ry & Cy & _).
    unfold ctable. rewrite decide_False by lia. rewrite decide_False by lia. rewrite Rx.
    destruct (size_spec lhs n x rows Hx Sx) as (R & -> & A1 & A2); [intros; by apply Hpos|lia|].
    destruct (size_spec rhs n y cols Hy Sy) as (C & E & B1 & B2); [intros; by apply Hpos|lia|]. cbn [obind]. rewrite E. cbn [obind].
    rewrite decide_False by lia. rewrite !Nat2Z.id. exists R, C.
    assert (Hb : exists b, (if decide (rows < 0 /\ cols < 0)%Z
        then for_up 0 n (fun i b => let* r := coord lhs i in let* c := coord rhs i in bump wadd b (r * Z.of_nat C + c)%Z w) (replicate (R * C) wzero)
        else for_up 0 n (fun i b => let* r := coord lhs i in let* c := coord rhs i in
               if decide (r < Z.of_nat R /\ c < Z.of_nat C)%Z then bump wadd b (r * Z.of_nat C + c)%Z w else Ok b) (replicate (R * C) wzero)) = Ok b /\
        tabulated R C (fun i j => tally w (hits x y n i j)) b).
    { clear E. destruct (decide (rows < 0 /\ cols < 0)%Z) as [Hd|Hd].
      - apply tally_loop; [|done]. intros i b Hi. rewrite (coord_Ok lhs n x i), (coord_Ok rhs n y i) by done. cbn [obind].
        rewrite decide_True; [done|]. split; [apply A2; lia|apply B2; lia].
      - apply tally_loop; [|done]. intros i b Hi. rewrite (coord_Ok lhs n x i), (coord_Ok rhs n y i) by done. done. }
    destruct Hb as (b & -> & Hb). exists b. cbn [obind]. split; [done|]. split; [exact A1|]. split; [exact A2|]. split; [exact B1|]. split; [exact B2|exact Hb].
  Qed.
End ctable.

(** ** Sequences of integers *)
Definition reaches (inc stop x : Z) : Prop := if decide (0 < inc)%Z then (x <= stop)%Z else (stop <= x)%Z.
Lemma seq_loop {A} (add : A -> A -> outcome A) (junk : nat -> A) (g : nat -> A) start inc n :
  start = g 0 -> (forall i, i < n -> add (g i) inc = Ok (g (S i))) ->
  for_up 0 n (fun i s => let* b := wr (fst s) i (snd s) in let* acc := add (snd s) inc in Ok (b, acc)) (fresh junk n, start)
    = Ok (map g (seq 0 n), g n).
Proof.
  intros -> Hg.
  destruct (for_up_inv (fun i s => length (fst s) = n /\ (forall j, j < i -> fst s !! j = Some (g j)) /\ snd s = g i) 0 n
    (fun i s => let* b := wr (fst s) i (snd s) in let* acc := add (snd s) inc in Ok (b, acc)) (fresh junk n, g 0)) as ([b acc] & E & Hl & H1 & H2).
  - lia.
  - split; [apply fresh_length|]. split; [lia|done].
  - intros i [b acc] Hi (Hl & H1 & H2). cbn [fst snd] in *. subst acc. rewrite wr_Ok by lia. cbn [obind]. rewrite Hg by lia. cbn [obind].
    eexists. split; [done|]. cbn [fst snd]. rewrite insert_length. split; [done|]. split; [|done]. intros j Hj.
    destruct (decide (j = i)) as [->|]; [apply list_lookup_insert; lia|]. rewrite list_lookup_insert_ne by done. apply H1. lia.
  - rewrite E. cbn [fst snd] in *. subst acc. f_equal. f_equal. apply list_eq. intros i. destruct (decide (i < n)) as [Hi|Hi].
    + rewrite H1 by done. rewrite list_lookup_fmap, lookup_seq_lt by done. done.
    + rewrite !lookup_ge_None_2; [done| |lia]. rewrite map_length, seq_length. lia.
Qed.

Lemma in_int_Ok lo hi x : (lo <= x <= hi)%Z -> in_int lo hi x = Ok x.
Proof. intros H. unfold in_int. by rewrite decide_True. Qed.

Lemma seq_int_spec lo hi junk start stop inc :
  inc <> 0%Z -> (lo <= stop - start <= hi)%Z -> (lo <= Z.abs (stop - start) <= hi)%Z -> (lo <= Z.abs inc <= hi)%Z ->
  (lo <= - hi)%Z ->
  (forall i, (if decide (0 < inc)%Z then start <= stop else stop <= start)%Z -> reaches inc stop (start + Z.of_nat i * inc) -> lo <= start + (Z.of_nat i + 1) * inc <= hi)%Z ->
  exists n, seq_kernel (int_arith lo hi) junk start stop inc = Ok (map (fun i => start + Z.of_nat i * inc)%Z (seq 0 n)) /\
    forall i, i < n <-> reaches inc stop (start + Z.of_nat i * inc)%Z.
Proof.
  intros Hinc H1 H2 H3 H5 H6. unfold seq_kernel, int_arith. cbn [a_nan a_iszero a_ltb a_zero a_eps a_add a_sub a_abs a_steps orb].
  rewrite (proj2 (Z.eqb_neq inc 0) Hinc).
  destruct ((start <? stop) && (inc <? 0) || (stop <? start) && (0 <? inc))%Z eqn:Eb.
  - exists 0. split; [done|]. intros i. split; [lia|]. unfold reaches. intros Hr. apply orb_true_iff in Eb as [Eb|Eb]; apply andb_true_iff in Eb as [E1 E2];
      apply Z.ltb_lt in E1, E2; [rewrite decide_False in Hr by lia|rewrite decide_True in Hr by lia]; nia.
  - apply orb_false_iff in Eb as [Eb1 Eb2]. rewrite andb_false_iff, !Z.ltb_ge in Eb1, Eb2.
    assert (Hdir : (if decide (0 < inc) then start <= stop else stop <= start)%Z) by (case_decide; lia).
    rewrite in_int_Ok by done. cbn [obind]. rewrite in_int_Ok by done. cbn [obind]. rewrite in_int_Ok by done. cbn [obind].
    set (d := Z.abs (stop - start)). set (a := Z.abs inc). assert (Ha : (0 < a)%Z) by lia.
    rewrite Z.quot_div_nonneg by lia. set (k := Z.to_nat (d / a)).
    pose proof (Z.div_mod d a ltac:(lia)) as Hdm. pose proof (Z.mod_pos_bound d a Ha) as Hmod. assert (Hq : (0 <= d / a)%Z) by (apply Z.div_pos; lia).
    assert (Hk : forall i, i < k + 1 <-> reaches inc stop (start + Z.of_nat i * inc)%Z).
    { intros i. assert (Hki : i < k + 1 <-> (Z.of_nat i * a <= d)%Z).
      { unfold k. split; intros Hi.
        - assert (Z.of_nat i <= d / a)%Z by lia. nia.
        - assert (Z.of_nat i <= d / a)%Z; [apply Z.div_le_lower_bound; lia|]. lia. }
      rewrite Hki. unfold reaches. destruct (decide (0 < inc)%Z); subst d a; [rewrite (Z.abs_eq inc), Z.abs_eq by lia|rewrite (Z.abs_neq inc), Z.abs_neq by lia]; lia. }
    rewrite (seq_loop (fun x y => in_int lo hi (x + y)%Z) junk (fun i => start + Z.of_nat i * inc)%Z start inc (k + 1)); [|lia|].
    2: { intros i Hi. rewrite in_int_Ok; [f_equal; lia|]. apply Hk in Hi. specialize (H6 i Hdir Hi). lia. }
    cbn [obind fst]. rewrite Nat.add_sub. rewrite (rd_Ok _ _ (start + Z.of_nat k * inc)%Z).
    2: { rewrite list_lookup_fmap, lookup_seq_lt by lia. done. }
    cbn [obind]. exists (k + 1). assert (Hlast : reaches inc stop (start + Z.of_nat k * inc)%Z) by (apply Hk; lia). unfold reaches in Hlast.
    assert (Hbound : (Z.of_nat k * a <= d)%Z) by (unfold k; rewrite Z2Nat.id by done; nia).
    assert (Hbound0 : (0 <= Z.of_nat k * a)%Z) by nia.
    split; [|done]. destruct (stop <? start)%Z eqn:E1; [|destruct (start <? stop)%Z eqn:E2; [|done]].
    + apply Z.ltb_lt in E1. rewrite decide_False in Hlast by lia. rewrite in_int_Ok.
      * cbn [obind]. rewrite (proj2 (Z.ltb_ge _ _)); [done|lia].
      * assert (Hs : (a = - inc /\ d = start - stop)%Z) by (unfold a, d; lia). clearbody a d. destruct Hs as [-> ->]. clear Hk H6. lia.
    + apply Z.ltb_lt in E2. rewrite decide_True in Hlast by lia. rewrite in_int_Ok.
      * cbn [obind]. rewrite (proj2 (Z.ltb_ge _ _)); [done|lia].
      * assert (Hs : (a = inc /\ d = stop - start)%Z) by (unfold a, d; lia). clearbody a d. destruct Hs as [-> ->]. clear Hk H6. lia.
Qed.

(** ** Sequences in exact arithmetic *)
Definition q_reaches (inc stop x : Q) : Prop := if Qltb 0 inc then (x <= stop)%Q else (stop <= x)%Q.
Definition q_elem (start inc : Q) (i : nat) : Q := (start + inject_Z (Z.of_nat i) * inc)%Q.
Lemma Qltb_lt x y : Qltb x y = true <-> (x < y)%Q.
Proof.
  unfold Qltb. rewrite negb_true_iff. split.
  - intros H. apply Qnot_le_lt. intros Hl. apply Qle_bool_iff in Hl. congruence.
  - intros H. destruct (Qle_bool y x) eqn:E; [|done]. apply Qle_bool_iff in E. exfalso. lra.
Qed.
Lemma Qltb_ge x y : Qltb x y = false <-> (y <= x)%Q.
Proof.
  unfold Qltb. rewrite negb_false_iff. apply Qle_bool_iff.
Qed.
Fixpoint q_acc (start inc : Q) (i : nat) : Q := match i with 0 => start | S i => (q_acc start inc i + inc)%Q end.
Lemma q_acc_eq start inc i : (q_acc start inc i == q_elem start inc i)%Q.
Proof.
  unfold q_elem. induction i as [|i IH]; [cbn [q_acc Z.of_nat]; change (inject_Z 0) with 0%Q; ring|]. cbn [q_acc]. rewrite IH, Nat2Z.inj_succ. unfold Z.succ. rewrite inject_Z_plus.
  change (inject_Z 1) with 1%Q. ring.
Qed.

Lemma q_steps (d a : Q) : (0 < a)%Q -> (0 <= d)%Q ->
  let k := Z.to_nat (Qceiling (d / a)) in (d <= inject_Z (Z.of_nat k) * a)%Q /\ (k <> 0 -> (inject_Z (Z.of_nat k) * a < d + a)%Q).
Proof.
  intros Ha Hd k. assert (Hda : (0 <= d / a)%Q) by (apply Qle_shift_div_l; lra).
  assert (Hz : (0 <= Qceiling (d / a))%Z).
  { rewrite Zle_Qle. eapply Qle_trans; [exact Hda|]. apply Qle_ceiling. }
  unfold k. rewrite Z2Nat.id by done. split.
  - assert (H : (d / a * a <= inject_Z (Qceiling (d / a)) * a)%Q) by (apply Qmult_le_compat_r; [apply Qle_ceiling|lra]).
    rewrite Qmult_comm, Qmult_div_r in H by lra. done.
  - intros _. pose proof (Qceiling_lt (d / a)) as H. 
    assert (H' : (inject_Z (Qceiling (d / a) - 1) * a < d / a * a)%Q) by (apply Qmult_lt_compat_r; done).
    rewrite (Qmult_comm (d / a)), Qmult_div_r in H' by lra. unfold Z.sub in H'. rewrite inject_Z_plus in H'.
    change (inject_Z (- (1))) with (-1)%Q in H'. lra.
Qed.

Lemma qi_S i (a : Q) : (inject_Z (Z.of_nat (S i)) * a == inject_Z (Z.of_nat i) * a + a)%Q.
Proof. rewrite Nat2Z.inj_succ. unfold Z.succ. rewrite inject_Z_plus. change (inject_Z 1) with 1%Q. ring. Qed.
Lemma qi_le i j (a : Q) : (0 <= a)%Q -> i <= j -> (inject_Z (Z.of_nat i) * a <= inject_Z (Z.of_nat j) * a)%Q.
Proof. intros Ha Hij. apply Qmult_le_compat_r; [|done]. rewrite <- Zle_Qle. lia. Qed.

Lemma seq_q_spec junk start stop inc :
  ~ (inc == 0)%Q -> (forall i, q_reaches inc stop (q_elem start inc i) \/ (q_eps < Qabs (q_elem start inc i - stop))%Q) ->
  exists b, seq_kernel q_arith junk start stop inc = Ok b /\
    (forall i q, b !! i = Some q -> (q == q_elem start inc i)%Q) /\
    forall i, i < length b <-> q_reaches inc stop (q_elem start inc i).
Proof.
  intros Hinc Hgap. unfold seq_kernel, q_arith. cbn [a_nan a_iszero a_ltb a_zero a_eps a_add a_sub a_abs a_steps orb].
  destruct (Qeq_bool inc 0) eqn:Ez; [by apply Qeq_bool_iff in Ez|]. clear Ez.
  assert (Hpn : ((0 < inc)%Q /\ Qltb 0 inc = true /\ Qltb inc 0 = false) \/ ((inc < 0)%Q /\ Qltb 0 inc = false /\ Qltb inc 0 = true)).
  { destruct (Q_dec inc 0) as [[H|H]|H]; [| |done].
    - right. split; [done|]. split; [apply Qltb_ge; lra|by apply Qltb_lt].
    - left. split; [done|]. split; [by apply Qltb_lt|apply Qltb_ge; lra]. }
  unfold q_reaches, q_elem in *.
  cbn [obind]. set (u := Qabs inc). set (d := Qabs (stop - start)).
  assert (Hu : (0 < u)%Q) by (unfold u; destruct Hpn as [(H & _)|(H & _)]; [rewrite Qabs_pos by lra|rewrite Qabs_neg by lra]; lra).
  assert (Hd : (0 <= d)%Q) by apply Qabs_nonneg.
  destruct (q_steps d u Hu Hd) as [K1 K2]. set (k := Z.to_nat (Qceiling (d / u))) in *.
  pose proof (seq_loop (fun x y => Ok (x + y)%Q) junk (q_acc start inc) start inc (k + 1) eq_refl (fun i _ => eq_refl)) as HL.
  cbn [obind] in HL. rewrite HL. clear HL. cbn [obind fst]. rewrite Nat.add_sub.
  set (b := map (q_acc start inc) (seq 0 (k + 1))). assert (Lb : length b = k + 1) by (unfold b; by rewrite map_length, seq_length).
  assert (Eb : forall i q, b !! i = Some q -> i < k + 1 /\ q = q_acc start inc i).
  { intros i q. unfold b. intros Hq. apply list_lookup_fmap_inv in Hq as (j & -> & Hj). apply lookup_seq in Hj as [-> Hj]. done. }
  assert (Hval : forall i q, b !! i = Some q -> (q == start + inject_Z (Z.of_nat i) * inc)%Q).
  { intros i q Hq. apply Eb in Hq as [_ ->]. apply q_acc_eq. }
  assert (Hvalt : forall i q, take k b !! i = Some q -> (q == start + inject_Z (Z.of_nat i) * inc)%Q).
  { intros i q Hq. apply Hval. by apply lookup_take_Some in Hq as [Hq _]. }
  assert (Lt : length (take k b) = k) by (rewrite take_length, Lb; lia).
  rewrite (rd_Ok _ _ (q_acc start inc k)) by (unfold b; rewrite list_lookup_fmap, lookup_seq_lt by lia; done).
  pose proof (q_acc_eq start inc k) as Hlast. unfold q_elem in Hlast. set (last := q_acc start inc k) in *.
  assert (Hlow : forall i, i < k -> (inject_Z (Z.of_nat i) * u < d)%Q).
  { intros i Hi. pose proof (qi_S i u). pose proof (qi_le (S i) k u ltac:(lra) ltac:(lia)). specialize (K2 ltac:(lia)). lra. }
  assert (Hhigh : forall i, k < i -> (d < inject_Z (Z.of_nat i) * u)%Q).
  { intros i Hi. pose proof (qi_S k u). pose proof (qi_le (S k) i u ltac:(lra) ltac:(lia)). lra. }
  destruct Hpn as [(Hp & P1 & P2)|(Hp & P1 & P2)]; rewrite P1, P2 in *.
  - rewrite andb_false_r, andb_true_r. cbn [orb]. assert (Eu : (u == inc)%Q) by (unfold u; rewrite Qabs_pos; lra).
    assert (Em : forall i, (inject_Z (Z.of_nat i) * u == inject_Z (Z.of_nat i) * inc)%Q) by (intros i; rewrite Eu; reflexivity).
    destruct (Qltb stop start) eqn:E1.
    + apply Qltb_lt in E1. exists []. split; [done|]. split; [intros i q Hq; by rewrite lookup_nil in Hq|]. intros i. simpl. split; [lia|]. intros Hi.
      pose proof (qi_le 0 i inc ltac:(lra) ltac:(lia)) as Hz. change (inject_Z (Z.of_nat 0)) with 0%Q in Hz. exfalso. lra.
    + apply Qltb_ge in E1. assert (Ed : (d == stop - start)%Q) by (unfold d; rewrite Qabs_pos; lra). cbn [obind].
      assert (Hr : forall i, i < k -> (start + inject_Z (Z.of_nat i) * inc <= stop)%Q) by (intros i Hi; specialize (Hlow i Hi); specialize (Em i); lra).
      assert (Hn : forall i, k < i -> ~ (start + inject_Z (Z.of_nat i) * inc <= stop)%Q) by (intros i Hi Hc; specialize (Hhigh i Hi); specialize (Em i); lra).
      pose proof (Em k) as Emk.
      assert (Hfin : forall l, (l = take k b /\ ~ (start + inject_Z (Z.of_nat k) * inc <= stop)%Q) \/ (l = b /\ (start + inject_Z (Z.of_nat k) * inc <= stop)%Q) ->
        exists b', Ok l = Ok b' /\ (forall i q, b' !! i = Some q -> (q == start + inject_Z (Z.of_nat i) * inc)%Q) /\
          forall i, i < length b' <-> (start + inject_Z (Z.of_nat i) * inc <= stop)%Q).
      { intros l Hl. exists l. split; [done|]. split; [by destruct Hl as [[-> _]|[-> _]]|]. intros i. destruct (lt_eq_lt_dec i k) as [[Hi| ->]|Hi].
        - split; [intros _; by apply Hr|]. intros _. destruct Hl as [[-> _]|[-> _]]; lia.
        - destruct Hl as [[-> Hl]|[-> Hl]]; [rewrite Lt; split; [lia|done]|rewrite Lb; split; [done|lia]].
        - split; [|by intros ?%(Hn i Hi)]. destruct Hl as [[-> _]|[-> _]]; lia. }
      destruct (Qltb start stop) eqn:E2.
      * cbn [obind]. destruct (Qltb q_eps (last - stop)) eqn:E3.
        -- apply Hfin. left. split; [done|]. apply Qltb_lt in E3. assert (Hpos : (0 < q_eps)%Q) by reflexivity. generalize dependent q_eps. intros e. intros. lra.
        -- apply Hfin. right. split; [done|]. apply Qltb_ge in E3. destruct (Hgap k) as [Hk|Hk]; [done|].
           exfalso. rewrite Qabs_pos in Hk by lra. lra.
      * apply Hfin. right. split; [done|]. apply Qltb_ge in E2. destruct (decide (k = 0)) as [E0|E0]; [rewrite E0; change (inject_Z (Z.of_nat 0)) with 0%Q; lra|].
        specialize (Hlow 0 ltac:(lia)). change (inject_Z (Z.of_nat 0)) with 0%Q in Hlow. exfalso. lra.
  - rewrite andb_false_r, andb_true_r. rewrite orb_false_r. assert (Eu : (u == - inc)%Q) by (unfold u; rewrite Qabs_neg; lra).
    assert (Em : forall i, (inject_Z (Z.of_nat i) * u == - (inject_Z (Z.of_nat i) * inc))%Q) by (intros i; rewrite Eu; ring).
    destruct (Qltb start stop) eqn:E1.
    + apply Qltb_lt in E1. exists []. split; [done|]. split; [intros i q Hq; by rewrite lookup_nil in Hq|]. intros i. simpl. split; [lia|]. intros Hi.
      pose proof (qi_le 0 i u ltac:(lra) ltac:(lia)) as Hz. change (inject_Z (Z.of_nat 0)) with 0%Q in Hz. specialize (Em i). exfalso. lra.
    + apply Qltb_ge in E1. assert (Ed : (d == start - stop)%Q) by (unfold d; rewrite Qabs_neg; lra). cbn [obind].
      assert (Hr : forall i, i < k -> (stop <= start + inject_Z (Z.of_nat i) * inc)%Q) by (intros i Hi; specialize (Hlow i Hi); specialize (Em i); lra).
      assert (Hn : forall i, k < i -> ~ (stop <= start + inject_Z (Z.of_nat i) * inc)%Q) by (intros i Hi Hc; specialize (Hhigh i Hi); specialize (Em i); lra).
      pose proof (Em k) as Emk.
      assert (Hfin : forall l, (l = take k b /\ ~ (stop <= start + inject_Z (Z.of_nat k) * inc)%Q) \/ (l = b /\ (stop <= start + inject_Z (Z.of_nat k) * inc)%Q) ->
        exists b', Ok l = Ok b' /\ (forall i q, b' !! i = Some q -> (q == start + inject_Z (Z.of_nat i) * inc)%Q) /\
          forall i, i < length b' <-> (stop <= start + inject_Z (Z.of_nat i) * inc)%Q).
      { intros l Hl. exists l. split; [done|]. split; [by destruct Hl as [[-> _]|[-> _]]|]. intros i. destruct (lt_eq_lt_dec i k) as [[Hi| ->]|Hi].
        - split; [intros _; by apply Hr|]. intros _. destruct Hl as [[-> _]|[-> _]]; lia.
        - destruct Hl as [[-> Hl]|[-> Hl]]; [rewrite Lt; split; [lia|done]|rewrite Lb; split; [done|lia]].
        - split; [|by intros ?%(Hn i Hi)]. destruct Hl as [[-> _]|[-> _]]; lia. }
      destruct (Qltb stop start) eqn:E2.
      * cbn [obind]. destruct (Qltb q_eps (stop - last)) eqn:E3.
        -- apply Hfin. left. split; [done|]. apply Qltb_lt in E3. assert (Hpos : (0 < q_eps)%Q) by reflexivity. generalize dependent q_eps. intros e. intros. lra.
        -- apply Hfin. right. split; [done|]. apply Qltb_ge in E3. destruct (Hgap k) as [Hk|Hk]; [done|].
           exfalso. rewrite Qabs_neg in Hk by lra. lra.
      * apply Hfin. right. split; [done|]. apply Qltb_ge in E2. destruct (decide (k = 0)) as [E0|E0]; [rewrite E0; change (inject_Z (Z.of_nat 0)) with 0%Q; lra|].
        specialize (Hlow 0 ltac:(lia)). change (inject_Z (Z.of_nat 0)) with 0%Q in Hlow. exfalso. lra.
Qed.

(** ** Replacing values *)
Section replace.
  Context {V : Type} (eqb : V -> V -> bool) (vzero : V).
  Definition subst_val (pat rep v : V) : V := if nothing_to_do eqb pat rep then v else if hit eqb pat v then rep else v.
  Lemma replace_dense_spec junk a n m x pat rep : is_dense a n m x -> n * m <> 0 ->
    exists b, replace_dense eqb junk a pat rep = Ok (Some b) /\ tabulated n m (fun r c => subst_val pat rep (x r c)) b.
  Proof.
    intros Ha Hnm. pose proof Ha as (Hr & Hc & _). unfold replace_dense. rewrite Hr, Hc, decide_False by done. unfold subst_val.
    destruct (nothing_to_do eqb pat rep).
    - destruct (for2_tabulate n m (fun r c b => let* v := dm_at a r c in wr b (r * m + c) v) x (fresh junk (n * m))) as (b & -> & H); [apply fresh_length| |].
      + intros r c b Hr' Hc' _. by rewrite (dm_at_Ok a n m x r c Ha Hr' Hc').
      + exists b. done.
    - destruct (for2_tabulate n m (fun r c b => let* v := dm_at a r c in if hit eqb pat v then wr b (r * m + c) rep else wr b (r * m + c) v)
        (fun r c => if hit eqb pat (x r c) then rep else x r c) (fresh junk (n * m))) as (b & -> & H); [apply fresh_length| |].
      + intros r c b Hr' Hc' _. rewrite (dm_at_Ok a n m x r c Ha Hr' Hc'). cbn [obind]. by destruct (hit eqb pat (x r c)).
      + exists b. done.
  Qed.
  (** Well-formed CSR arrays: offsets do not decrease and point into the arrays. *)
  Definition csr_wf (a : csr V) : Prop :=
    length (c_offs a) = c_rows a + 1 /\ (forall r, r < c_rows a -> nth r (c_offs a) 0 <= nth (S r) (c_offs a) 0) /\
    nth (c_rows a) (c_offs a) 0 <= length (c_vals a) /\ nth (c_rows a) (c_offs a) 0 <= length (c_cols a).
  Lemma off_mono a r r' : csr_wf a -> r <= r' -> r' <= c_rows a -> nth r (c_offs a) 0 <= nth r' (c_offs a) 0.
  Proof.
    intros (_ & H & _) Hr Hr'. induction Hr as [|r' Hr IH]; [done|]. specialize (IH ltac:(lia)). specialize (H r' ltac:(lia)). lia.
  Qed.
  Lemma rd_off a r : csr_wf a -> r <= c_rows a -> rd (c_offs a) r = Ok (nth r (c_offs a) 0).
  Proof. intros (H & _) Hr. destruct (nth_lookup_or_length (c_offs a) r 0) as [E|]; [by apply rd_Ok|lia]. Qed.
  Lemma copy_prefix {A} (junk : nat -> A) (l : list A) n : n <= length l -> copy_range (fresh junk n) 0 l 0 n = Ok (take n l).
  Proof.
    intros Hn. destruct (copy_range_spec (fresh junk n) 0 l 0 n) as (b & -> & Hl & H & _); [rewrite fresh_length; lia|lia|]. rewrite fresh_length in Hl.
    f_equal. apply list_eq. intros i. destruct (decide (i < n)) as [Hi|Hi].
    - rewrite lookup_take by done. by apply (H i).
    - rewrite !lookup_ge_None_2; [done|rewrite take_length; lia|lia].
  Qed.
  Lemma replace_csr_spec junk junkn junko a pat rep : csr_wf a -> nth 0 (c_offs a) 0 = 0 -> eqb pat vzero = false ->
    nth (c_rows a) (c_offs a) 0 <> 0 ->
    exists a', replace_csr eqb vzero junk junkn junko a pat rep = Ok (Some a') /\
      c_rows a' = c_rows a /\ c_ncols a' = c_ncols a /\ c_offs a' = c_offs a /\
      c_cols a' = take (nth (c_rows a) (c_offs a) 0) (c_cols a) /\
      c_vals a' = map (subst_val pat rep) (take (nth (c_rows a) (c_offs a) 0) (c_vals a)).
  Proof.
    intros Hw H0 Hp Hnz. pose proof Hw as (L & Hm & Lv & Lc). unfold replace_csr. rewrite Hp.
    rewrite (rd_off a (c_rows a) Hw) by done. cbn [obind]. rewrite (rd_off a 0 Hw) by lia. cbn [obind]. rewrite H0, Nat.sub_0_r. rewrite decide_False by done.
    set (nnz := nth (c_rows a) (c_offs a) 0) in *. rewrite copy_prefix by lia. cbn [obind]. rewrite copy_prefix by done. cbn [obind]. rewrite copy_prefix by done. cbn [obind].
    rewrite (take_ge (c_offs a)) by lia. unfold subst_val. destruct (nothing_to_do eqb pat rep) eqn:En.
    - eexists. split; [done|]. cbn [c_rows c_ncols c_offs c_cols c_vals]. rewrite map_id. done.
    - set (g := fun v => if hit eqb pat v then rep else v). set (src := take nnz (c_vals a)).
      assert (Ls : length src = nnz) by (unfold src; rewrite take_length; lia).
      assert (Hsrc : forall j v, j < nnz -> src !! j = Some v -> c_vals a !! j = Some v) by (intros j v Hj; unfold src; by rewrite lookup_take).
      (* inner iteration at position p + c turns the array with the first j elements replaced into the one with j + 1 *)
      set (st := fun j => map g (take j src) ++ drop j src).
      assert (Hst : forall j v, j < nnz -> src !! j = Some v -> (if hit eqb pat v then wr (st j) j rep else Ok (st j)) = Ok (st (S j))).
      { intros j v Hj Ev. unfold st. rewrite (take_S_r _ _ _ Ev), map_app. rewrite (drop_S _ _ _ Ev). cbn [map]. assert (Eg : g v = if hit eqb pat v then rep else v) by reflexivity. rewrite Eg. clear Eg.
        assert (Lt : length (map g (take j src)) = j) by (rewrite map_length, take_length; lia).
        destruct (hit eqb pat v).
        - rewrite wr_app; [|done|simpl; lia]. f_equal. rewrite <- app_assoc. reflexivity.
        - f_equal. rewrite <- app_assoc. reflexivity. }
      destruct (for_up_inv (fun r b => b = st (nth r (c_offs a) 0)) 0 (c_rows a)
        (fun r b => let* p := rd (c_offs a) r in let* q := rd (c_offs a) r in let* p' := rd (c_offs a) (r + 1) in
            for_up 0 (p' - p) (fun c b => let* v := rd (c_vals a) (p + c) in if hit eqb pat v then wr b (q + c) rep else Ok b) b) src) as (b & E & Hb).
      + lia.
      + rewrite H0. unfold st. simpl. by rewrite drop_0.
      + intros r b Hr ->. rewrite (rd_off a r Hw) by lia. cbn [obind]. rewrite (rd_off a (r + 1) Hw) by lia. cbn [obind].
        set (p := nth r (c_offs a) 0). rewrite Nat.add_1_r. set (p' := nth (S r) (c_offs a) 0).
        assert (Hpp : p <= p') by (apply Hm; lia). assert (Hpn : p' <= nnz) by (apply off_mono; [done|lia|lia]).
        destruct (for_up_inv (fun c b => b = st (p + c)) 0 (p' - p) (fun c b => let* v := rd (c_vals a) (p + c) in if hit eqb pat v then wr b (p + c) rep else Ok b) (st p))
          as (b & -> & ->).
        * lia.
        * by rewrite Nat.add_0_r.
        * intros c b Hc ->. destruct (rd_lt src (p + c)) as (v & Ev & _); [lia|]. rewrite (rd_Ok _ _ _ (Hsrc (p + c) v ltac:(lia) Ev)). cbn [obind].
          rewrite (Hst (p + c) v ltac:(lia) Ev). eexists. split; [done|]. f_equal. lia.
        * eexists. split; [done|]. change (1 + r) with (S r). fold p'. f_equal. lia.
      + fold src. rewrite E. cbn [obind]. eexists. split; [done|]. cbn [c_rows c_ncols c_offs c_cols c_vals]. split; [done|]. split; [done|]. split; [done|]. split; [done|].
        rewrite Hb. fold nnz. unfold st. rewrite take_ge by lia. rewrite drop_ge by lia. apply app_nil_r.
  Qed.
End replace.

(** ** Binning *)
Lemma bin_value_spec rlo rhi N mn mx v : (0 < N)%Z -> (mn < mx)%Q -> (rlo <= 0)%Z ->
  (mn < v -> v - mn <= inject_Z (rhi + 1) * ((mx - mn) / inject_Z N))%Q -> (0 <= rhi)%Z ->
  let size := ((mx - mn) / inject_Z N)%Q in
  exists b, bin_value rlo rhi N mn size v = Ok b /\ (0 <= b < N)%Z /\
    ((v <= mn)%Q -> b = 0%Z) /\ ((mx <= v)%Q -> b = (N - 1)%Z) /\
    ((mn < v)%Q -> (v <= mx)%Q -> (mn + inject_Z b * size < v /\ v <= mn + inject_Z (b + 1) * size)%Q).
Proof.
  intros HN Hm Hlo Hhi Hrhi size. assert (HNq : (0 < inject_Z N)%Q) by (change 0%Q with (inject_Z 0); by rewrite <- Zlt_Qlt).
  assert (Hs : (0 < size)%Q) by (apply Qlt_shift_div_l; lra).
  assert (HNs : (inject_Z N * size == mx - mn)%Q) by (unfold size; apply Qmult_div_r; lra).
  unfold bin_value. destruct (Qle_bool v mn) eqn:E.
  - apply Qle_bool_iff in E. exists 0%Z. split; [done|]. split; [lia|]. split; [done|]. split; intros; exfalso; lra.
  - assert (Hv : (mn < v)%Q). { apply Qnot_le_lt. intros H. apply Qle_bool_iff in H. congruence. } specialize (Hhi Hv).
    set (t := ((v - mn) / size)%Q). assert (Ht : (t * size == v - mn)%Q) by (unfold t; rewrite Qmult_comm; apply Qmult_div_r; lra).
    set (z := Qceiling t). pose proof (Qle_ceiling t) as Z1. fold z in Z1. pose proof (Qceiling_lt t) as Z2. fold z in Z2.
    assert (Z1s : (v - mn <= inject_Z z * size)%Q) by (rewrite <- Ht; apply Qmult_le_compat_r; [done|lra]).
    assert (Z2s : (inject_Z (z - 1) * size < v - mn)%Q) by (rewrite <- Ht; apply Qmult_lt_compat_r; done).
    assert (Hz1 : (1 <= z)%Z).
    { assert (0 < z)%Z; [|lia]. rewrite Zlt_Qlt. apply Qnot_le_lt. intros H. change (inject_Z 0) with 0%Q in H.
      assert (H' : (inject_Z z * size <= 0 * size)%Q) by (apply Qmult_le_compat_r; [done|lra]). lra. }
    assert (Hzr : (z - 1 <= rhi)%Z).
    { assert (z - 1 < rhi + 1)%Z; [|lia]. rewrite Zlt_Qlt. apply Qnot_le_lt. intros H.
      assert (H' : (inject_Z (rhi + 1) * size <= inject_Z (z - 1) * size)%Q) by (apply Qmult_le_compat_r; [done|lra]). fold size in Hhi. lra. }
    rewrite in_int_Ok by lia. cbn [obind]. rewrite decide_False by lia. eexists. split; [done|].
    split; [case_decide; lia|]. split; [intros; exfalso; lra|]. split.
    + intros Hmx. case_decide as Hd; [done|]. assert (N <= z)%Z; [|lia]. apply Z.nlt_ge. intros Hlt. assert (Hq : (inject_Z z <= inject_Z N)%Q) by (rewrite <- Zle_Qle; lia).
      assert (Hq1 : (inject_Z z * size <= inject_Z (N - 1) * size)%Q) by (apply Qmult_le_compat_r; [rewrite <- Zle_Qle; lia|lra]).
      assert (Hq2 : (inject_Z (N - 1) * size == inject_Z N * size - size)%Q).
      { unfold Z.sub. rewrite inject_Z_plus. change (inject_Z (- (1))) with (-1)%Q. ring. }
      lra.
    + intros _ Hmx. rewrite decide_False.
      * replace (z - 1 + 1)%Z with z by lia. lra.
      * intros Hd. assert (Hq1 : (inject_Z N * size <= inject_Z (z - 1) * size)%Q) by (apply Qmult_le_compat_r; [rewrite <- Zle_Qle; lia|lra]). lra.
Qed.
