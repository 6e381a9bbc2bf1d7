(** C59, continued: how much inference finds out.  For every operation whose
    result shape does not depend on the data, known shapes and constants lead to
    known shapes. *)
From stdpp Require Import base numbers list gmap.
From Verif Require Import CppBase ShapeModel.

(** A type whose shape is known. *)
Definition known_ty (t : ty) : Prop :=
  match t with TMat r c | TFrm r c => (0 <= r ∧ 0 <= c)%Z | TSca => True end.
(** An argument: a matrix or frame of known shape, or a constant. *)
Definition known_arg (a : ty * option Z) : Prop :=
  known_ty a.1 ∧ (a.1 = TSca → ∃ z, a.2 = Some z) ∧ (∀ z, a.2 = Some z → 0 <= z)%Z.
(** The number of rows or columns depends on the data (or, for cond with a
    scalar condition, on the branch taken; the number of unique values for
    recode). *)
Definition data_dependent (k : opk) (args : list (ty * option Z)) : Prop :=
  match k, args with
  | GroupJoin, _ | Group _ _, _ | InnerJoin, _ | SemiJoin, _ | FilterRow, _ | FilterCol, _ | OneHot, _ | Recode, _ => True
  | Cond, (TSca, _) :: _ => True
  | _, _ => False
  end.

Lemma from_args_known ds cur unk r :
  (0 <= cur)%Z → unk = false → Forall (λ d, 0 <= d)%Z ds → from_args cur unk ds = Ok r → (0 <= r)%Z.
Proof.
  revert cur unk. induction ds as [|d ds IH]; intros cur unk Hc -> Hf; cbn [from_args].
  - by intros [= <-].
  - apply Forall_cons in Hf as [Hd Hf]. rewrite decide_False by lia. rewrite decide_False by lia. case_decide; [|done]. by apply IH.
Qed.
Lemma all_args_known ds r : Forall (λ d, 0 <= d)%Z ds → all_args ds = Ok r → (0 <= r)%Z.
Proof.
  destruct ds as [|d ds]; [done|]. intros [Hd Hf]%Forall_cons. cbn [all_args]. apply from_args_known; [done| |done]. apply bool_decide_eq_false. lia.
Qed.
Lemma sum_args_known ds s : (0 <= s)%Z → Forall (λ d, 0 <= d)%Z ds → (0 <= sum_args s ds)%Z.
Proof.
  revert s. induction ds as [|d ds IH]; intros s Hs Hf; cbn [sum_args]; [done|]. apply Forall_cons in Hf as [Hd Hf]. rewrite decide_False by lia. apply IH; [lia|done].
Qed.

Lemma known_shape t : known_ty t → (0 <= (shape t).1 ∧ 0 <= (shape t).2)%Z.
Proof. destruct t; cbn; lia. Qed.
Lemma known_shapes args : Forall known_arg args → Forall (λ d, 0 <= d)%Z (map (λ a, (shape a.1).1) args) ∧ Forall (λ d, 0 <= d)%Z (map (λ a, (shape a.1).2) args).
Proof. intros Hf. split; apply Forall_map; eapply Forall_impl; try exact Hf; intros a (Ha & _); apply (known_shape _ Ha). Qed.
Lemma extent_known a b c s : (0 < s)%Z → (0 <= extent a b c s)%Z.
Proof. intros Hs. unfold extent. pose proof (Z.mod_pos_bound (a + 2 * c - b) (2 ^ 64) ltac:(lia)). pose proof (Z.div_pos ((a + 2 * c - b) `mod` 2 ^ 64) s). lia. Qed.
Lemma const_known d a : (0 <= d)%Z → known_arg a → (0 <= const_or d a)%Z.
Proof. intros Hd (_ & _ & H). unfold const_or. destruct a.2; [by apply H|done]. Qed.
Lemma slice_known n lo up r : (0 <= n)%Z → (∃ z, lo = Some z) → (∃ z, up = Some z) → slice_dim n lo up = Ok r → (0 <= r)%Z.
Proof.
  intros Hn [z ->] [z' ->]. cbn [slice_dim]. rewrite decide_False by lia. repeat (case_decide; try done); intros [= <-]; lia.
Qed.

(** The traits: each dimension is known once the operation has a trait for it. *)
Definition sets_rows (t : trait) : bool :=
  match t with OneRow | RowsSca _ | RowsArg _ | RowsArgCols _ | RowsAll | RowsSum | ShapeArg _ | ShapeEwBinary => true | _ => false end.
Definition sets_cols (t : trait) : bool :=
  match t with OneCol | ColsSca _ | ColsArg _ | ColsArgRows _ | ColsAll | ColsSum | ShapeArg _ | ShapeEwBinary => true | _ => false end.
(** The scalar operands of the traits are constants. *)
Definition trait_scalars (args : list (ty * option Z)) (t : trait) : Prop :=
  match t with RowsSca i | ColsSca i => ∀ a, args !! i = Some a → a.1 = TSca | _ => True end.

Lemma arg_shape_known args i s : Forall known_arg args → arg_shape args i = Ok s → (0 <= s.1 ∧ 0 <= s.2)%Z.
Proof.
  intros Hf. unfold arg_shape. destruct (args !! i) as [a|] eqn:E; [|done]. intros [= <-]. apply known_shape. by apply (Forall_lookup_1 _ _ _ _ Hf E).
Qed.
Lemma sca_known args i a : Forall known_arg args → args !! i = Some a → a.1 = TSca → (0 <= const_or (-1) a)%Z.
Proof. intros Hf E Ha. destruct (Forall_lookup_1 _ _ _ _ Hf E) as (_ & H1 & H2). unfold const_or. destruct (H1 Ha) as [z Hz]. rewrite Hz. by apply H2. Qed.
Lemma apply_known args s t s' : Forall known_arg args → trait_scalars args t → apply args s t = Ok s' →
  ((sets_rows t = true ∨ 0 <= s.1) → 0 <= s'.1)%Z ∧ ((sets_cols t = true ∨ 0 <= s.2) → 0 <= s'.2)%Z.
Proof.
  intros Hf Hs. destruct (known_shapes args Hf) as [K1 K2].
  destruct t as [| | i|i|i|i|i|i| | | | |i|]; cbn [apply sets_rows sets_cols trait_scalars] in *.
  - intros [= <-]. cbn. split; [lia|]. intros [?|?]; [done|lia].
  - intros [= <-]. cbn. split; [|lia]. intros [?|?]; [done|lia].
  - destruct (args !! i) as [a|] eqn:E; [|done]. intros [= <-]. cbn. split; [|intros [?|?]; [done|lia]]. intros _. apply (sca_known args i); auto.
  - destruct (args !! i) as [a|] eqn:E; [|done]. intros [= <-]. cbn. split; [intros [?|?]; [done|lia]|]. intros _. apply (sca_known args i); auto.
  - intros (x & E & [= <-])%obind_Ok. pose proof (arg_shape_known _ _ _ Hf E). cbn. split; [lia|intros [?|?]; [done|lia]].
  - intros (x & E & [= <-])%obind_Ok. pose proof (arg_shape_known _ _ _ Hf E). cbn. split; [intros [?|?]; [done|lia]|lia].
  - intros (x & E & [= <-])%obind_Ok. pose proof (arg_shape_known _ _ _ Hf E). cbn. split; [lia|intros [?|?]; [done|lia]].
  - intros (x & E & [= <-])%obind_Ok. pose proof (arg_shape_known _ _ _ Hf E). cbn. split; [intros [?|?]; [done|lia]|lia].
  - intros (x & E & [= <-])%obind_Ok. pose proof (all_args_known _ _ K1 E). cbn. split; [lia|intros [?|?]; [done|lia]].
  - intros (x & E & [= <-])%obind_Ok. pose proof (all_args_known _ _ K2 E). cbn. split; [intros [?|?]; [done|lia]|lia].
  - intros [= <-]. pose proof (sum_args_known _ 0 ltac:(lia) K1). cbn [fst snd]. split; [lia|intros [?|?]; [done|lia]].
  - intros [= <-]. pose proof (sum_args_known _ 0 ltac:(lia) K2). cbn [fst snd]. split; [intros [?|?]; [done|lia]|lia].
  - intros E. pose proof (arg_shape_known _ _ _ Hf E). lia.
  - intros (l & E & H1)%obind_Ok. apply obind_Ok in H1 as (r & E' & H1).
    pose proof (arg_shape_known _ _ _ Hf E). pose proof (arg_shape_known _ _ _ Hf E'). rewrite decide_False in H1; [|intros [-> _]; cbn in *; lia].
    rewrite decide_False in H1 by lia. injection H1 as <-. lia.
Qed.
Lemma apply_all_known args ts : ∀ s s', Forall known_arg args → Forall (trait_scalars args) ts → apply_all args s ts = Ok s' →
  ((Exists (λ t, sets_rows t = true) ts ∨ 0 <= s.1) → 0 <= s'.1)%Z ∧ ((Exists (λ t, sets_cols t = true) ts ∨ 0 <= s.2) → 0 <= s'.2)%Z.
Proof.
  induction ts as [|t ts IH]; intros s s' Hf Hs; cbn [apply_all].
  - intros [= <-]. split; (intros [H|?]; [by inversion H|done]).
  - apply Forall_cons in Hs as [Ht Hs]. intros (s1 & E & H1)%obind_Ok. destruct (apply_known _ _ _ _ Hf Ht E) as [A1 A2]. destruct (IH _ _ Hf Hs H1) as [B1 B2]. split.
    + intros [[H|H]%Exists_cons|H]; [apply B1; right; apply A1; by left|apply B1; by left|apply B1; right; apply A1; by right].
    + intros [[H|H]%Exists_cons|H]; [apply B2; right; apply A2; by left|apply B2; by left|apply B2; right; apply A2; by right].
Qed.

(** The operands which give a number of rows or columns are scalars. *)
Definition well_formed (k : opk) (args : list (ty * option Z)) : Prop :=
  Forall (trait_scalars args) (traits k) ∧
  match k, args with
  | MatMul, [_; _; a; b] | SliceRow, [_; a; b] | SliceCol, [_; a; b] | CTable, [_; _; _; a; b] | Seq, [a; b; _] => a.1 = TSca ∧ b.1 = TSca
  | Order, [_; a] => a.1 = TSca
  | _, _ => True
  end ∧
  match k, args with Seq, [_; _; a] => a.1 = TSca | Order, [a; _] => a.1 ≠ TSca | _, _ => True end.

Lemma mk_known k s : (0 <= s.1 ∧ 0 <= s.2)%Z → known_ty (mk k s).
Proof. by destruct k. Qed.
Lemma zip_known ks ss : Forall (λ s : Z * Z, 0 <= s.1 ∧ 0 <= s.2)%Z ss → Forall known_ty (zip_with mk ks ss).
Proof.
  revert ks. induction ss as [|s ss IH]; intros [|k ks] Hf; cbn; try by constructor. apply Forall_cons in Hf as [H1 H2]. constructor; [by apply mk_known|by apply IH].
Qed.

Ltac fa := repeat (apply Forall_cons_2; [cbn [fst snd]; split|]); try (by apply Forall_nil_2).

Lemma infer_known k args ss : Forall known_arg args → well_formed k args → ¬ data_dependent k args → ¬ Forall (λ k, k = KSca) (kinds k args) →
  infer k args = Ok ss → Forall (λ s : Z * Z, 0 <= s.1 ∧ 0 <= s.2)%Z ss.
Proof.
  intros Hf (Ht & Hw1 & Hw2) Hd Hk.
  assert (Hall : ∀ ss, Exists (λ t, sets_rows t = true) (traits k) → Exists (λ t, sets_cols t = true) (traits k) →
     (let* s := apply_all args (-1, -1)%Z (traits k) in Ok [s]) = Ok ss → Forall (λ s : Z * Z, 0 <= s.1 ∧ 0 <= s.2)%Z ss).
  { intros ss' Hr Hc (s & E & [= <-])%obind_Ok. destruct (apply_all_known _ _ _ _ Hf Ht E) as [A1 A2]. fa; auto. }
  destruct (known_shapes args Hf) as [K1 K2].
  destruct k; cbn [data_dependent] in Hd; try tauto; cbn [infer]; cbn [traits] in *;
    try (intros H; eapply Hall; [..|exact H]; cbn; repeat first [apply Exists_cons_hd; done|apply Exists_cons_tl]; fail);
    try (exfalso; apply Hk; cbn; by repeat constructor).
  - (* Seq *)
    intros (s & E & H1)%obind_Ok. destruct (apply_all_known _ _ _ _ Hf Ht E) as [_ A2]. apply obind_Ok in H1 as (r & Er & [= <-]).
    fa; [|apply A2; left; by apply Exists_cons_hd]. unfold rows_seq in Er.
    destruct args as [|[t1 o1] [|[t2 o2] [|[t3 o3] [|]]]]; try done; try (repeat match goal with o : option Z |- _ => destruct o end; done).
    destruct Hw1 as [E1 E2]. cbn in E1, E2, Hw2.
    apply Forall_cons in Hf as [(_ & F1 & _) Hf]. apply Forall_cons in Hf as [(_ & F2 & _) Hf]. apply Forall_cons in Hf as [(_ & F3 & _) _]. cbn in *.
    destruct (F1 E1) as [z1 ->], (F2 E2) as [z2 ->], (F3 Hw2) as [z3 ->]. case_decide; [done|]. injection Er as <-.
    pose proof (Z.div_pos (Z.abs (z2 - z1)) (Z.abs z3)). lia.
  - (* CreateFrame *)
    intros (r & E & [= <-])%obind_Ok. fa; [exact (all_args_known _ _ K1 E)|apply sum_args_known; [lia|done]].
  - (* ExtractCol *)
    destruct args as [|[t o] [|[t1 o1] [|]]]; try done. apply Forall_cons in Hf as [(F0 & _ & _) Hf]. apply Forall_cons in Hf as [(F1 & _ & _) _]. cbn in F0, F1.
    pose proof (known_shape _ F0). pose proof (known_shape _ F1). intros [= <-]. cbn. fa; lia.
  - (* SliceRow *)
    destruct args as [|[t o] [|[t1 lo] [|[t2 up] [|]]]]; try done. destruct Hw1 as [E1 E2]. cbn in E1, E2.
    apply Forall_cons in Hf as [(F0 & _ & _) Hf]. apply Forall_cons in Hf as [(_ & F1 & _) Hf]. apply Forall_cons in Hf as [(_ & F2 & _) _]. cbn in F0, F1, F2.
    pose proof (known_shape _ F0). cbn. destruct t; try done; intros (r0 & E & [= <-])%obind_Ok; cbn in *; fa; try lia; (eapply slice_known; [|by apply F1|by apply F2|exact E]; lia).
  - (* SliceCol *)
    destruct args as [|[t o] [|[t1 lo] [|[t2 up] [|]]]]; try done. destruct Hw1 as [E1 E2]. cbn in E1, E2.
    apply Forall_cons in Hf as [(F0 & _ & _) Hf]. apply Forall_cons in Hf as [(_ & F1 & _) Hf]. apply Forall_cons in Hf as [(_ & F2 & _) _]. cbn in F0, F1, F2.
    pose proof (known_shape _ F0). cbn. destruct t; try done; intros (r0 & E & [= <-])%obind_Ok; cbn in *; fa; try lia; (eapply slice_known; [|by apply F1|by apply F2|exact E]; lia).
  - (* Order *)
    destruct args as [|[t o] [|[t1 o1] [|]]]; try done. apply Forall_cons in Hf as [(F0 & _ & _) Hf]. apply Forall_cons in Hf as [(_ & F1 & _) _]. cbn in F0, F1, Hw1, Hw2.
    destruct (F1 Hw1) as [z ->]. pose proof (known_shape _ F0). intros [= <-]. cbn in *. destruct t; try done; fa; cbn in *; try case_decide; lia.
  - (* MatMul *)
    destruct args as [|[t o] [|[t1 o1] [|[t2 o2] [|[t3 o3] [|]]]]]; try done. apply Forall_cons in Hf as [(F0 & _ & _) Hf]. apply Forall_cons in Hf as [(F1 & _ & _) Hf].
    apply Forall_cons in Hf as [(_ & F2 & _) Hf]. apply Forall_cons in Hf as [(_ & F3 & _) _]. cbn in F0, F1, F2, F3, Hw1. destruct Hw1 as [E1 E2].
    destruct (F2 E1) as [z ->], (F3 E2) as [z' ->]. pose proof (known_shape _ F0). pose proof (known_shape _ F1). intros [= <-]. cbn. fa; case_decide; lia.
  - (* CTable *)
    destruct args as [|a0 [|a1 [|a2 [|a3 [|a4 [|]]]]]]; try done. intros [= <-]. destruct Hw1 as [E1 E2]. fa.
    + by eapply (sca_known _ 3); [exact Hf| |].
    + by eapply (sca_known _ 4); [exact Hf| |].
  - (* Eigen *)
    destruct args as [|[t o] [|]]; try done. apply Forall_cons in Hf as [(F0 & _ & _) _]. cbn in F0. pose proof (known_shape _ F0). intros [= <-]. cbn. fa; lia.
  - (* Cartesian *)
    intros (s & E & H1)%obind_Ok. destruct (apply_all_known _ _ _ _ Hf Ht E) as [_ A2]. apply obind_Ok in H1 as (r & Er & [= <-]).
    fa; [|apply A2; left; by apply Exists_cons_hd]. unfold rows_cartesian in Er. destruct args as [|[[]] [|[[]] [|]]]; try done. injection Er as <-.
    apply Forall_cons in Hf as [(F0 & _ & _) Hf]. apply Forall_cons in Hf as [(F1 & _ & _) _]. cbn in F0, F1. nia.
  - (* Cond *)
    destruct args as [|[t o] [|a1 [|a2 [|]]]]; try done. apply Forall_cons in Hf as [(F0 & _ & _) _]. cbn in F0. destruct t; cbn; [|done|exfalso; by apply Hd]. intros [= <-]. cbn in F0. fa; lia.
  - (* Conv *)
    destruct args as [|a0 [|a1 [|a2 [|a3 [|a4 [|a5 [|a6 [|a7 [|a8 [|a9 [|]]]]]]]]]]]; try done. case_decide as Hz; [done|]. intros [= <-].
    repeat match goal with F : Forall known_arg (_ :: _) |- _ => apply Forall_cons in F as [? F] end.
    pose proof (const_known 1 a6 ltac:(lia) ltac:(done)). pose proof (const_known 1 a7 ltac:(lia) ltac:(done)).
    pose proof (known_shape a0.1 ltac:(apply H)). pose proof (known_shape a1.1 ltac:(apply H0)).
    fa; try lia. rewrite decide_False by lia. apply Z.mul_nonneg_nonneg; [apply Z.mul_nonneg_nonneg|]; [lia|apply extent_known; lia..].
  - (* Pool *)
    destruct args as [|a0 [|a1 [|a2 [|a3 [|a4 [|a5 [|a6 [|a7 [|a8 [|a9 [|]]]]]]]]]]]; try done. case_decide as Hz; [done|]. intros [= <-].
    repeat match goal with F : Forall known_arg (_ :: _) |- _ => apply Forall_cons in F as [? F] end.
    pose proof (const_known 1 a6 ltac:(lia) ltac:(done)). pose proof (const_known 1 a7 ltac:(lia) ltac:(done)). pose proof (const_known 1 a1 ltac:(lia) ltac:(done)).
    pose proof (known_shape a0.1 ltac:(apply H)).
    fa; try lia. apply Z.mul_nonneg_nonneg; [apply Z.mul_nonneg_nonneg|]; [lia|apply extent_known; lia..].
Qed.

(** If all arguments have known shapes and all scalar operands are constants,
    then inference finds the shapes of all results, unless they depend on the
    data. *)
Theorem C59_known (k : opk) (args : list (ty * option Z)) ts :
  Forall known_arg args → well_formed k args → ¬ data_dependent k args → result_types k args = Ok ts → Forall known_ty ts.
Proof.
  intros Hf Hw Hd. unfold result_types. case_decide as Hk.
  - intros [= <-]. apply Forall_map, Forall_true. done.
  - intros (ss & E & H1)%obind_Ok. case_decide; [|done]. injection H1 as <-. apply zip_known. by eapply infer_known.
Qed.
(** E.g. row sums of a 3 x 4 matrix and a slice of its rows. *)
Example C59_known_ex1 : well_formed AggRow [(TMat 3 4, None)] ∧ result_types AggRow [(TMat 3 4, None)] = Ok [TMat 3 1].
Proof. repeat split; repeat constructor. Qed.
Example C59_known_ex2 : let args := [(TMat 3 4, None); (TSca, Some 1); (TSca, Some 3)]%Z in
  Forall known_arg args ∧ well_formed SliceRow args ∧ result_types SliceRow args = Ok [TMat 2 4].
Proof.
  split; [|split; [repeat split; repeat constructor|done]]. repeat (apply Forall_cons_2; [split; [cbn; lia|split; [by eauto|intros z [= <-]; lia]]|]). apply Forall_nil_2.
Qed.

Print Assumptions C59_known.
