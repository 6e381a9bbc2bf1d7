(** C59: the shapes which the compiler infers are those of the values at run
    time.  Theorems and concrete cases. *)
From stdpp Require Import base numbers list gmap.
From Verif Require Import CppBase ShapeModel ShapeSpec ShapeProofs ShapePass ShapeRounds.

(** * Single operations *)

(** If what is known of the operands is true of the arguments, then for all calls
    but the listed ones the inferred types are true of all results the kernel
    can return. *)
Theorem C59_op_shapes (k : opk) (is : list (ty * option Z)) (vs ws : list val) (ts : list ty) :
  Forall2 (λ i v, has i.1 v ∧ ∀ z, i.2 = Some z → v = VSca z) is vs →
  fine k is → result_types k is = Ok ts → kern k vs ws → Forall2 has ts ws.
Proof.
  intros Hf Hfine Ht Hk. destruct (op_sound k is vs ws Hf Hk) as (ts'&Ht'&H).
  assert (ts' = ts) as -> by congruence. by apply H.
Qed.

(** A call is rejected by the inference, or makes it crash, only if the kernel
    would not accept it either. *)
Theorem C59_op_rejects (k : opk) (is : list (ty * option Z)) (vs ws : list val) :
  Forall2 (λ i v, has i.1 v ∧ ∀ z, i.2 = Some z → v = VSca z) is vs →
  result_types k is = Throw ∨ result_types k is = UB → ¬ kern k vs ws.
Proof.
  intros Hf Ht Hk. destruct (op_sound k is vs ws Hf Hk) as (ts'&Ht'&_).
  destruct Ht; congruence.
Qed.

(** * Programs *)

(** At every point of every execution, in the middle of loops and branches,
    whether or not the execution ends, each value has the type the compiler
    inferred for it. *)
Theorem C59_program_shapes (p : list stmt) (Γ0 Γ : tenv) (n : nat) (ρ0 ρ : venv) :
  NoDup (defs p) → (∀ x, x ∈ defs p → Γ0 !! x = None) →
  walk n p Γ0 = Some (Ok Γ) →
  every (λ k xs, ∀ is, mapM (info_of Γ) xs = Some is → fine k is) p →
  all_have Γ0 ρ0 → reach p ρ0 ρ →
  ∀ x v, ρ !! x = Some v → ∃ t, Γ !! x = Some t ∧ has t v.
Proof.
  intros Hnd Hfr Hw Hev Hok Hr.
  destruct (walk_sound n p Γ0 Γ Γ ρ0) as [_ H]; [done..|]. by apply H.
Qed.
Theorem C59_final_shapes (p : list stmt) (Γ0 Γ : tenv) (n : nat) (ρ0 ρ : venv) :
  NoDup (defs p) → (∀ x, x ∈ defs p → Γ0 !! x = None) →
  walk n p Γ0 = Some (Ok Γ) →
  every (λ k xs, ∀ is, mapM (info_of Γ) xs = Some is → fine k is) p →
  all_have Γ0 ρ0 → run p ρ0 ρ →
  ∀ x v, ρ !! x = Some v → ∃ t, Γ !! x = Some t ∧ has t v.
Proof.
  intros Hnd Hfr Hw Hev Hok Hr.
  destruct (walk_sound n p Γ0 Γ Γ ρ0) as [H _]; [done..|]. by apply H.
Qed.

(** So nrow(x) and ncol(x) may be replaced by the inferred numbers, as
    Canonicalize.cpp (NumRowsOp::canonicalize, NumColsOp::canonicalize) does:
    the kernel could return nothing else. *)
Theorem C59_nrow_ncol (p : list stmt) (Γ0 Γ : tenv) (n : nat) (ρ0 ρ : venv) x t v :
  NoDup (defs p) → (∀ x, x ∈ defs p → Γ0 !! x = None) →
  walk n p Γ0 = Some (Ok Γ) →
  every (λ k xs, ∀ is, mapM (info_of Γ) xs = Some is → fine k is) p →
  all_have Γ0 ρ0 → reach p ρ0 ρ → ρ !! x = Some v → Γ !! x = Some t → t ≠ TSca →
  ((shape t).1 ≠ (-1)%Z → ∀ ws, kern NumRows [v] ws ↔ ws = [VSca (shape t).1]) ∧
  ((shape t).2 ≠ (-1)%Z → ∀ ws, kern NumCols [v] ws ↔ ws = [VSca (shape t).2]).
Proof.
  intros Hnd Hfr Hw Hev Hok Hr Hx Ht Hs.
  destruct (C59_program_shapes p Γ0 Γ n ρ0 ρ Hnd Hfr Hw Hev Hok Hr x v Hx) as (t'&Ht'&Hh).
  assert (t' = t) as -> by congruence. unfold dim_ok in *.
  split; intros Hk ws; split.
  - intros Hk'. destruct ws as [|w [|]]; cbn in Hk'; try (by destruct v); try (by destruct w).
    destruct w as [| |z]; try done. destruct Hk' as [Hd ->].
    destruct t, v; try done; cbn in *; unfold eqz in *; destruct Hh as [[?|?] [?|?]]; congruence.
  - intros ->. destruct t, v; try done; cbn in *; unfold eqz; destruct Hh as [[?|?] [?|?]]; done.
  - intros Hk'. destruct ws as [|w [|]]; cbn in Hk'; try (by destruct v); try (by destruct w).
    destruct w as [| |z]; try done. destruct Hk' as [Hd ->].
    destruct t, v; try done; cbn in *; unfold eqz in *; destruct Hh as [[?|?] [?|?]]; congruence.
  - intros ->. destruct t, v; try done; cbn in *; unfold eqz; destruct Hh as [[?|?] [?|?]]; done.
Qed.

(** * Termination *)

(** If the inference comes to an end at all, then with at most 2 w + 1 rounds per
    loop, w the number of variables carried by the widest loop. *)
Theorem C59_rounds (p : list stmt) (Γ : tenv) (m n : nat) r :
  walk m p Γ = Some r → 2 * width p < n → walk n p Γ = Some r.
Proof. intros H Hn. by eapply walk_rounds. Qed.

(** It does not come to an end if for some loop the types of the variables are
    what they have in common with the yielded types, but are not these types:
    that is, if a variable of unknown shape gets a value of known shape. *)
Theorem C59_hang iv args rs ini b ys l (Γ Γb : tenv) ts yt n :
  mapM (ty_of Γ) ini = Some ts → length args = length ts →
  walk n b (set_all (iv :: args) (TSca :: ts) Γ) = Some (Ok Γb) →
  mapM (ty_of Γb) ys = Some yt → length yt = length ts → yt ≠ ts →
  mapM (λ p, common p.1 p.2) (zip yt ts) = Some ts →
  ∀ m, walk m (For iv args rs ini b ys :: l) Γ = None.
Proof.
  intros Hi Hl Hb Hy Hly Hne Hc m.
  set (s := For iv args rs ini b ys).
  destruct (walk1 m s Γ) as [r|] eqn:E; [|cbn [in_order]; by rewrite E].
  exfalso. set (N := S (2 * width1 s + 2 * width b)).
  apply (walk1_rounds s N) in E; [|lia].
  apply (walk_rounds b n _ _ N) in Hb; [|lia].
  subst s. cbn [walk1] in E. rewrite Hi in E.
  rewrite stuck_None in E; [done|].
  exists Γb, yt. split_and!; [|done..].
  unfold set_tys. rewrite decide_True by (cbn; lia). rewrite Hb. by rewrite Hy.
Qed.

(** * Defects *)

(** The compiler hangs:
<<
    X = fill(1, 1, 1);
    for(i in 1:n)
        X = fill(1, 3, 3);
>> *)
Definition hang_prog : list stmt :=
  [Op [0] Fill [Lit 1; Lit 1; Lit 1];
   For 1 [2] [3] [Var 0] [Op [4] Fill [Lit 1; Lit 3; Lit 3]] [Var 4]].
Theorem C59_terminates_refuted : NoDup (defs hang_prog) ∧ ∀ n, walk n hang_prog ∅ = None.
Proof.
  split; [by apply (bool_decide_unpack _); vm_compute|].
  intros n. destruct (walk n hang_prog ∅) as [r|] eqn:E; [|done].
  apply (walk_rounds _ _ _ _ 5) in E; [|vm_compute; lia]. by vm_compute in E.
Qed.

(** A program accepted by the compiler, of which a value at the end of an
    execution does not have its inferred type. *)
Definition mistyped (p : list stmt) : Prop :=
  ∃ n Γ ρ x t v, NoDup (defs p) ∧ walk n p ∅ = Some (Ok Γ) ∧ run p ∅ ρ ∧
    Γ !! x = Some t ∧ ρ !! x = Some v ∧ ¬ has t v.

Ltac step vs ws :=
  eapply run_cons; [eapply (run_op _ _ _ _ vs ws); [by vm_compute| |by vm_compute]|].
Ltac mistype x :=
  exists 1; eexists; eexists; exists x; eexists; eexists; split_and!;
    [by apply (bool_decide_unpack _); vm_compute|by vm_compute| | | |].

(** cartesian() of a frame of unknown height: the inferred number of rows is the
    negative of that of the other frame. *)
Definition cartesian_prog : list stmt :=
  [Op [0] Rand [Lit 3; Lit 1; Lit 0; Lit 1; Lit 1; Lit (-1)];
   Op [1] CreateFrame [Var 0];
   Op [2] FilterRow [Var 1; Var 0];
   Op [3] Cartesian [Var 2; Var 1]].
Theorem C59_cartesian_refuted : mistyped cartesian_prog.
Proof.
  mistype 3.
  - step [VSca 3; VSca 1; VSca 0; VSca 1; VSca 1; VSca (-1)] [VMat 3 1]; [done|].
    step [VMat 3 1] [VFrm 3 1]; [by repeat constructor|].
    step [VFrm 3 1; VMat 3 1] [VFrm 2 1]; [cbn; split_and!; [done..|by exists 2; split; [lia|]]|].
    step [VFrm 2 1; VFrm 3 1] [VFrm 6 2]; [done|]. apply run_nil.
  - by vm_compute.
  - by vm_compute.
  - cbn. unfold dim_ok. naive_solver lia.
Qed.

(** seq(1, 10, -1): ten rows are inferred, the result has none. *)
Definition seq_prog : list stmt := [Op [0] Seq [Lit 1; Lit 10; Lit (-1)]].
Theorem C59_seq_refuted : mistyped seq_prog.
Proof.
  mistype 0.
  - step [VSca 1; VSca 10; VSca (-1)] [VMat 0 1]; [|apply run_nil].
    cbn. unfold seq_rows. rewrite decide_True by lia. split_and!; [lia|done..].
  - by vm_compute.
  - by vm_compute.
  - cbn. unfold dim_ok. naive_solver lia.
Qed.

(** seq(1, 10, 0) makes the compiler divide by zero. *)
Theorem C59_seq_zero_refuted : walk 1 [Op [0] Seq [Lit 1; Lit 10; Lit 0]] ∅ = Some UB.
Proof. by vm_compute. Qed.

(** a - X with a scalar a (the operands of the function are typed only when it is
    called): a single cell is inferred, the result is as large as X. *)
Definition scalar_left_prog : list stmt :=
  [Op [0] Rand [Lit 3; Lit 2; Lit 0; Lit 1; Lit 1; Lit (-1)];
   Op [1] EwBinary [Lit 7; Var 0]].
Theorem C59_scalar_left_refuted : mistyped scalar_left_prog.
Proof.
  mistype 1.
  - step [VSca 3; VSca 2; VSca 0; VSca 1; VSca 1; VSca (-1)] [VMat 3 2]; [done|].
    step [VSca 7; VMat 3 2] [VMat 3 2]; [done|]. apply run_nil.
  - by vm_compute.
  - by vm_compute.
  - cbn. unfold dim_ok. naive_solver lia.
Qed.

(** maxPool(X, 1, 1, 4, 6, 2, 2, 2, 1, 0, 0): ten columns are inferred, the
    result has nine. *)
Definition pool_prog : list stmt :=
  [Op [0] Rand [Lit 1; Lit 24; Lit 0; Lit 1; Lit 1; Lit (-1)];
   Op [1; 2; 3] Pool [Var 0; Lit 1; Lit 4; Lit 6; Lit 2; Lit 2; Lit 2; Lit 1; Lit 0; Lit 0]].
Theorem C59_pool_refuted : mistyped pool_prog.
Proof.
  mistype 1.
  - step [VSca 1; VSca 24; VSca 0; VSca 1; VSca 1; VSca (-1)] [VMat 1 24]; [done|].
    step [VMat 1 24; VSca 1; VSca 4; VSca 6; VSca 2; VSca 2; VSca 2; VSca 1; VSca 0; VSca 0]
         [VMat 1 9; VSca 3; VSca 3]; [|apply run_nil].
    cbn. split; [done|]. exists 3, 3, 1. unfold out_extent, eqz. split_and!; first [lia|by vm_compute].
  - by vm_compute.
  - by vm_compute.
  - cbn. unfold dim_ok. naive_solver lia.
Qed.

(** conv2d() where the height of the images is not a constant: it is taken to be
    one. *)
Definition conv_prog : list stmt :=
  [Op [0] Rand [Lit 4; Lit 24; Lit 0; Lit 1; Lit 1; Lit (-1)];
   Op [1] Rand [Lit 1; Lit 1; Lit 0; Lit 1; Lit 1; Lit (-1)];
   Op [2] NumRows [Var 0];
   Op [3; 4; 5] Conv [Var 0; Var 1; Var 2; Lit 6; Lit 1; Lit 1; Lit 1; Lit 1; Lit 0; Lit 0]].
Theorem C59_conv_refuted : mistyped conv_prog.
Proof.
  mistype 3.
  - step [VSca 4; VSca 24; VSca 0; VSca 1; VSca 1; VSca (-1)] [VMat 4 24]; [done|].
    step [VSca 1; VSca 1; VSca 0; VSca 1; VSca 1; VSca (-1)] [VMat 1 1]; [done|].
    step [VMat 4 24] [VSca 4]; [done|].
    step [VMat 4 24; VMat 1 1; VSca 4; VSca 6; VSca 1; VSca 1; VSca 1; VSca 1; VSca 0; VSca 0]
         [VMat 4 24; VSca 4; VSca 6]; [|apply run_nil].
    cbn. split; [done|]. exists 4, 6. unfold out_extent. split_and!; first [lia|by vm_compute].
  - by vm_compute.
  - by vm_compute.
  - cbn. unfold dim_ok. naive_solver lia.
Qed.

(** ctable(X, X, 1, -2, -2): every negative number leaves the shape to the kernel,
    but only -1 is unknown for the compiler. *)
Definition ctable_prog : list stmt :=
  [Op [0] Rand [Lit 3; Lit 1; Lit 0; Lit 1; Lit 1; Lit (-1)];
   Op [1] CTable [Var 0; Var 0; Lit 1; Lit (-2); Lit (-2)]].
Theorem C59_ctable_refuted : mistyped ctable_prog.
Proof.
  mistype 1.
  - step [VSca 3; VSca 1; VSca 0; VSca 1; VSca 1; VSca (-1)] [VMat 3 1]; [done|].
    step [VMat 3 1; VMat 3 1; VSca 1; VSca (-2); VSca (-2)] [VMat 2 2]; [|apply run_nil].
    cbn. split_and!; try done; left; lia.
  - by vm_compute.
  - by vm_compute.
  - cbn. unfold dim_ok. naive_solver lia.
Qed.

(** The positions of the ones in a bitmap: as many as the bitmap has rows are
    inferred. *)
Definition bitmap_prog : list stmt :=
  [Op [0] Rand [Lit 3; Lit 1; Lit 0; Lit 1; Lit 1; Lit (-1)]; Op [1] BitmapToPos [Var 0]].
Theorem C59_bitmap_refuted : mistyped bitmap_prog.
Proof.
  mistype 1.
  - step [VSca 3; VSca 1; VSca 0; VSca 1; VSca 1; VSca (-1)] [VMat 3 1]; [done|].
    step [VMat 3 1] [VMat 2 1]; [|apply run_nil]. cbn. lia.
  - by vm_compute.
  - by vm_compute.
  - cbn. unfold dim_ok. naive_solver lia.
Qed.

(** * A concrete case *)

(** A loop which appends a row in each iteration, with a branch in its body:
<<
    X = rand(10, 3, …);
    Y = rand(1, 3, …);
    for(i in …) {
        if(c) Z = Y; else Z = X[0:1, ];
        X = rbind(X, Z);
    }
    S = sum(X, 1);
    T = t(X) @ X;
>>
    The number of rows of X becomes unknown, that of its columns is kept. *)
Definition good_prog : list stmt :=
  [Op [0] Rand [Lit 10; Lit 3; Lit 0; Lit 1; Lit 1; Lit (-1)];
   Op [1] Rand [Lit 1; Lit 3; Lit 0; Lit 1; Lit 1; Lit (-1)];
   Op [2] AggAll [Var 1];
   For 3 [4] [5] [Var 0]
     [If [6] (Var 2) [] [Var 1] [Op [7] SliceRow [Var 4; Lit 0; Lit 1]] [Var 7];
      Op [8] RowBind [Var 4; Var 6]] [Var 8];
   Op [9] AggCol [Var 5];
   Op [10] MatMul [Var 5; Var 5; Lit 1; Lit 0]].
Definition good_types : option (outcome tenv) := walk 3 good_prog ∅.

Example C59_ex_types :
  match good_types with
  | Some (Ok Γ) =>
      (λ x, Γ !! x) <$> [5; 6; 9; 10] =
      [Some (TMat (-1) 3); Some (TMat (-1) 3); Some (TMat 1 3); Some (TMat 3 3)]
  | _ => False
  end.
Proof. by vm_compute. Qed.

Lemma fine_other k is :
  match k with
  | Seq | Cartesian | EwBinary | CTable | Conv | Pool | BitmapToPos => False | _ => True
  end → fine k is.
Proof. by destruct k. Qed.

Theorem C59_ex_applies :
  ∃ Γ, good_types = Some (Ok Γ) ∧ NoDup (defs good_prog) ∧
    every (λ k xs, ∀ is, mapM (info_of Γ) xs = Some is → fine k is) good_prog ∧
    all_have ∅ ∅ ∧
    ∃ ρ, run good_prog ∅ ρ ∧ ρ !! 5 = Some (VMat 11 3) ∧ ρ !! 10 = Some (VMat 3 3).
Proof.
  eexists. split_and!.
  - by vm_compute.
  - by apply (bool_decide_unpack _); vm_compute.
  - repeat constructor; intros is _; by apply fine_other.
  - intros x v Hx. done.
  - eexists. split_and!.
    + step [VSca 10; VSca 3; VSca 0; VSca 1; VSca 1; VSca (-1)] [VMat 10 3]; [done|].
      step [VSca 1; VSca 3; VSca 0; VSca 1; VSca 1; VSca (-1)] [VMat 1 3]; [done|].
      step [VMat 1 3] [VSca 5]; [done|].
      eapply run_cons.
      { eapply (run_for _ _ _ _ _ _ _ [VMat 10 3] [VMat 11 3]); [by vm_compute|].
        eapply (for_more _ _ _ _ _ _ [VMat 10 3] 0); [apply for_zero| |].
        - eapply run_cons; [eapply (run_then _ _ _ _ _ _ _ 5 _ [VMat 1 3])|];
            [by vm_compute|done|apply run_nil|by vm_compute|].
          step [VMat 10 3; VMat 1 3] [VMat 11 3]; [done|apply run_nil].
        - by vm_compute. }
      step [VMat 11 3] [VMat 1 3]; [done|].
      step [VMat 11 3; VMat 11 3; VSca 1; VSca 0] [VMat 3 3]; [done|apply run_nil].
    + by vm_compute.
    + by vm_compute.
Qed.

(** An operation with an unknown dimension and a constant. *)
Example C59_ex_slice :
  result_types SliceRow [(TMat 10 (-1), None); (TSca, Some 2%Z); (TSca, Some (-1)%Z)] = Ok [TMat 7 (-1)] ∧
  kern SliceRow [VMat 10 4; VSca 2; VSca (-1)] [VMat 7 4].
Proof.
  split; [by vm_compute|]. cbn. split; [done|]. exists 7. split; [|done].
  unfold slice. cbn zeta. repeat (rewrite ?decide_True, ?decide_False by lia). lia.
Qed.
(** Matrices of different heights cannot be bound: rejected, and no kernel result. *)
Example C59_ex_reject :
  result_types ColBind [(TMat 10 2, None); (TMat 9 2, None)] = Throw.
Proof. by vm_compute. Qed.

Print Assumptions C59_op_shapes.
Print Assumptions C59_op_rejects.
Print Assumptions C59_program_shapes.
Print Assumptions C59_final_shapes.
Print Assumptions C59_nrow_ncol.
Print Assumptions C59_rounds.
Print Assumptions C59_hang.
Print Assumptions C59_terminates_refuted.
Print Assumptions C59_cartesian_refuted.
Print Assumptions C59_seq_refuted.
Print Assumptions C59_seq_zero_refuted.
Print Assumptions C59_scalar_left_refuted.
Print Assumptions C59_pool_refuted.
Print Assumptions C59_conv_refuted.
Print Assumptions C59_ctable_refuted.
Print Assumptions C59_bitmap_refuted.
Print Assumptions C59_ex_applies.
