(** C59, specification: the shapes which the kernels really produce and the
    executions of a program, independently of the inference. *)
From stdpp Require Import base numbers list gmap.
From Verif Require Import CppBase ShapeModel.

(** * Values at run time *)

(** Of a value only its shape, or for a scalar its number, is kept; strings are
    arbitrary numbers. *)
Inductive val := VMat (r c : nat) | VFrm (r c : nat) | VSca (z : Z).

(** A dimension is unknown or the real one. *)
Definition dim_ok (d : Z) (n : nat) : Prop := d = (-1)%Z ∨ d = Z.of_nat n.

(** A value has the inferred type. *)
Definition has (t : ty) (v : val) : Prop :=
  match t, v with
  | TMat r c, VMat r' c' => dim_ok r r' ∧ dim_ok c c'
  | TFrm r c, VFrm r' c' => dim_ok r r' ∧ dim_ok c c'
  | TSca, VSca _ => True
  | _, _ => False
  end.

(** * Kernels *)

Definition dims (v : val) : nat * nat :=
  match v with VMat r c => (r, c) | VFrm r c => (r, c) | VSca _ => (1, 1) end.

(** The same data type with another shape. *)
Definition reshaped (v : val) (r c : nat) : val :=
  match v with VMat _ _ => VMat r c | VFrm _ _ => VFrm r c | VSca z => VSca z end.
Definition is_data (v : val) : Prop := match v with VSca _ => False | _ => True end.

(** src/runtime/local/kernels/Slice{Row,Col}.h 80-100: negative positions count
    from the end; then 0 <= lo < n and lo <= up <= n. *)
Definition slice (len : nat) (lo up : Z) (m : nat) : Prop :=
  let n := Z.of_nat len in
  let lo' := if decide (lo < 0)%Z then (lo + n)%Z else lo in
  let up' := if decide (lo < 0)%Z
             then (if decide (up <= 0)%Z then (up + n)%Z else up)
             else (if decide (up < 0)%Z then (up + n)%Z else up) in
  (0 <= lo' < n ∧ lo' <= up' <= n)%Z ∧ Z.of_nat m = (up' - lo')%Z.

(** Seq.h 45-98 for integers: no rows if the increment goes the wrong way, else
    the numbers from [a] to [b] in steps of [i]. *)
Definition seq_rows (a b i : Z) (m : nat) : Prop :=
  (i ≠ 0)%Z ∧
  if decide ((a < b ∧ i < 0) ∨ (b < a ∧ 0 < i))%Z then m = 0
  else Z.of_nat m = (Z.abs (b - a) `div` Z.abs i + 1)%Z.

(** Conv2D.cpp 21-24, getPQ, on 32-bit numbers. *)
Definition out_extent (img flt pad stride : Z) (m : nat) : Prop :=
  (0 <= img ∧ 0 <= pad ∧ 0 <= flt <= img + 2 * pad ∧ img + 2 * pad < 2 ^ 32 ∧ 0 < stride)%Z ∧
  Z.of_nat m = ((img + 2 * pad - flt) `div` stride + 1)%Z.

Definition eqz (z : Z) (n : nat) : Prop := z = Z.of_nat n.

(** [kern k args results]: the operation, called with these arguments, can
    return results of these shapes.  Where the shape depends on the data, every
    shape the data could lead to is allowed.  Calls for which the kernel throws
    are left out.  All files are in src/runtime/local/kernels. *)
Definition kern (k : opk) (args res : list val) : Prop :=
  match k, args, res with
  (* Fill.h 44-60 *)
  | Fill, [_; VSca nr; VSca nc], [VMat r c] => eqz nr r ∧ eqz nc c
  (* RandMatrix.h 60-80 *)
  | Rand, VSca nr :: VSca nc :: _, [VMat r c] => eqz nr r ∧ eqz nc c
  (* Sample.h 50-65 *)
  | Sample, [_; VSca n; _; _], [VMat r c] => eqz n r ∧ c = 1
  | Seq, [VSca a; VSca b; VSca i], [VMat r c] => seq_rows a b i r ∧ c = 1
  (* CreateFrame.h, Frame.h 215-245: columns of one length *)
  | CreateFrame, vs, [VFrm r c] => vs ≠ [] ∧ Forall (λ v, v = VMat r 1) vs ∧ c = length vs
  (* DiagMatrix.h 55-66 *)
  | DiagMatrix, [VMat n m], [VMat r c] => m = 1 ∧ r = n ∧ c = n
  (* EwUnaryMat.h, EwUnarySca.h *)
  | EwUnary, [v], [w] => match v, w with VSca _, VSca _ => True | _, _ => w = v ∧ is_data v end
  (* EwBinaryMat.h 55-108 (the shape of the left-hand side), EwBinaryObjSca.h,
     EwBinarySca.h.  A scalar on the left and data on the right: the operands
     are swapped by the canonicalizations of EwAddOp, EwSubOp, EwMulOp and EwDivOp
     (Canonicalize.cpp 297-404), the result is that of the swapped operation. *)
  | EwBinary, [VSca _; VSca _], [VSca _] => True
  | EwBinary, [VMat r1 c1; VMat r2 c2], [VMat r c] =>
      r = r1 ∧ c = c1 ∧
      ((r1 = r2 ∧ c1 = c2) ∨ (c1 = c2 ∧ (r1 = 1 ∨ r2 = 1)) ∨ (r1 = r2 ∧ (c1 = 1 ∨ c2 = 1)))
  | EwBinary, [VMat r1 c1; VSca _], [VMat r c] => r = r1 ∧ c = c1
  | EwBinary, [VFrm r1 c1; VSca _], [VFrm r c] => r = r1 ∧ c = c1
  | EwBinary, [VSca _; VMat r1 c1], [VMat r c] => r = r1 ∧ c = c1
  (* OuterBinary.h *)
  | Outer, [VMat r1 c1; VMat r2 c2], [VMat r c] => c1 = 1 ∧ r2 = 1 ∧ r = r1 ∧ c = c2
  (* AggAll.h, AggRow.h, AggCol.h, AggCum.h *)
  | AggAll, [VMat _ _], [VSca _] => True
  | AggRow, [VMat r1 _], [VMat r c] => r = r1 ∧ c = 1
  | AggCol, [VMat _ c1], [VMat r c] => r = 1 ∧ c = c1
  | AggCum, [VMat r1 c1], [VMat r c] => r = r1 ∧ c = c1
  (* ExtractRow.h, ExtractCol.h: a column of positions; or the label of one column *)
  | ExtractRow, [v; VMat n m], [w] => is_data v ∧ m = 1 ∧ w = reshaped v n (dims v).2
  | ExtractCol, [v; VMat n m], [w] => is_data v ∧ m = 1 ∧ w = reshaped v (dims v).1 n
  | ExtractCol, [VFrm r1 _; VSca _], [VFrm r c] => r = r1 ∧ c = 1
  | SliceRow, [v; VSca lo; VSca up], [w] =>
      is_data v ∧ ∃ m, slice (dims v).1 lo up m ∧ w = reshaped v m (dims v).2
  | SliceCol, [v; VSca lo; VSca up], [w] =>
      is_data v ∧ ∃ m, slice (dims v).2 lo up m ∧ w = reshaped v (dims v).1 m
  (* InsertRow.h, InsertCol.h *)
  | InsertRow, [v; _; _; _], [w] | InsertCol, [v; _; _; _], [w] => is_data v ∧ w = v
  (* Reshape.h *)
  | Reshape, [VMat r1 c1; VSca nr; VSca nc], [VMat r c] => eqz nr r ∧ eqz nc c ∧ r * c = r1 * c1
  (* Transpose.h *)
  | Transpose, [VMat r1 c1], [VMat r c] => r = c1 ∧ c = r1
  (* ColBind.h, RowBind.h *)
  | ColBind, [VMat r1 c1; VMat r2 c2], [VMat r c] => r1 = r2 ∧ r = r1 ∧ c = c1 + c2
  | ColBind, [VFrm r1 c1; VFrm r2 c2], [VFrm r c] => r1 = r2 ∧ r = r1 ∧ c = c1 + c2
  | RowBind, [VMat r1 c1; VMat r2 c2], [VMat r c] => c1 = c2 ∧ r = r1 + r2 ∧ c = c1
  | RowBind, [VFrm r1 c1; VFrm r2 c2], [VFrm r c] => c1 = c2 ∧ r = r1 + r2 ∧ c = c1
  (* Reverse.h, Order.h: the positions or the ordered data *)
  | Reverse, [VMat r1 c1], [VMat r c] => r = r1 ∧ c = c1
  | Order, [VMat r1 c1; VSca z], [VMat r c] => r = r1 ∧ c = if decide (z = 0)%Z then c1 else 1
  | Order, [VFrm r1 c1; VSca z], [VFrm r c] => z = 0%Z ∧ r = r1 ∧ c = c1
  (* MatMul.cpp *)
  | MatMul, [VMat r1 c1; VMat r2 c2; VSca ta; VSca tb], [VMat r c] =>
      let l := if decide (ta = 0)%Z then (r1, c1) else (c1, r1) in
      let m := if decide (tb = 0)%Z then (r2, c2) else (c2, r2) in
      l.2 = m.1 ∧ r = l.1 ∧ c = m.2
  (* Syrk.h 48-72 as called by the function syrk of the language
     (DaphneDSLBuiltins.cpp 1066-1071: transLeft is true) *)
  | Syrk, [VMat r1 c1; VSca _], [VMat r c] => r = c1 ∧ c = c1
  (* Gemv.h 52-74, dense *)
  | Gemv, [VMat r1 c1; VMat _ _], [VMat r c] => r = c1 ∧ c = 1
  (* DiagVector.h 55-68, Tri.h 67-77, Solve.h 58-71, Replace.h, CTable.h 66-80 *)
  | DiagVector, [VMat r1 c1], [VMat r c] => r1 = c1 ∧ r1 ≠ 0 ∧ r = r1 ∧ c = 1
  | Tri, [VMat r1 c1; _; _; _], [VMat r c] => r1 = c1 ∧ r = r1 ∧ c = c1
  | Solve, [VMat r1 c1; VMat r2 c2], [VMat r c] => r1 = r2 ∧ r1 = c1 ∧ c2 = 1 ∧ r = r1 ∧ c = c2
  | Replace, [VMat r1 c1; _; _], [VMat r c] => r = r1 ∧ c = c1
  | CTable, [VMat r1 c1; VMat r2 c2; _; VSca nr; VSca nc], [VMat r c] =>
      c1 = 1 ∧ c2 = 1 ∧ r1 = r2 ∧ (nr < 0 ∨ eqz nr r)%Z ∧ (nc < 0 ∨ eqz nc c)%Z
  (* EigenCal.h 60-88 *)
  | Eigen, [VMat r1 c1], [VMat r c; VMat r' c'] => r1 = c1 ∧ r = r1 ∧ c = 1 ∧ r' = r1 ∧ c' = r1
  (* Cartesian.h, InnerJoin.h, GroupJoin.h 94-99, SemiJoin.h, FilterRow.h, FilterCol.h, Group.h *)
  | Cartesian, [VFrm r1 c1; VFrm r2 c2], [VFrm r c] => r = r1 * r2 ∧ c = c1 + c2
  | InnerJoin, VFrm _ c1 :: VFrm _ c2 :: _, [VFrm r c] => c = c1 + c2
  | GroupJoin, VFrm _ _ :: VFrm _ _ :: _, [VFrm r c; VMat r' c'] => c = 2 ∧ r' = r ∧ c' = 1
  | SemiJoin, VFrm _ _ :: VFrm _ _ :: _, [VFrm r c; VMat r' c'] => c = 1 ∧ r' = r ∧ c' = 1
  | FilterRow, [v; VMat n 1], [w] => is_data v ∧ n = (dims v).1 ∧ ∃ m, m ≤ n ∧ w = reshaped v m (dims v).2
  | FilterCol, [v; VMat n 1], [w] => is_data v ∧ n = (dims v).2 ∧ ∃ m, m ≤ n ∧ w = reshaped v (dims v).1 m
  | Group nk na, VFrm r1 _ :: _, [VFrm r c] => r ≤ r1 ∧ c = nk + na
  (* SetColLabels.h *)
  | SetColLabels, VFrm r1 c1 :: _, [VFrm r c] => r = r1 ∧ c = c1
  (* CastObj.h, CastObjSca.h, CastScaObj.h, CastSca.h *)
  | Cast KMat, [v], [VMat r c] => (r, c) = dims v
  | Cast KFrm, [v], [VFrm r c] => (r, c) = dims v
  | Cast KSca, [v], [VSca _] => dims v = (1, 1)
  (* OneHot.h 58-92, Recode.h, Bin.h 85-95, Quantize.h 85-101, Map.h *)
  | OneHot, [VMat r1 c1; VMat 1 c2], [VMat r c] => c1 = c2 ∧ r = r1
  | Recode, [VMat r1 1; _], [VMat r c; VMat r' c'] => r = r1 ∧ c = 1 ∧ c' = 1
  | Bin, VMat r1 c1 :: _, [VMat r c] => r = r1 ∧ c = c1
  | Quantize, VMat r1 c1 :: _, [VMat r c] => r = r1 ∧ c = c1
  | MapOp, VMat r1 c1 :: _, [VMat r c] => r = r1 ∧ c = c1
  (* CondMat*.h; a scalar condition chooses one of the values
     (Canonicalize.cpp 431-510, both must have the same data type) *)
  | Cond, [VMat r1 c1; t; e], [VMat r c] =>
      r = r1 ∧ c = c1 ∧ (∀ v, v = t ∨ v = e → is_data v → v = VMat r1 c1)
  | Cond, [VSca z; t; e], [w] =>
      (match t, e with VMat _ _, VMat _ _ | VFrm _ _, VFrm _ _ | VSca _, VSca _ => True | _, _ => False end)
      ∧ w = if decide (z = 0)%Z then e else t
  (* Conv2DForward.h 80-112: one row per image, as many as the input has *)
  | Conv, [VMat n _; VMat f _; VSca h; VSca w; VSca fh; VSca fw; VSca sh; VSca sw; VSca ph; VSca pw],
    [VMat r c; VSca _; VSca _] =>
      r = n ∧ ∃ p q, out_extent h fh ph sh p ∧ out_extent w fw pw sw q ∧ c = f * p * q
  (* Pooling.cpp 36-57: the height is divided by the stride of the width and
     the other way round *)
  | Pool, [VMat n _; VSca ch; VSca h; VSca w; VSca fh; VSca fw; VSca sh; VSca sw; VSca ph; VSca pw],
    [VMat r c; VSca _; VSca _] =>
      r = n ∧ ∃ p q k, eqz ch k ∧ out_extent h fh ph sw p ∧ out_extent w fw pw sh q ∧ c = k * p * q
  (* ConvertBitmapToPosList.h: as many rows as there are ones *)
  | BitmapToPos, [VMat n 1], [VMat r c] => r ≤ n ∧ c = 1
  (* NumRows.h, NumCols.h *)
  | NumRows, [v], [VSca z] => is_data v ∧ eqz z (dims v).1
  | NumCols, [v], [VSca z] => is_data v ∧ eqz z (dims v).2
  | _, _, _ => False
  end.

(** * Executions *)

Notation venv := (gmap nat val).

Definition eval (ρ : venv) (o : opd) : option val :=
  match o with Var x => ρ !! x | Lit z => Some (VSca z) end.

(** [run1 s ρ ρ']: the statement can be executed from [ρ] to its end; then the
    values are those of [ρ'].  Values defined in a block are not visible behind
    it.  A for-loop may do any number of iterations. *)
Inductive run1 : stmt → venv → venv → Prop :=
| run_op rs k xs ρ vs ws :
    mapM (eval ρ) xs = Some vs → kern k vs ws → length rs = length ws →
    run1 (Op rs k xs) ρ (set_all rs ws ρ)
| run_for iv args rs ini b ys ρ vs ws :
    mapM (eval ρ) ini = Some vs → loop_for iv args b ys ρ vs ws →
    run1 (For iv args rs ini b ys) ρ (set_all rs ws ρ)
| run_while bargs ini b c ps aargs rs a ys ρ vs ws ρb us :
    mapM (eval ρ) ini = Some vs → loop_while bargs b c ps aargs a ys ρ vs ws →
    run (b) (set_all bargs ws ρ) ρb → eval ρb c = Some (VSca 0) →
    mapM (eval ρb) ps = Some us →
    run1 (While bargs ini b c ps aargs rs a ys) ρ (set_all rs us ρ)
| run_then rs c t ty e ey ρ z ρ' ws :
    eval ρ c = Some (VSca z) → z ≠ 0%Z → run t ρ ρ' → mapM (eval ρ') ty = Some ws →
    run1 (If rs c t ty e ey) ρ (set_all rs ws ρ)
| run_else rs c t ty e ey ρ ρ' ws :
    eval ρ c = Some (VSca 0) → run e ρ ρ' → mapM (eval ρ') ey = Some ws →
    run1 (If rs c t ty e ey) ρ (set_all rs ws ρ)
with run : list stmt → venv → venv → Prop :=
| run_nil ρ : run [] ρ ρ
| run_cons s l ρ ρ1 ρ2 : run1 s ρ ρ1 → run l ρ1 ρ2 → run (s :: l) ρ ρ2
(** The loop-carried values after some iterations. *)
with loop_for : nat → list nat → list stmt → list opd → venv → list val → list val → Prop :=
| for_zero iv args b ys ρ vs : loop_for iv args b ys ρ vs vs
| for_more iv args b ys ρ vs ws z ρ' us :
    loop_for iv args b ys ρ vs ws →
    run b (set_all (iv :: args) (VSca z :: ws) ρ) ρ' → mapM (eval ρ') ys = Some us →
    loop_for iv args b ys ρ vs us
with loop_while : list nat → list stmt → opd → list opd → list nat → list stmt → list opd →
                  venv → list val → list val → Prop :=
| while_zero bargs b c ps aargs a ys ρ vs : loop_while bargs b c ps aargs a ys ρ vs vs
| while_more bargs b c ps aargs a ys ρ vs ws ρb z pv ρa us :
    loop_while bargs b c ps aargs a ys ρ vs ws →
    run b (set_all bargs ws ρ) ρb → eval ρb c = Some (VSca z) → z ≠ 0%Z →
    mapM (eval ρb) ps = Some pv →
    run a (set_all aargs pv ρb) ρa → mapM (eval ρa) ys = Some us →
    loop_while bargs b c ps aargs a ys ρ vs us.

(** [reach l ρ ρ']: an execution of [l] from [ρ], which need not come to an end,
    can be at a point, in the middle of loops and branches, where the values are
    those of [ρ']. *)
Inductive reach1 : stmt → venv → venv → Prop :=
| in_for iv args rs ini b ys ρ vs ws z ρ' :
    mapM (eval ρ) ini = Some vs → loop_for iv args b ys ρ vs ws →
    reach b (set_all (iv :: args) (VSca z :: ws) ρ) ρ' →
    reach1 (For iv args rs ini b ys) ρ ρ'
| in_before bargs ini b c ps aargs rs a ys ρ vs ws ρ' :
    mapM (eval ρ) ini = Some vs → loop_while bargs b c ps aargs a ys ρ vs ws →
    reach b (set_all bargs ws ρ) ρ' →
    reach1 (While bargs ini b c ps aargs rs a ys) ρ ρ'
| in_after bargs ini b c ps aargs rs a ys ρ vs ws ρb z pv ρ' :
    mapM (eval ρ) ini = Some vs → loop_while bargs b c ps aargs a ys ρ vs ws →
    run b (set_all bargs ws ρ) ρb → eval ρb c = Some (VSca z) → z ≠ 0%Z →
    mapM (eval ρb) ps = Some pv →
    reach a (set_all aargs pv ρb) ρ' →
    reach1 (While bargs ini b c ps aargs rs a ys) ρ ρ'
| in_then rs c t ty e ey ρ z ρ' :
    eval ρ c = Some (VSca z) → z ≠ 0%Z → reach t ρ ρ' →
    reach1 (If rs c t ty e ey) ρ ρ'
| in_else rs c t ty e ey ρ ρ' :
    eval ρ c = Some (VSca 0) → reach e ρ ρ' →
    reach1 (If rs c t ty e ey) ρ ρ'
with reach : list stmt → venv → venv → Prop :=
| reach_here l ρ : reach l ρ ρ
| reach_in s l ρ ρ' : reach1 s ρ ρ' → reach (s :: l) ρ ρ'
| reach_next s l ρ ρ1 ρ' : run1 s ρ ρ1 → reach l ρ1 ρ' → reach (s :: l) ρ ρ'.

(** * Well-formed programs *)

(** The names a program defines; in SSA form all are different. *)
Fixpoint defs1 (s : stmt) : list nat :=
  match s with
  | Op rs _ _ => rs
  | For iv args rs _ b _ => (iv :: args) ++ flat_map defs1 b ++ rs
  | While bargs _ b _ _ aargs rs a _ =>
      bargs ++ flat_map defs1 b ++ rs ++ aargs ++ flat_map defs1 a
  | If rs _ t _ e _ => flat_map defs1 t ++ flat_map defs1 e ++ rs
  end.
Notation defs := (flat_map defs1).

(** [P] holds of all operations of the program, also in loops and branches. *)
Inductive every1 (P : opk → list opd → Prop) : stmt → Prop :=
| ev_op rs k xs : P k xs → every1 P (Op rs k xs)
| ev_for iv args rs ini b ys : Forall (every1 P) b → every1 P (For iv args rs ini b ys)
| ev_while bargs ini b c ps aargs rs a ys :
    Forall (every1 P) b → Forall (every1 P) a →
    every1 P (While bargs ini b c ps aargs rs a ys)
| ev_if rs c t ty e ey :
    Forall (every1 P) t → Forall (every1 P) e → every1 P (If rs c t ty e ey).
Definition every (P : opk → list opd → Prop) (l : list stmt) : Prop := Forall (every1 P) l.

(** All values have their inferred types. *)
Definition all_have (Γ : tenv) (ρ : venv) : Prop :=
  ∀ x v, ρ !! x = Some v → ∃ t, Γ !! x = Some t ∧ has t v.

(** * Where the inference is right *)

(** The calls of the operations, described by what is known of the operands,
    for which the inferred shapes are right.  The other calls are the defects:
    see the refutations in Shape.v. *)
Definition fine (k : opk) (args : list info) : Prop :=
  match k, args with
  | Seq, [(_, Some a); (_, Some b); (_, Some i)] => ((a < b → 0 < i) ∧ (b < a → i < 0))%Z
  | Cartesian, [(TFrm r1 _, _); (TFrm r2 _, _)] => (r1 ≠ -1 ∧ r2 ≠ -1)%Z
  | EwBinary, [(TSca, _); (TMat _ _, _)] => False
  | CTable, [_; _; _; (_, nr); (_, nc)] =>
      (∀ z, nr = Some z → -1 <= z)%Z ∧ (∀ z, nc = Some z → -1 <= z)%Z
  | Conv, [_; (w, _); a; b; c; d; e; f; g; h] =>
      (shape w).1 = (-1)%Z ∨ Forall (λ a, ∃ z, a.2 = Some z) [a; b; c; d; e; f; g; h]
  | Pool, [_; i; a; b; c; d; e; f; g; h] =>
      Forall (λ a, ∃ z, a.2 = Some z) [i; a; b; c; d; e; f; g; h] ∧ e.2 = f.2
  | BitmapToPos, [(t, _)] => (shape t).1 = (-1)%Z
  | _, _ => True
  end.

(** The largest number of variables which a loop carries from one iteration to
    the next. *)
Fixpoint width1 (s : stmt) : nat :=
  let all := foldr (λ s, Nat.max (width1 s)) 0 in
  match s with
  | Op _ _ _ => 0
  | For _ _ _ ini b _ => length ini `max` all b
  | While _ ini b _ _ _ _ a _ => length ini `max` (all b `max` all a)
  | If _ _ t _ e _ => all t `max` all e
  end.
Definition width (l : list stmt) : nat := foldr (λ s, Nat.max (width1 s)) 0 l.
