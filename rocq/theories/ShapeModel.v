(** C59: inference of the shapes of matrices and frames.

    Models src/ir/daphneir/DaphneInferShapeOpInterface.cpp, the shape traits of
    the operations in src/ir/daphneir/DaphneOps.td and
    src/compiler/inference/InferencePass.cpp.

    Of a type only the data type (matrix, frame, scalar) and the shape are
    modelled; value types, sparsity, symmetry, labels and representations are
    not.  Numbers are unbounded ([ssize_t] in the code). *)
From stdpp Require Import base numbers list gmap.
From Verif Require Import CppBase.

(** * Types and operands *)

(** DaphneTypes.td: MatrixType and FrameType carry numRows and numCols, -1 if
    unknown. *)
Inductive ty := TMat (r c : Z) | TFrm (r c : Z) | TSca.
Global Instance ty_eq_dec : EqDecision ty.
Proof. solve_decision. Defined.

(** The data type alone. *)
Inductive kind := KMat | KFrm | KSca.
Global Instance kind_eq_dec : EqDecision kind.
Proof. solve_decision. Defined.

(** An operand: a value, or the result of a ConstantOp, which
    CompilerUtils::isConstant recognises (CompilerUtils.h). *)
Inductive opd := Var (x : nat) | Lit (z : Z).

(** What inference sees of an operand: its type and, if it is the result of a
    ConstantOp, its value. *)
Notation info := (ty * option Z)%type (only parsing).

(** DaphneInferShapeOpInterface.cpp 42-57, getShape: scalars are 1 x 1. *)
Definition shape (t : ty) : Z * Z :=
  match t with TMat r c => (r, c) | TFrm r c => (r, c) | TSca => (1, 1)%Z end.
Definition kind_of (t : ty) : kind :=
  match t with TMat _ _ => KMat | TFrm _ _ => KFrm | TSca => KSca end.
Definition mk (k : kind) (s : Z * Z) : ty :=
  match k with KMat => TMat s.1 s.2 | KFrm => TFrm s.1 s.2 | KSca => TSca end.

(** * Traits *)

(** DaphneInferShapeTraits.td.  [ShapeFromArg] is [ShapeArg 0] etc. *)
Inductive trait :=
| OneRow | OneCol
| RowsSca (i : nat) | ColsSca (i : nat)
| RowsArg (i : nat) | ColsArg (i : nat)
| RowsArgCols (i : nat) | ColsArgRows (i : nat)
| RowsAll | ColsAll | RowsSum | ColsSum
| ShapeArg (i : nat) | ShapeEwBinary.

(** Lines 59-107, inferNumRowsFromArgs and inferNumColsFromArgs on the list of
    the numbers of rows or columns of the arguments. *)
Fixpoint from_args (cur : Z) (unk : bool) (ds : list Z) : outcome Z :=
  match ds with
  | [] => Ok (if unk then (-1)%Z else cur)
  | d :: ds' =>
      if decide (d = -1)%Z then from_args cur true ds'
      else if decide (cur = -1)%Z then from_args d unk ds'
      else if decide (d = cur) then from_args cur unk ds'
      else Throw
  end.
Definition all_args (ds : list Z) : outcome Z :=
  match ds with
  | [] => UB
  | d :: ds' => from_args d (bool_decide (d = -1)%Z) ds'
  end.

(** Lines 109-131, inferNumRowsFromSumOfArgs and inferNumColsFromSumOfArgs. *)
Fixpoint sum_args (sum : Z) (ds : list Z) : Z :=
  match ds with
  | [] => sum
  | d :: ds' => if decide (d = -1)%Z then -1 else sum_args (sum + d) ds'
  end%Z.

(** CompilerUtils::constantOrDefault<int64_t>(…, -1) of the i-th operand. *)
Definition const_or (d : Z) (a : info) : Z :=
  match a.2 with Some z => z | None => d end.

Definition arg_shape (args : list info) (i : nat) : outcome (Z * Z) :=
  match args !! i with Some a => Ok (shape a.1) | None => UB end.

(** Lines 622-684 and 712-749: what each trait does to the shape found so far. *)
Definition apply (args : list info) (s : Z * Z) (t : trait) : outcome (Z * Z) :=
  match t with
  | OneRow => Ok (1, s.2)%Z
  | OneCol => Ok (s.1, 1)%Z
  | RowsSca i => match args !! i with Some a => Ok (const_or (-1) a, s.2) | None => UB end
  | ColsSca i => match args !! i with Some a => Ok (s.1, const_or (-1) a) | None => UB end
  | RowsArg i => let* x := arg_shape args i in Ok (x.1, s.2)
  | ColsArg i => let* x := arg_shape args i in Ok (s.1, x.2)
  | RowsArgCols i => let* x := arg_shape args i in Ok (x.2, s.2)
  | ColsArgRows i => let* x := arg_shape args i in Ok (s.1, x.1)
  | RowsAll => let* r := all_args (map (λ a, (shape a.1).1) args) in Ok (r, s.2)
  | ColsAll => let* c := all_args (map (λ a, (shape a.1).2) args) in Ok (s.1, c)
  | RowsSum => Ok (sum_args 0 (map (λ a, (shape a.1).1) args), s.2)
  | ColsSum => Ok (s.1, sum_args 0 (map (λ a, (shape a.1).2) args))
  | ShapeArg i => arg_shape args i
  | ShapeEwBinary =>
      let* l := arg_shape args 0 in
      let* r := arg_shape args 1 in
      if decide (l = (-1, 1) ∧ r = (-1, 1))%Z then Ok (-1, 1)%Z
      else if decide (r.1 = -1 ∨ r.2 = -1)%Z then Ok (-1, -1)%Z
      else Ok l
  end.

(** Lines 690-750, tryInferShape: each trait refines the shape in the order of
    the code, starting with unknown.  [traits] below lists them in that order. *)
Fixpoint apply_all (args : list info) (s : Z * Z) (ts : list trait) : outcome (Z * Z) :=
  match ts with
  | [] => Ok s
  | t :: ts' => let* s' := apply args s t in apply_all args s' ts'
  end.

(** * Operations *)

Inductive opk :=
| Fill | Rand | Sample | Seq | CreateFrame | DiagMatrix
| EwUnary | EwBinary | Outer
| AggAll | AggRow | AggCol | AggCum
| ExtractRow | ExtractCol | SliceRow | SliceCol | InsertRow | InsertCol
| Reshape | Transpose | ColBind | RowBind | Reverse | Order
| MatMul | Syrk | Gemv | DiagVector | Tri | Solve | Replace | CTable | Eigen
| Cartesian | InnerJoin | GroupJoin | SemiJoin | FilterRow | FilterCol | Group (nk na : nat)
| SetColLabels | Cast (k : kind) | OneHot | Recode | Bin | Quantize | MapOp | Cond
| Conv | Pool | BitmapToPos
| NumRows | NumCols.

(** DaphneOps.td, the shape traits of the operations, in the order in which
    tryInferShape looks for them.  Operations which implement an inference
    interface instead have none here. *)
Definition traits (k : opk) : list trait :=
  match k with
  | Fill => [RowsSca 1; ColsSca 2]                       (* line 134 *)
  | Rand => [RowsSca 0; ColsSca 1]                       (* line 172 *)
  | Sample => [OneCol; RowsSca 1]                        (* line 181 *)
  | Seq => [OneCol]                                      (* line 189 *)
  | DiagMatrix => [RowsArg 0; ColsArgRows 0]             (* line 163 *)
  | EwUnary => [ShapeArg 0]                              (* line 257 *)
  | EwBinary => [ShapeEwBinary]                          (* line 337 *)
  | Outer => [RowsArg 0; ColsArg 1]                      (* line 419 *)
  | AggRow => [OneCol; RowsArg 0]                        (* line 527 *)
  | AggCol => [OneRow; ColsArg 0]                        (* line 531 *)
  | AggCum => [ShapeArg 0]                               (* line 571 *)
  | ExtractRow => [RowsArg 1; ColsArg 0]                 (* line 648 *)
  | InsertRow | InsertCol => [ShapeArg 0]                (* lines 731, 739 *)
  | Reshape => [RowsSca 1; ColsSca 2]                    (* line 751 *)
  | Transpose => [RowsArgCols 0; ColsArgRows 0]          (* line 760 *)
  | ColBind => [RowsAll; ColsSum]                        (* line 787 *)
  | RowBind => [ColsAll; RowsSum]                        (* line 793 *)
  | Reverse => [ShapeArg 0]                              (* line 797 *)
  | Syrk => [ColsArg 0; RowsArgCols 0]                   (* line 1048 *)
  | Gemv => [OneCol; RowsArgCols 0]                      (* line 1059 *)
  | DiagVector => [OneCol; RowsArg 0]                    (* line 1010 *)
  | Tri => [ShapeArg 0]                                  (* line 1017 *)
  | Solve => [OneCol; RowsArg 0]                         (* line 1024 *)
  | Replace => [ShapeArg 0]                              (* line 1031 *)
  | Cartesian => [ColsSum]                               (* line 1109 *)
  | FilterRow => [ColsArg 0]                             (* line 1233 *)
  | FilterCol => [RowsArg 0]                             (* line 1258 *)
  | SetColLabels => [ShapeArg 0]                         (* line 1498 *)
  | Cast _ => [ShapeArg 0]                               (* line 1529 *)
  | OneHot => [RowsArg 0]                                (* line 1810 *)
  | Bin => [ShapeArg 0]                                  (* line 1826 *)
  | Quantize => [ShapeArg 0]                             (* line 1646 *)
  | MapOp => [ShapeArg 0]                                (* line 1947 *)
  | BitmapToPos => [ShapeArg 0]                          (* line 1670 *)
  | _ => []
  end.

(** Lines 137-141, CartesianOp::inferNumRows: the product of the numbers of
    rows, also if one of them is -1.  (A null pointer access for arguments
    which are no frames.) *)
Definition rows_cartesian (args : list info) : outcome Z :=
  match args with
  | [(TFrm r1 _, _); (TFrm r2 _, _)] => Ok (r1 * r2)%Z
  | _ => UB
  end.

(** Lines 143-181, SeqOp::inferNumRows, for 64-bit integers only. *)
Definition rows_seq (args : list info) : outcome Z :=
  match args with
  | [(_, Some from); (_, Some to); (_, Some inc)] =>
      if decide (inc = 0)%Z then UB
      else Ok (Z.abs (to - from) `div` Z.abs inc + 1)%Z
  | [_; _; _] => Ok (-1)%Z
  | _ => UB
  end.

(** Lines 403-459 and 461-517, SliceRowOp::inferShape and
    SliceColOp::inferShape along their dimension. *)
Definition slice_dim (n : Z) (lo up : option Z) : outcome Z :=
  match lo, up with
  | Some lo, Some up =>
      if decide (n = -1)%Z then Ok (-1)%Z
      else
        let lo' := if decide (lo < 0)%Z then (lo + n)%Z else lo in
        let up' := if decide (lo < 0)%Z
                   then (if decide (up <= 0)%Z then (up + n)%Z else up)
                   else (if decide (up < 0)%Z then (up + n)%Z else up) in
        if decide (lo' < 0 ∨ n <= lo')%Z then Throw
        else if decide (up' < 0 ∨ n < up')%Z then Throw
        else if decide (up' < lo')%Z then Throw
        else Ok (up' - lo')%Z
  | _, _ => Ok (-1)%Z
  end.

(** The output extent of a convolution or pooling, lines 337-338, in size_t
    (only the subtraction can be expected to wrap around). *)
Definition extent (img flt pad stride : Z) : Z :=
  ((img + 2 * pad - flt) `mod` 2 ^ 64 `div` stride + 1)%Z.

(** Two equal dimensions are kept, lines 300-301 and InferencePass.cpp 68-113. *)
Definition common_dim (a b : Z) : Z := if decide (a = b) then a else (-1)%Z.

(** The operations which implement InferShapeOpInterface (lines 183-614) or one
    of the interfaces for a single dimension; all others use their traits. *)
Definition infer (k : opk) (args : list info) : outcome (list (Z * Z)) :=
  match k, args with
  | CreateFrame, _ =>                                      (* lines 183-185 *)
      let* r := all_args (map (λ a, (shape a.1).1) args) in
      Ok [(r, sum_args 0 (map (λ a, (shape a.1).2) args))]
  | GroupJoin, _ => Ok [(-1, 2); (-1, 1)]%Z                (* lines 187-191 *)
  | Group nk na, _ => Ok [(-1, Z.of_nat (nk + na))]%Z      (* lines 193-227, no wildcards *)
  | MatMul, [l; r; ta; tb] =>                              (* lines 229-244 *)
      let nr := match ta.2 with
                | Some z => if decide (z = 0)%Z then (shape l.1).1 else (shape l.1).2
                | None => (-1)%Z end in
      let nc := match tb.2 with
                | Some z => if decide (z = 0)%Z then (shape r.1).2 else (shape r.1).1
                | None => (-1)%Z end in
      Ok [(nr, nc)]
  | Order, [a; idx] =>                                     (* lines 256-278 *)
      let s := match a.1 with TSca => (-1, -1)%Z | t => shape t end in
      Ok [(s.1, match idx.2 with
                | Some z => if decide (z = 0)%Z then s.2 else 1%Z
                | None => (-1)%Z end)]
  | Cond, [c; t; e] =>                                     (* lines 280-326 *)
      match c.1 with
      | TMat r n => Ok [(r, n)]
      | TFrm _ _ => Throw
      | TSca =>
          match t.1, e.1 with
          | TSca, _ | _, TSca => Ok [(-1, -1)]%Z
          | t', e' => Ok [(common_dim (shape t').1 (shape e').1,
                           common_dim (shape t').2 (shape e').2)]
          end
      end
  | Conv, [x; w; h; wd; fh; fw; sh; sw; ph; pw] =>         (* lines 328-349 *)
      let g a := const_or 1 a in
      if decide (g sh = 0 ∨ g sw = 0)%Z then UB
      else
        let ho := extent (g h) (g fh) (g ph) (g sh) in
        let wo := extent (g wd) (g fw) (g pw) (g sw) in
        let f := (shape w.1).1 in
        Ok [((shape x.1).1, if decide (f = -1)%Z then (-1)%Z else (f * ho * wo)%Z);
            (1, 1); (1, 1)]%Z
  | Pool, [x; ch; h; wd; fh; fw; sh; sw; ph; pw] =>        (* lines 351-391 *)
      let g a := const_or 1 a in
      if decide (g sh = 0 ∨ g sw = 0)%Z then UB
      else
        let ho := extent (g h) (g fh) (g ph) (g sh) in
        let wo := extent (g wd) (g fw) (g pw) (g sw) in
        Ok [((shape x.1).1, g ch * ho * wo); (1, 1); (1, 1)]%Z
  | CTable, [_; _; _; nr; nc] =>                           (* lines 393-403 *)
      Ok [(const_or (-1) nr, const_or (-1) nc)]
  | SliceRow, [a; lo; up] =>
      match a.1 with
      | TSca => Throw
      | t => let* r := slice_dim (shape t).1 lo.2 up.2 in Ok [(r, (shape t).2)]
      end
  | SliceCol, [a; lo; up] =>
      match a.1 with
      | TSca => Throw
      | t => let* c := slice_dim (shape t).2 lo.2 up.2 in Ok [((shape t).1, c)]
      end
  | ExtractCol, [a; sel] =>                                (* lines 519-543, no wildcards *)
      Ok [((shape a.1).1, (shape sel.1).1)]
  | Eigen, [a] => Ok [((shape a.1).1, 1); ((shape a.1).1, (shape a.1).1)]%Z
                                                           (* lines 545-548 *)
  | Recode, [a; _] =>                                      (* lines 550-583 *)
      match a.1 with
      | TSca => Throw
      | t => Ok [shape t; (-1, 1)%Z]
      end
  | SemiJoin, _ => Ok [(-1, -1); (-1, -1)]%Z               (* two results: lines 755-762 *)
  | Cartesian, _ =>
      let* s := apply_all args (-1, -1)%Z (traits k) in
      let* r := rows_cartesian args in Ok [(r, s.2)]
  | Seq, _ =>
      let* s := apply_all args (-1, -1)%Z (traits k) in
      let* r := rows_seq args in Ok [(r, s.2)]
  | MatMul, _ | Order, _ | Cond, _ | Conv, _ | Pool, _ | CTable, _ | SliceRow, _
  | SliceCol, _ | ExtractCol, _ | Eigen, _ | Recode, _ => UB
  | _, _ => let* s := apply_all args (-1, -1)%Z (traits k) in Ok [s]
  end.

(** Data type inference, DaphneInferTypesOpInterface.cpp and the type traits in
    DaphneOps.td (TypeFromFirstArg, DataTypeMat, DataTypeFrm, DataTypeSca,
    DataTypeFromArgs). *)
Definition first_kind (args : list info) : kind :=
  match args with a :: _ => kind_of a.1 | [] => KSca end.
Definition args_kind (args : list info) : kind :=
  if decide (Exists (λ a, kind_of a.1 = KFrm) args) then KFrm
  else if decide (Exists (λ a, kind_of a.1 = KMat) args) then KMat else KSca.
Definition kinds (k : opk) (args : list info) : list kind :=
  match k with
  | AggAll | NumRows | NumCols => [KSca]
  | CreateFrame | Cartesian | InnerJoin | Group _ _ => [KFrm]
  | GroupJoin | SemiJoin => [KFrm; KMat]
  | EwUnary | ExtractRow | ExtractCol | SliceRow | SliceCol | InsertRow | InsertCol
  | Order | FilterRow | FilterCol | SetColLabels | Reverse => [first_kind args]
  | EwBinary | ColBind | RowBind => [args_kind args]
  | Cast k => [k]
  | Recode | Eigen => [KMat; KMat]
  | Conv | Pool => [KMat; KSca; KSca]
  | Cond => match args with
            | [c; t; _] => [if decide (c.1 = TSca) then kind_of t.1 else KMat]
            | _ => [KMat]
            end
  | _ => [KMat]
  end.

(** InferencePass.cpp 155-194: the shapes are set on those results which are
    matrices or frames; an operation without such results is not asked.  An
    error if the numbers of shapes and results differ. *)
Definition result_types (k : opk) (args : list info) : outcome (list ty) :=
  let ks := kinds k args in
  if decide (Forall (λ k, k = KSca) ks) then Ok (map (λ _, TSca) ks)
  else
    let* ss := infer k args in
    if decide (length ss = length ks) then Ok (zip_with mk ks ss) else Throw.

(** * The pass *)

(** The part of the IR: operations and the structured control flow of the SCF
    dialect.  [Op results operation operands].
    [For iv args results inits body yields]: scf.for with loop-carried values.
    [While args inits before cond passed args' results after yields]: scf.while,
    the operands of the ConditionOp are [cond] and [passed].
    [If results cond then yields else yields]: scf.if. *)
Inductive stmt :=
| Op (rs : list nat) (k : opk) (xs : list opd)
| For (iv : nat) (args rs : list nat) (ini : list opd) (b : list stmt) (ys : list opd)
| While (bargs : list nat) (ini : list opd) (b : list stmt) (c : opd) (ps : list opd)
        (aargs rs : list nat) (a : list stmt) (ys : list opd)
| If (rs : list nat) (c : opd) (t : list stmt) (ty : list opd) (e : list stmt) (ey : list opd).

(** The types of the values. *)
Notation tenv := (gmap nat ty).

Definition info_of (Γ : tenv) (o : opd) : option info :=
  match o with
  | Var x => t ← Γ !! x; Some (t, None)
  | Lit z => Some (TSca, Some z)
  end.
Definition ty_of (Γ : tenv) (o : opd) : option ty := fst <$> info_of Γ o.

Definition set_all {A} (xs : list nat) (vs : list A) (m : gmap nat A) : gmap nat A :=
  foldr (λ p m, <[p.1 := p.2]> m) m (zip xs vs).

(** InferencePass.cpp 57-113, getTypeWithCommonInfo: [None] stands for the null
    pointer returned for different data types. *)
Definition common (a b : ty) : option ty :=
  match a, b with
  | TMat r c, TMat r' c' => Some (TMat (common_dim r r') (common_dim c c'))
  | TFrm r c, TFrm r' c' => Some (TFrm (common_dim r r') (common_dim c c'))
  | TSca, TSca => Some TSca
  | _, _ => None
  end.

(** Types must be as many as names. *)
Definition set_tys (xs : list nat) (ts : list ty) (Γ : tenv) : outcome tenv :=
  if decide (length xs = length ts) then Ok (set_all xs ts Γ) else UB.

(** The fix-point search for a loop.  [f] takes the types of the loop-carried
    values, infers the types in the body and returns them with the types of the
    yielded values; [fin] sets the types of the results.

    Lines 389-451 (for) and 283-371 (while): if a yielded type differs from the
    type of the variable, both are cast to the type with the common information
    and the inference of the body is repeated after all types in it have been
    reset to unknown.  Only the cast of the initial value lies outside of the
    body and keeps its type; the casts of the yielded values are reset as well,
    and then get the shape of their argument again, since CastOp has the trait
    ShapeFromArg.  So they never change the type of a yielded value, and are not
    part of the model.  [None]: more than [n] rounds are needed. *)
Fixpoint fix_point (f : list ty → option (outcome (tenv * list ty))) (n : nat) (ts : list ty)
    : option (outcome (tenv * list ty)) :=
  match n with
  | 0 => None
  | S n' =>
      match f ts with
      | Some (Ok (Γ, ys)) =>
          if decide (ys = ts) then Some (Ok (Γ, ts))
          else if decide (length ys = length ts) then
            match mapM (λ p, common p.1 p.2) (zip ys ts) with
            | Some ts' => fix_point f n' ts'
            | None => Some Throw
            end
          else Some Throw
      | r => r
      end
  end.

(** The operations of a block in order. *)
Definition in_order (f : stmt → tenv → option (outcome tenv)) :=
  fix go (l : list stmt) (Γ : tenv) : option (outcome tenv) :=
    match l with
    | [] => Some (Ok Γ)
    | s :: l' => match f s Γ with Some (Ok Γ') => go l' Γ' | r => r end
    end.

(** Lines 126-484, walkOp, on a function whose values have no inferred types
    yet (the first run of the pass); [n] bounds the rounds of each loop. *)
Fixpoint walk1 (n : nat) (s : stmt) (Γ : tenv) {struct s} : option (outcome tenv) :=
  match s with
  | Op rs k xs =>
      match mapM (info_of Γ) xs with
      | None => Some UB
      | Some args => Some (let* ts := result_types k args in set_tys rs ts Γ)
      end
  | For iv args rs ini b ys =>
      match mapM (ty_of Γ) ini with
      | None => Some UB
      | Some ts =>
          match fix_point (λ ts,
              match set_tys (iv :: args) (TSca :: ts) Γ with
              | Ok Γ0 =>
                  match in_order (walk1 n) b Γ0 with
                  | Some (Ok Γb) =>
                      match mapM (ty_of Γb) ys with
                      | Some yt => Some (Ok (Γb, yt))
                      | None => Some UB
                      end
                  | Some Throw => Some Throw
                  | Some UB => Some UB
                  | None => None
                  end
              | Throw => Some Throw
              | UB => Some UB
              end) n ts with
          | Some (Ok (Γb, ts')) => Some (set_tys rs ts' Γb)
          | Some Throw => Some Throw
          | Some UB => Some UB
          | None => None
          end
      end
  | While bargs ini b c ps aargs rs a ys =>
      match mapM (ty_of Γ) ini with
      | None => Some UB
      | Some ts =>
          match fix_point (λ ts,
              match set_tys bargs ts Γ with
              | Ok Γ0 =>
                  match in_order (walk1 n) b Γ0 with
                  | Some (Ok Γb) =>
                      match mapM (ty_of Γb) ps with
                      | Some pt =>
                          match (let* Γr := set_tys rs pt Γb in set_tys aargs pt Γr) with
                          | Ok Γ1 =>
                              match in_order (walk1 n) a Γ1 with
                              | Some (Ok Γa) =>
                                  match mapM (ty_of Γa) ys with
                                  | Some yt => Some (Ok (Γa, yt))
                                  | None => Some UB
                                  end
                              | Some Throw => Some Throw
                              | Some UB => Some UB
                              | None => None
                              end
                          | Throw => Some Throw
                          | UB => Some UB
                          end
                      | None => Some UB
                      end
                  | Some Throw => Some Throw
                  | Some UB => Some UB
                  | None => None
                  end
              | Throw => Some Throw
              | UB => Some UB
              end) n ts with
          | Some (Ok (Γa, _)) => Some (Ok Γa)
          | Some Throw => Some Throw
          | Some UB => Some UB
          | None => None
          end
      end
  | If rs c t ty e ey =>
      match in_order (walk1 n) t Γ with
      | Some (Ok Γt) =>
          match in_order (walk1 n) e Γt with
          | Some (Ok Γe) =>
              match mapM (ty_of Γe) ty, mapM (ty_of Γe) ey with
              | Some t1, Some t2 =>
                  match mapM (λ p, common p.1 p.2) (zip t1 t2) with
                  | Some ts => Some (if decide (length t1 = length t2)
                                     then set_tys rs ts Γe else UB)
                  | None => Some Throw
                  end
              | _, _ => Some UB
              end
          | r => r
          end
      | r => r
      end
  end.

Notation walk n := (in_order (walk1 n)).
