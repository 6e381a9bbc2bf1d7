(** Model of the conditional expression c ? t : e: parser, type inference, canonicalization and kernels (CondMatMatMat.h, CondMatMatSca.h,
    CondMatScaMat.h, CondMatScaSca.h in src/runtime/local/kernels). *)
From stdpp Require Import base numbers list.
From Verif Require Import CppBase Mem CSRModel.
Local Open Scope nat_scope.

(** * Types *)
(** Data properties in the type of a matrix or frame: shape, sparsity (a fraction), representation, symmetry; [None] is unknown.  Frames
    have a shape only. *)
Record props := mkProps { p_shape : option (nat * nat); p_sparsity : option (nat * nat); p_sparse : bool; p_sym : option bool }.
Global Instance props_eq_dec : EqDecision props.
Proof. solve_decision. Defined.
Definition no_props : props := mkProps None None false None.
(** Value types are numbered.  [TF]: column types, properties, labels *)
Inductive ty := TM (vt : nat) (p : props) | TF (vts : list nat) (p : props) (labels : option (list nat)) | TS (vt : nat) | TU.
Global Instance ty_eq_dec : EqDecision ty.
Proof. solve_decision. Defined.
(** withSameElementType and withSameColumnTypes (src/ir/daphneir/DaphneTypes.td 104-106) *)
Definition plain (t : ty) : ty :=
  match t with TM vt _ => TM vt no_props | TF vts _ _ => TF vts no_props None | _ => t end.
(** withLabels(nullptr) *)
Definition unlabelled (t : ty) : ty := match t with TF vts p _ => TF vts p None | _ => t end.
(** src/compiler/utils/CompilerUtils.h 340-359 (getValueType); [None] is the unknown type *)
Definition value_type (t : ty) : outcome (option nat) :=
  match t with TM vt _ | TS vt => Ok (Some vt) | TF _ _ _ => Throw | TU => Ok None end.

(** src/ir/daphneir/DaphneInferTypesOpInterface.cpp 564-618 (CondOp::inferTypes).  For a matrix the result gets the type of the condition with
    another value type; an unknown value type in a matrix type is not modelled (the result is of unknown type here).  Inference of sparsity and
    symmetry (src/compiler/inference/InferencePass.cpp 208-240, 249-271) only replaces unknown properties, and CondOp has none: what is set here
    stays. *)
Definition infer_cond (c t e : ty) : outcome ty :=
  match c with
  | TU => Ok TU
  | TM _ p =>
      match t, e with
      | TF _ _ _, _ | _, TF _ _ _ => Throw
      | _, _ =>
          let* vt := value_type t in
          let* ve := value_type e in
          if decide (vt <> ve) then Throw else Ok (match vt with Some v => TM v p | None => TU end)
      end
  | TF _ _ _ => Throw
  | TS _ => if decide (plain t <> plain e) then Throw else Ok (plain t)
  end.
(** src/ir/daphneir/DaphneInferShapeOpInterface.cpp 272-323 (CondOp::inferShape) *)
Definition shape_of (t : ty) : option (nat * nat) := match t with TM _ p | TF _ p _ => p_shape p | _ => None end.
Definition common {A} `{EqDecision A} (x y : option A) : option A :=
  match x, y with Some a, Some b => if decide (a = b) then Some a else None | _, _ => None end.
Definition infer_cond_shape (c t e : ty) : outcome (option nat * option nat) :=
  match c with
  | TU => Ok (None, None)
  | TM _ p => Ok (fst <$> p_shape p, snd <$> p_shape p)
  | TF _ _ _ => Throw
  | TS _ => Ok (common (fst <$> shape_of t) (fst <$> shape_of e), common (snd <$> shape_of t) (snd <$> shape_of e))
  end.
(** src/ir/daphneir/Canonicalize.cpp 444-527 (CondOp::canonicalize): whether the operation is replaced by an if-operation *)
Definition canonicalize (c t e : ty) : outcome bool :=
  match c with
  | TM _ _ | TF _ _ _ | TU => Ok false
  | TS _ =>
      let t := unlabelled t in
      let e := unlabelled e in
      if decide (t <> e) then if decide (t = TU \/ e = TU) then Ok false else Throw else Ok true
  end.
(** src/compiler/execution/DaphneIrExecutor.cpp 124, 144-145: canonicalization with the types known after parsing, inference, and
    canonicalization with the inferred types.  The result: whether the expression becomes an if-operation. *)
Definition compile_cond (c0 t0 e0 c t e : ty) : outcome bool :=
  let* b := canonicalize c0 t0 e0 in
  if b : bool then Ok true else let* _ := infer_cond c t e in canonicalize c t e.

Section Cond.
  (** [C]: the value type of the condition, with static_cast<bool>; [V]: that of the values *)
  Context {C V : Type} (truth : C -> bool) (junk : nat -> list V).

  (** * Kernels for dense matrices.  [a ? :] the loop over the cells with the strides of the matrices; the result is new, so its stride is
      its number of columns. *)
  Definition cells (n m : nat) (f : nat -> nat -> outcome V) : outcome (dmat V) :=
    let* b := for2 n m (fun r c b => let* v := f r c in wr b (r * m + c) v) (junk (n * m)) in Ok (mkDM b 0 n m m).
  (** CondMatMatMat.h 54-87 *)
  Definition cond_mat_mat_mat (c : dmat C) (t e : dmat V) : outcome (dmat V) :=
    if decide (m_rows c <> m_rows t \/ m_rows c <> m_rows e \/ m_cols c <> m_cols t \/ m_cols c <> m_cols e) then Throw else
    cells (m_rows c) (m_cols c) (fun r k => let* b := dm_at c r k in if truth b then dm_at t r k else dm_at e r k).
  (** CondMatMatSca.h 55-83 *)
  Definition cond_mat_mat_sca (c : dmat C) (t : dmat V) (e : V) : outcome (dmat V) :=
    if decide (m_rows c <> m_rows t \/ m_cols c <> m_cols t) then Throw else
    cells (m_rows c) (m_cols c) (fun r k => let* b := dm_at c r k in if truth b then dm_at t r k else Ok e).
  (** CondMatScaMat.h 52-80 *)
  Definition cond_mat_sca_mat (c : dmat C) (t : V) (e : dmat V) : outcome (dmat V) :=
    if decide (m_rows c <> m_rows e \/ m_cols c <> m_cols e) then Throw else
    cells (m_rows c) (m_cols c) (fun r k => let* b := dm_at c r k in if truth b then Ok t else dm_at e r k).
  (** CondMatScaSca.h 52-73 *)
  Definition cond_mat_sca_sca (c : dmat C) (t e : V) : outcome (dmat V) :=
    cells (m_rows c) (m_cols c) (fun r k => let* b := dm_at c r k in Ok (if truth b then t else e)).

  (** * The expression *)
  (** Values with their types: matrices, scalars and frames *)
  Inductive value := VM (vt : nat) (a : dmat V) | VS (vt : nat) (v : V) | VF (vts : list nat) (f : nat).
  Inductive cvalue := CM (a : dmat C) | CS (c : C).
  Definition type_of (v : value) : ty :=
    match v with VM vt _ => TM vt no_props | VS vt _ => TS vt | VF vts _ => TF vts no_props None end.
  Definition ctype_of (c : cvalue) : ty := match c with CM _ => TM 0 no_props | CS _ => TS 0 end.
  (** The operation with these values: the types are checked (without data properties), then one of the kernels is called or, for a scalar
      condition (cast to bool, Canonicalize.cpp 456-458), one of the values is returned. *)
  Definition cond_op (c : cvalue) (t e : value) : outcome value :=
    let* _ := infer_cond (ctype_of c) (type_of t) (type_of e) in
    match c with
    | CS c => Ok (if truth c then t else e)
    | CM c =>
        match t, e with
        | VM vt t, VM _ e => let* r := cond_mat_mat_mat c t e in Ok (VM vt r)
        | VM vt t, VS _ e => let* r := cond_mat_mat_sca c t e in Ok (VM vt r)
        | VS vt t, VM _ e => let* r := cond_mat_sca_mat c t e in Ok (VM vt r)
        | VS vt t, VS _ e => let* r := cond_mat_sca_sca c t e in Ok (VM vt r)
        | _, _ => Throw
        end
    end.
  (** Evaluating an expression has effects, in order, and a value or an error. *)
  Definition eff (A : Type) : Type := list nat * outcome A.
  Definition ebind {A B} (m : eff A) (k : A -> eff B) : eff B :=
    match snd m with Ok a => let r := k a in (fst m ++ fst r, snd r) | Throw => (fst m, Throw) | UB => (fst m, UB) end.
  (** src/parser/daphnedsl/DaphneDSLVisitor.cpp 1533-1537 (visitCondExpr) and the remark in Canonicalize.cpp 492-499: the operations of all three
      expressions are outside the if-operation.  The three calls of valueOrErrorOnVisit are arguments of one call: the compiler chooses
      their order ([o]: the number of the permutation).  The removal of operations without effects whose results are never used is not
      modelled. *)
  Definition cond_expr (o : nat) (c : eff cvalue) (t e : eff value) : eff value :=
    let fin c t e := ([], cond_op c t e) in
    match o with
    | 0 => ebind c (fun c => ebind t (fun t => ebind e (fun e => fin c t e)))
    | 1 => ebind c (fun c => ebind e (fun e => ebind t (fun t => fin c t e)))
    | 2 => ebind t (fun t => ebind c (fun c => ebind e (fun e => fin c t e)))
    | 3 => ebind t (fun t => ebind e (fun e => ebind c (fun c => fin c t e)))
    | 4 => ebind e (fun e => ebind c (fun c => ebind t (fun t => fin c t e)))
    | _ => ebind e (fun e => ebind t (fun t => ebind c (fun c => fin c t e)))
    end.
End Cond.
Arguments VM {V}. Arguments VS {V}. Arguments VF {V}.
Arguments CM {C}. Arguments CS {C}.

(** CondMatMatSca.h 94-124, instantiated for a sparse result and a sparse condition: cells are appended, zeros are skipped. *)
Section Sparse.
  Context {C V : Type} `{Val C} `{Val V} (truth : C -> bool) (alloc : nat -> nat -> csrbuf V).
  Definition cond_csr_mat_sca (cb : csrbuf C) (ch : csrh) (t : dmat V) (e : V) : outcome (csrbuf V * csrh) :=
    let n := h_rows ch in
    let m := h_cols ch in
    if decide (n <> m_rows t \/ m <> m_cols t) then Throw else
    let* s := csr_prepareAppend (alloc n (n * m)) (mkH 0 n m n false (n * m) 0) in
    let* s := for2 n m (fun r c s => let* b := csr_get cb ch r c in let* v := (if truth b then dm_at t r c else Ok e) in csr_append (fst s) (snd s) r c v) s in
    csr_finishAppend (fst s) (snd s).
End Sparse.
