(** Model of the simplifications of element-wise operations (src/ir/daphneir/Canonicalize.cpp), which the compiler applies before and after it knows the types.

    An expression is a tree: operations without side effects give the same value wherever they stand. Each operation carries the type the compiler has for its
    result at that time. Not modelled: frames as operands (the operations do not take them), booleans, and operations that no rule mentions, which are leaves. *)
From Coq Require Import Floats.SpecFloat Strings.String.
From stdpp Require Import base numbers list.
From Verif Require Import CppBase SimpSpec.
Local Open Scope Z_scope.

(** What the compiler knows: nothing; a scalar of a type; a matrix, perhaps with its value type and shape (-1: unknown). The sparsity stands for whether
    the compiler has an estimate of at least 0.25 (Canonicalize.cpp 161-165). *)
Inductive sty := Unk | Sca (t : vt) | Mat (t : option vt) (n m : Z) (dense : bool).
Global Instance sty_eq_dec : EqDecision sty.
Proof. solve_decision. Defined.

Inductive rnd := Floor | Ceil | Round.
Inductive dim := NumRows | NumCols | NumCells.

Inductive expr :=
| ELeaf (ty : sty) (i : nat)
| EConst (t : vt) (p : pay)
| EBin (ty : sty) (o : bop) (a b : expr)
| EConcat (ty : sty) (a b : expr)
| EToStr (a : expr)
| EMinus (ty : sty) (a : expr)
| ERnd (ty : sty) (k : rnd) (a : expr)
| ERename (ty : sty) (a : expr)
| EDim (k : dim) (a : expr)
| ETrans (ty : sty) (a : expr)
| EMatMul (ty : sty) (a b : expr) (ta tb : bool)
| ECond (ty : sty) (c a b : expr)
| EIf (ty : sty) (c a b : expr).

(** the type the compiler has for the result *)
Definition typ (e : expr) : sty :=
  match e with
  | ELeaf ty _ | EBin ty _ _ _ | EConcat ty _ _ | EMinus ty _ | ERnd ty _ _ | ERename ty _ | ETrans ty _ | EMatMul ty _ _ _ _ | ECond ty _ _ _
  | EIf ty _ _ _ => ty
  | EConst t _ => Sca t
  | EToStr _ => Sca TStr
  | EDim _ _ => Sca TIdx
  end.

Section Eval.
  Context (wrapv : bool) (pw : vt -> pay -> pay -> pay) (show : vt -> pay -> string).
  (** [rounding]: floor, ceil and round of a floating-point number; [prod]: the product of two matrices; [choose]: a condition that is a matrix *)
  Context (rounding : rnd -> vt -> spec_float -> spec_float) (prod : value -> value -> outcome value) (choose : value -> value -> value -> outcome value).
  Context (leaf : nat -> outcome value).

  (** whether a condition that is a scalar holds (src/runtime/local/kernels/CastSca.h: conversion to bool) *)
  Definition holds (p : pay) : outcome bool :=
    match p with
    | PI z => Ok (bool_decide (z <> 0))
    | PF (S754_zero _) => Ok false | PF _ => Ok true
    | PS _ => Throw
    end.
  Definition round_cell (k : rnd) (t : vt) (p : pay) : outcome pay :=
    match p with PI z => Ok (PI z) | PF f => Ok (PF (rounding k t f)) | PS _ => Throw end.
  Definition size_of (k : dim) (v : value) : outcome value :=
    match v with
    | VM _ n m _ => Ok (VS TIdx (PI (wrap TIdx (match k with NumRows => Z.of_nat n | NumCols => Z.of_nat m | NumCells => Z.of_nat n * Z.of_nat m end))))
    | VS _ _ => Throw
    end.

  (** the value of an expression; an operand is evaluated even if the result does not depend on it *)
  Fixpoint eval (e : expr) : outcome value :=
    match e with
    | ELeaf _ i => leaf i
    | EConst t p => Ok (VS t p)
    | EBin _ o a b => let* v := eval a in let* w := eval b in ebin wrapv pw show o v w
    | EConcat _ a b => let* v := eval a in let* w := eval b in econcat v w
    | EToStr a => let* v := eval a in to_str show v
    | EMinus _ a => let* v := eval a in emap (neg wrapv) v
    | ERnd _ k a => let* v := eval a in emap (round_cell k) v
    | ERename _ a => eval a
    | EDim k a => let* v := eval a in size_of k v
    | ETrans _ a => let* v := eval a in etrans v
    | EMatMul _ a b ta tb =>
        let* v := eval a in let* w := eval b in
        let* v := (if ta then etrans v else Ok v) in let* w := (if tb then etrans w else Ok w) in prod v w
    | ECond _ c a b =>
        let* u := eval c in let* v := eval a in let* w := eval b in
        match u with VS _ p => let* h := holds p in Ok (if h : bool then v else w) | VM _ _ _ _ => choose u v w end
    | EIf _ c a b =>
        let* u := eval c in let* v := eval a in let* w := eval b in
        match u with VS _ p => let* h := holds p in Ok (if h : bool then v else w) | VM _ _ _ _ => Throw end
    end.
End Eval.

(** ** The rules. [None]: no rewrite. *)

Definition is_sca (ty : sty) : bool := match ty with Sca _ => true | _ => false end.
Definition is_mat (ty : sty) : bool := match ty with Mat _ _ _ _ => true | _ => false end.
Definition elem_str (ty : sty) : bool := match ty with Mat (Some TStr) _ _ _ => true | _ => false end.

(** Canonicalize.cpp 284-327 (EwAddOp): [+] on strings becomes a concatenation; a scalar on the left of a matrix is moved to the right *)
Definition canon_add (ty : sty) (a b : expr) : option expr :=
  let ta := typ a in let tb := typ b in
  let lhsIsStr := bool_decide (ta = Sca TStr) in
  let rhsIsStr := bool_decide (tb = Sca TStr) in
  if lhsIsStr || rhsIsStr then
    if negb lhsIsStr && is_mat ta && elem_str ta then Some (EConcat ty a b)
    else
      let a' := if lhsIsStr || is_mat ta then a else EToStr a in
      let b' := if rhsIsStr then b else EToStr b in
      Some (EConcat ty a' b')
  else if negb (is_mat ta) && is_mat tb then Some (EBin ty Add b a)
  else if is_mat ta && is_mat tb && elem_str ta && elem_str tb then Some (EConcat ty a b)
  else None.

(** Canonicalize.cpp 341-358 (EwSubOp): [a - X] becomes [(X * -1) + a] *)
Definition canon_sub (ty : sty) (a b : expr) : option expr :=
  if is_sca (typ a) && negb (is_sca (typ b)) then Some (EBin ty Add (EBin Unk Mul b (EConst TS64 (PI (-1)))) a) else None.

(** Canonicalize.cpp 370-380 (EwMulOp): [a * X] becomes [X * a] *)
Definition canon_mul (ty : sty) (a b : expr) : option expr :=
  if is_sca (typ a) && negb (is_sca (typ b)) then Some (EBin ty Mul b a) else None.

(** the constant -1 of type double *)
Definition minus_one : pay := PF (S754_finite true 4503599627370496 (-52)).
(** Canonicalize.cpp 395-412 (EwDivOp): [a / X] becomes [(X ^ -1) * a], if the matrix is known to be of floating-point numbers *)
Definition canon_div (ty : sty) (a b : expr) : option expr :=
  match typ b with
  | Mat (Some t) _ _ _ => if is_sca (typ a) && is_flt t then Some (EBin ty Mul (EBin Unk Pow b (EConst TF64 minus_one)) a) else None
  | _ => None
  end.

(** Canonicalize.cpp 136-185 (MatMulOp): a transposed right operand becomes a flag, unless it is sparse or its sparsity is not known *)
Definition canon_matmul (ty : sty) (a b : expr) (ta tb : bool) : option expr :=
  match b with
  | ETrans tyb b' =>
      match tyb with Mat _ _ _ false => None | _ => Some (EMatMul ty a b' ta (negb tb)) end
  | _ => None
  end.

(** Canonicalize.cpp 187-253 (NumRowsOp, NumColsOp, NumCellsOp): a known size is a constant *)
Definition canon_dim (k : dim) (a : expr) : option expr :=
  match typ a with
  | Mat _ n m _ =>
      match k with
      | NumRows => if decide (n = -1) then None else Some (EConst TIdx (PI (wrap TIdx n)))
      | NumCols => if decide (m = -1) then None else Some (EConst TIdx (PI (wrap TIdx m)))
      | NumCells => if decide (n = -1 \/ m = -1) then None else Some (EConst TIdx (PI (wrap TIdx (n * m))))
      end
  | _ => None
  end.

(** the value type of an operand, if it is known to be an integer (llvm::isa IntegerType; the index type is none) *)
Definition known_int (ty : sty) : bool :=
  match ty with Sca t | Mat (Some t) _ _ _ => is_int t && negb (bool_decide (t = TIdx)) | _ => false end.

(** Canonicalize.cpp 447-525 (CondOp): a condition that is a scalar selects one of the two values. The result [Throw] is a compiler error: the two values have
    different known types. (Frames, whose labels are dropped first, are not modelled; nor is the conversion of the condition to bool, which is part of EIf.) *)
Definition canon_cond (ty : sty) (c a b : expr) : outcome (option expr) :=
  match typ c with
  | Sca _ =>
      if decide (typ a = typ b) then Ok (Some (EIf ty c a b))
      else if decide (typ a = Unk \/ typ b = Unk) then Ok None
      else Throw
  | _ => Ok None
  end.

(** the rule for the operation at the root; Canonicalize.cpp 559-628 for roundings (EwFloorOp, EwCeilOp, EwRoundOp), RenameOp and EwMinusOp *)
Definition canon (e : expr) : outcome (option expr) :=
  match e with
  | EBin ty Add a b => Ok (canon_add ty a b)
  | EBin ty Sub a b => Ok (canon_sub ty a b)
  | EBin ty Mul a b => Ok (canon_mul ty a b)
  | EBin ty Div a b => Ok (canon_div ty a b)
  | EMatMul ty a b ta tb => Ok (canon_matmul ty a b ta tb)
  | EDim k a => Ok (canon_dim k a)
  | ERnd _ _ a => Ok (if known_int (typ a) then Some a else None)
  | ERename _ a => Ok (Some a)
  | EMinus _ (EMinus _ a) => Ok (Some a)
  | ECond ty c a b => canon_cond ty c a b
  | _ => Ok None
  end.
