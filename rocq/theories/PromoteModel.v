(** Model of how expressions over mixed value types are typed and computed:
    the inference of value types, the casts the compiler inserts, and the
    elementwise kernels. *)
From stdpp Require Import base numbers sorting list.
From Verif Require Import CppBase.
Open Scope Z_scope.

(** The value types.
    src/compiler/inference/TypeInferenceUtils.cpp, lines 19-54. *)
Inductive vt := B1 | SI8 | UI8 | SI32 | UI32 | IDX | SI64 | UI64 | F32 | F64 | STR | UNK.
Global Instance vt_eq_dec : EqDecision vt.
Proof. solve_decision. Defined.

(** src/compiler/inference/TypeInferenceUtils.cpp, lines 19-54 (generality). *)
Definition generality (t : vt) : Z :=
  match t with
  | UNK => 11 | STR => 10 | F64 => 9 | F32 => 8 | UI64 => 7 | SI64 => 6
  | IDX => 5 | UI32 => 4 | SI32 => 3 | UI8 => 2 | SI8 => 1 | B1 => 0
  end.

(** The loop body of both overloads of mostGeneralVt.
    src/compiler/inference/TypeInferenceUtils.cpp, lines 61-63 and 77-79. *)
Definition more_general (res t : vt) : vt :=
  if decide (generality t > generality res) then t else res.

(** src/compiler/inference/TypeInferenceUtils.cpp, lines 56-66. *)
Definition most_general (ts : list vt) : outcome vt :=
  match ts with
  | [] => Throw
  | t :: ts => Ok (foldl more_general t ts)
  end.

(** Data types, in the order of the enum DataTypeCode.
    src/compiler/inference/TypeInferenceUtils.h (DataTypeCode). *)
Inductive dtc := SCALAR | MATRIX | COLUMN | FRAME.
Global Instance dtc_eq_dec : EqDecision dtc.
Proof. solve_decision. Defined.

(** The check that all frames have the same number of columns.
    src/compiler/inference/TypeInferenceUtils.cpp, lines 120-131.  [None] is
    "no frame yet". *)
Fixpoint frame_cols (args : list (dtc * list vt)) (seen : option nat) : outcome (option nat) :=
  match args with
  | [] => Ok seen
  | (d, vts) :: args =>
      if decide (d = FRAME) then
        match seen with
        | Some n => if decide (length vts = n) then frame_cols args (Some n) else Throw
        | None => frame_cols args (Some (length vts))
        end
      else frame_cols args seen
  end.

(** Expanding the value type of an argument that is not a frame.
    src/compiler/inference/TypeInferenceUtils.cpp, lines 135-138. *)
Definition expand (n : nat) (a : dtc * list vt) : outcome (list vt) :=
  if decide (a.1 = FRAME) then Ok a.2 else let* t := rd a.2 0 in Ok (replicate n t).

Fixpoint mapo {A B} (f : A -> outcome B) (l : list A) : outcome (list B) :=
  match l with
  | [] => Ok []
  | a :: l => let* b := f a in let* bs := mapo f l in Ok (b :: bs)
  end.

(** The inner loop: one argument's value types are merged into the result's.
    src/compiler/inference/TypeInferenceUtils.cpp, lines 144-146. *)
Definition merge (n : nat) (vts res : list vt) : outcome (list vt) :=
  for_up 0 n (fun k res =>
    let* a := rd vts k in
    let* r := rd res k in
    if decide (generality a > generality r) then wr res k a else Ok res) res.

Fixpoint merge_all (n : nat) (args : list (list vt)) (res : list vt) : outcome (list vt) :=
  match args with
  | [] => Ok res
  | vts :: args => let* res := merge n vts res in merge_all n args res
  end.

(** src/compiler/inference/TypeInferenceUtils.cpp, lines 113-149
    (inferValueTypeFromArgs). *)
Definition infer_from_args (args : list (dtc * list vt)) : outcome (list vt) :=
  let* seen := frame_cols args None in
  let* ex := (match seen with Some n => mapo (expand n) args | None => Ok (map snd args) end) in
  match ex with
  | [] => UB
  | first :: rest => merge_all (default 1%nat seen) rest first
  end.

(** The value type traits of elementwise binary operations.
    src/ir/daphneir/DaphneOps.td, lines 350-413. *)
Inductive op := Add | Sub | Mul | Div | Mod | Min | Max
              | Eq | Neq | Lt | Le | Gt | Ge | And | Or.
Inductive vtrait := FromArgs | FromArgsInt | Cmp.

Definition vtrait_of (o : op) : vtrait :=
  match o with
  | Add | Sub | Mul | Div | Mod | Min | Max => FromArgs
  | And | Or => FromArgsInt
  | Eq | Neq | Lt | Le | Gt | Ge => Cmp
  end.

(** MLIR's isa<IntegerType>: [index] is not one. *)
Definition is_integer_type (t : vt) : bool :=
  match t with B1 | SI8 | UI8 | SI32 | UI32 | SI64 | UI64 => true | _ => false end.

(** What a trait makes of the most general value type.
    src/compiler/inference/TypeInferenceUtils.h, lines 152-161 (ValueTypeCmp),
    200-201 (ValueTypeFromArgs), 211-219 (ValueTypeFromArgsInt). *)
Definition adjust (tr : vtrait) (t : vt) : vt :=
  match tr with
  | FromArgs => t
  | FromArgsInt => if negb (is_integer_type t) && negb (bool_decide (t = UNK)) then UI64 else t
  | Cmp => if decide (t = STR) then SI64 else t
  end.

(** src/compiler/inference/TypeInferenceUtils.h, lines 95-219: the value types
    of the result of an operation, one per column. *)
Definition infer_vts (o : op) (args : list (dtc * list vt)) : outcome (list vt) :=
  let* vts := infer_from_args args in Ok (map (adjust (vtrait_of o)) vts).

(** The value type of the result if both arguments are scalars or matrices. *)
Definition result_vt (o : op) (t1 t2 : vt) : outcome vt :=
  let* vts := infer_vts o [(SCALAR, [t1]); (SCALAR, [t2])] in rd vts 0.

(** The value type arguments are cast to: CastArgsToMostGeneralArgType for
    comparisons, CastArgsToResType for the others.
    src/compiler/inference/AdaptTypesToKernelsPass.cpp, lines 69-122. *)
Definition cast_target (o : op) (t1 t2 : vt) : outcome vt :=
  match vtrait_of o with
  | Cmp => most_general [t1; t2]
  | _ => result_vt o t1 t2
  end.

(** Numbers.  Every finite double is a multiple of 2^-1074 (the smallest
    positive one), and so is every finite float and every integer.  A number is
    represented by that multiple: 1 is [one].  Simplification: infinities, NaN
    and the sign of zero are not represented, and exponents are not bounded
    above. *)
Definition one : Z := 2 ^ 1074.

Definition bits (t : vt) : Z :=
  match t with B1 => 1 | SI8 | UI8 => 8 | SI32 | UI32 => 32 | _ => 64 end.
Definition signed (t : vt) : bool :=
  match t with SI8 | SI32 | SI64 => true | _ => false end.
Definition integral (t : vt) : bool :=
  match t with B1 | SI8 | UI8 | SI32 | UI32 | IDX | SI64 | UI64 => true | _ => false end.
Definition lo (t : vt) : Z := if signed t then - 2 ^ (bits t - 1) else 0.
Definition hi (t : vt) : Z := if signed t then 2 ^ (bits t - 1) - 1 else 2 ^ bits t - 1.

(** C++: conversion of an integer to an integer type (modulo 2^bits, to bool by
    comparison with 0). *)
Definition to_int (t : vt) (z : Z) : Z :=
  if decide (t = B1) then (if decide (z = 0) then 0 else 1)
  else (z - lo t) mod 2 ^ bits t + lo t.

(** IEEE 754: the integer nearest to n/d (d > 0), ties to even. *)
Definition rne (n d : Z) : Z :=
  let q := n / d in let r := n mod d in
  if decide (2 * r < d) then q
  else if decide (2 * r > d) then q + 1
  else if Z.even q then q else q + 1.

(** IEEE 754: rounding of n/d (d > 0) to the nearest number with [p] bits whose
    last bit is at least 2^kmin (in the unit of this model). *)
Definition rnd (p kmin : Z) (n d : Z) : Z :=
  let k := Z.max kmin (Z.log2 (Z.abs n / d) + 1 - p) in
  Z.sgn n * rne (Z.abs n) (d * 2 ^ k) * 2 ^ k.

(** float: 24 bits, last bit at least 2^-149; double: 53 bits, 2^-1074. *)
Definition prec (t : vt) : Z := match t with F32 => 24 | _ => 53 end.
Definition kmin (t : vt) : Z := match t with F32 => 1074 - 149 | _ => 0 end.

(** static_cast, for a number [x] of value type [s].
    src/runtime/local/kernels/CastSca.h, lines 37-42 (and CastObj.h for the
    elements of matrices).  A floating-point number out of the range of the
    integer type is undefined behaviour.  Strings are not modelled. *)
Definition cast (s t : vt) (x : Z) : outcome Z :=
  if integral t then
    if integral s then Ok (to_int t (x / one) * one)
    else let z := Z.quot x one in
         if decide (t = B1) then Ok (if decide (x = 0) then 0 else one)
         else if decide (lo t <= z <= hi t) then Ok (z * one) else UB
  else if decide (t = F32 \/ t = F64) then Ok (rnd (prec t) (kmin t) x 1)
  else UB.

(** The cast is inserted if the value types differ.
    src/compiler/inference/AdaptTypesToKernelsPass.cpp, lines 125-136. *)
Definition cast_arg (s t : vt) (x : Z) : outcome Z :=
  if decide (s = t) then Ok x else cast s t x.

(** An integer result [z] of C++ arithmetic on operands of type [t], stored in
    a [t]: operands of 8 bits are promoted to int and the result is converted
    back; overflow of 32- and 64-bit signed integers is undefined; unsigned
    integers wrap around. *)
Definition int_result (t : vt) (z : Z) : outcome Z :=
  if decide (lo t <= z <= hi t) then Ok (z * one)
  else match t with
       | SI32 | SI64 => UB
       | _ => Ok (to_int t z * one)
       end.

Definition truth (b : bool) : Z := if b then one else 0.

(** The elementwise kernels on two operands of the value type [t].
    src/runtime/local/kernels/EwBinarySca.h, lines 136-167.  std::fmod on
    integers converts them to double.  Division by zero and fmod by zero are
    undefined behaviour for integers; for floating-point numbers the result is
    not a number of this model, also shown as [UB]. *)
Definition kernel (o : op) (t : vt) (x y : Z) : outcome Z :=
  match o with
  | Add => if integral t then int_result t (x / one + y / one) else Ok (rnd (prec t) (kmin t) (x + y) 1)
  | Sub => if integral t then int_result t (x / one - y / one) else Ok (rnd (prec t) (kmin t) (x - y) 1)
  | Mul => if integral t then int_result t ((x / one) * (y / one)) else Ok (rnd (prec t) (kmin t) (x * y) one)
  | Div => if decide (y = 0) then UB
           else if integral t then int_result t (Z.quot (x / one) (y / one))
           else Ok (rnd (prec t) (kmin t) (Z.sgn y * x * one) (Z.abs y))
  | Mod => if integral t then
             let dx := rnd 53 0 x 1 in let dy := rnd 53 0 y 1 in
             if decide (dy = 0) then UB else cast F64 t (Z.rem dx dy)
           else if decide (y = 0) then UB else Ok (Z.rem x y)
  | Min => Ok (if decide (y < x) then y else x)
  | Max => Ok (if decide (x < y) then y else x)
  | Eq => Ok (truth (bool_decide (x = y)))
  | Neq => Ok (truth (bool_decide (x <> y)))
  | Lt => Ok (truth (bool_decide (x < y)))
  | Le => Ok (truth (bool_decide (x <= y)))
  | Gt => Ok (truth (bool_decide (x > y)))
  | Ge => Ok (truth (bool_decide (x >= y)))
  | And => Ok (truth (bool_decide (x <> 0) && bool_decide (y <> 0)))
  | Or => Ok (truth (bool_decide (x <> 0) || bool_decide (y <> 0)))
  end.

(** One elementwise operation on two cells: inference, inserted casts, kernel.
    Whether a pre-compiled kernel exists for the value type is not modelled. *)
Definition ew (o : op) (a b : vt * Z) : outcome (vt * Z) :=
  let* r := result_vt o a.1 b.1 in
  let* c := cast_target o a.1 b.1 in
  let* x := cast_arg a.1 c a.2 in
  let* y := cast_arg b.1 c b.2 in
  let* v := kernel o c x y in
  Ok (r, v).

(** Expressions: literals and variables with their values, and operations. *)
Inductive expr := Leaf (t : vt) (x : Z) | Node (o : op) (e1 e2 : expr).

Fixpoint eval (e : expr) : outcome (vt * Z) :=
  match e with
  | Leaf t x => Ok (t, x)
  | Node o e1 e2 => let* a := eval e1 in let* b := eval e2 in ew o a b
  end.

Fixpoint infer (e : expr) : outcome vt :=
  match e with
  | Leaf t _ => Ok t
  | Node o e1 e2 => let* a := infer e1 in let* b := infer e2 in result_vt o a b
  end.
