(** Model of the folding of operations on constants at compile time (src/ir/daphneir/Fold.cpp), for scalar integers, together with the
    kernels that compute the same operations at run time (src/runtime/local/kernels/EwBinarySca.h, CastSca.h).

    Simplifications: strings are not modelled; floating-point numbers are modelled only as far as a cast to an integer and the operations
    min and max depend on them. LLVM's assertions on the widths of operands are the outcome UB. *)
From stdpp Require Import base numbers list.
From Coq Require Import ZArith.
From Verif Require Import CppBase.
Local Open Scope Z_scope.

(** * Types *)
Inductive iwidth := W8 | W32 | W64.
(** i1 (signless, boolean), si8, ..., ui64, index *)
Inductive ity := TBool | TInt (signed : bool) (w : iwidth) | TIndex.
Definition bits_of (w : iwidth) : Z := match w with W8 => 8 | W32 => 32 | W64 => 64 end.
Definition width (t : ity) : Z := match t with TBool => 1 | TInt _ w => bits_of w | TIndex => 64 end.
(** isSignedInteger(), isUnsignedInteger(): false for i1 and index *)
Definition is_signed (t : ity) : bool := match t with TInt true _ => true | _ => false end.
Definition is_unsigned (t : ity) : bool := match t with TInt false _ => true | _ => false end.
Definition is_bool (t : ity) : bool := match t with TBool => true | _ => false end.
Definition is_integer_type (t : ity) : bool := match t with TIndex => false | _ => true end.

(** TypeInferenceUtils.cpp 19-53 (the integer types) *)
Definition generality (t : ity) : nat :=
  match t with
  | TInt false W64 => 7 | TInt true W64 => 6 | TIndex => 5 | TInt false W32 => 4 | TInt true W32 => 3 | TInt false W8 => 2 | TInt true W8 => 1 | TBool => 0
  end%nat.
(** TypeInferenceUtils.cpp 140-146 for two scalars *)
Definition most_general (a b : ity) : ity := if decide (generality a < generality b)%nat then b else a.

Inductive bop := Add | Sub | Mul | Div | Mod | Min | Max | And | Or | Eq | Neq | Lt | Le | Gt | Ge.
(** DaphneOps.td 351-410: ValueTypeFromArgs, ValueTypeCmp; ValueTypeFromArgsInt for the logical operations (TypeInferenceUtils.h 211-219) *)
Definition res_type (o : bop) (a b : ity) : ity :=
  let t := most_general a b in
  match o with And | Or => if is_integer_type t then t else TInt false W64 | _ => t end.
(** AdaptTypesToKernelsPass.cpp 66-116: the type the operands are cast to before the kernel is called: CastArgsToResType,
    CastArgsToMostGeneralArgType *)
Definition arg_type (o : bop) (a b : ity) : ity :=
  match o with Eq | Neq | Lt | Le | Gt | Ge => most_general a b | _ => res_type o a b end.

(** * Run time *)
(** The values of a type, and the conversion of an integer to it (C++ static_cast) *)
Definition in_range (t : ity) (z : Z) : bool :=
  match t with
  | TInt true w => (- 2 ^ (bits_of w - 1) <=? z) && (z <? 2 ^ (bits_of w - 1))
  | _ => (0 <=? z) && (z <? 2 ^ width t)
  end.
Definition conv (t : ity) (z : Z) : Z :=
  match t with
  | TBool => if z =? 0 then 0 else 1
  | TInt true w => (z + 2 ^ (bits_of w - 1)) mod 2 ^ bits_of w - 2 ^ (bits_of w - 1)
  | _ => z mod 2 ^ width t
  end.
(** Integer promotion: operands narrower than int become int *)
Definition promoted (t : ity) : ity := match t with TBool | TInt _ W8 => TInt true W32 | _ => t end.
(** The exact result [z] of an arithmetic operator, computed in the promoted type and returned as a [t]: signed overflow is undefined *)
Definition ret (t : ity) (z : Z) : outcome Z :=
  if is_signed (promoted t) then if in_range (promoted t) z then Ok (conv t z) else UB else Ok (conv t (conv (promoted t) z)).
Definition b2z (b : bool) : Z := if b then 1 else 0.
(** Conversion of an integer to double: round to nearest, ties to even *)
Definition to_double (z : Z) : Z :=
  if Z.abs z <=? 2 ^ 53 then z
  else let d := 2 ^ (Z.log2 (Z.abs z) - 52) in
       let q := Z.abs z / d in let r := Z.abs z mod d in
       let q := if (d <? 2 * r) || ((d =? 2 * r) && Z.odd q) then q + 1 else q in
       Z.sgn z * (q * d).
(** The kernels, EwBinarySca.h 128-168, with a result of type [r] *)
Definition kernel (o : bop) (r : ity) (x y : Z) : outcome Z :=
  match o with
  | Add => ret r (x + y)
  | Sub => ret r (x - y)
  | Mul => if is_bool r then Ok (conv TBool ((x * y) mod 2 ^ 32)) else ret r (x * y)          (* 128-134 *)
  | Div => if y =? 0 then UB else ret r (Z.quot x y)
  | Mod => if y =? 0 then UB (* NaN *) else let z := Z.rem (to_double x) (to_double y) in if in_range r z then Ok z else UB     (* std::fmod *)
  | Min => Ok (if y <? x then y else x)
  | Max => Ok (if x <? y then y else x)
  | And => Ok (b2z (negb (x =? 0) && negb (y =? 0)))
  | Or => Ok (b2z (negb (x =? 0) || negb (y =? 0)))
  | Eq => Ok (b2z (x =? y)) | Neq => Ok (b2z (negb (x =? y)))
  | Lt => Ok (b2z (x <? y)) | Le => Ok (b2z (x <=? y)) | Gt => Ok (b2z (y <? x)) | Ge => Ok (b2z (y <=? x))
  end.
(** An operation on a value of type [ta] and one of type [tb]: casts, then the kernel *)
Definition run_bin (o : bop) (ta tb : ity) (x y : Z) : outcome Z :=
  let t := arg_type o ta tb in kernel o (res_type o ta tb) (conv t x) (conv t y).
(** EwUnarySca.h (MINUS) *)
Definition run_minus (t : ity) (x : Z) : outcome Z := ret t (- x).

(** * Compile time *)
(** A constant: its type and its bits, as an unsigned number (llvm::APInt) *)
Definition const : Type := ity * Z.
(** The bits as a signed number of [w] bits *)
Definition sval (w b : Z) : Z := if b <? 2 ^ (w - 1) then b else b - 2 ^ w.
(** performCast for integers, Fold.cpp 22-42; getChecked yields no attribute, if the width of the bits is not that of the type *)
Definition perform_cast (c : const) (t : ity) : option const :=
  let '(t0, b) := c in
  match t with
  | TInt false w => Some (t, b mod 2 ^ bits_of w)                                                      (* 28-29: zextOrTrunc *)
  | TInt true w => Some (t, (if is_signed t0 then sval (width t0) b else b) mod 2 ^ bits_of w)         (* 30-33 *)
  | TBool => if width t0 =? 1 then Some (t, b) else None                                               (* 34 *)
  | TIndex => if width t0 =? 64 then Some (t, b) else None                                             (* 37-39 *)
  end.
(** performCast for a floating-point number, Fold.cpp 60-72; [tr] is the number without its fraction *)
Definition perform_cast_float (tr : Z) (t : ity) : outcome const :=
  if in_range (TInt true W64) tr then Ok (t, tr mod 2 ^ width t) else UB.

(** constFoldBinaryOp<IntegerAttr>, Fold.cpp 120-138: the operands with the narrower one cast to the type of the wider one *)
Definition promote (l r : const) : outcome (const * const) :=
  if is_integer_type (fst l) && is_integer_type (fst r) then
    if width (fst l) <? width (fst r) then match perform_cast l (fst r) with Some l => Ok (l, r) | None => UB end
    else if width (fst r) <? width (fst l) then match perform_cast r (fst l) with Some r => Ok (l, r) | None => UB end
    else Ok (l, r)
  else Ok (l, r).
(** A result of APInt arithmetic as an attribute of type [t]; the widths have to be equal *)
Definition attr_bits (t : ity) (w b : Z) : outcome (option const) := if width t =? w then Ok (Some (t, b mod 2 ^ w)) else UB.
(** A bool as an attribute of type [t]: IntegerAttr::get(Type, int64_t) *)
Definition attr_bool (t : ity) (b : bool) : outcome (option const) := Ok (Some (t, b2z b)).
(** The lambdas; [s]: signed *)
Definition calc (o : bop) (s : bool) (t : ity) (l r : const) : outcome (option const) :=
  let w := width (fst l) in
  let x := if s then sval w (snd l) else snd l in
  let y := if s then sval w (snd r) else snd r in
  match o with
  | And => attr_bool t (negb (snd l =? 0) && negb (snd r =? 0))              (* 343 *)
  | Or => attr_bool t (negb (snd l =? 0) || negb (snd r =? 0))               (* 356 *)
  | _ =>
      if match o with Div | Mod => snd r =? 0 | _ => false end then Throw       (* 205-208, 212-215, 255-265 *)
      else if negb (w =? width (fst r)) then UB
      else match o with
           | Add => attr_bits t w (snd l + snd r)                            (* 174 *)
           | Sub => attr_bits t w (snd l - snd r)                            (* 184 *)
           | Mul => attr_bits t w (snd l * snd r)                            (* 194 *)
           | Div => attr_bits t w (Z.quot x y)                               (* 209, 216: sdiv, udiv *)
           | Mod => attr_bits t w (Z.rem x y)                                (* 259, 266: srem, urem *)
           | Min => attr_bits t w (if x <? y then snd l else snd r)          (* 291-302 *)
           | Max => attr_bits t w (if y <? x then snd l else snd r)          (* 317-328 *)
           | Eq => attr_bool t (snd l =? snd r) | Neq => attr_bool t (negb (snd l =? snd r))      (* 399, 415 *)
           | Lt => attr_bool t (x <? y) | Le => attr_bool t (x <=? y) | Gt => attr_bool t (y <? x) | Ge => attr_bool t (y <=? x)   (* 426-478 *)
           | _ => Ok None
           end
  end.
(** The methods fold(); [Ok None]: not folded, [Throw]: the compiler reports an error *)
Definition fold_bin (o : bop) (l r : const) : outcome (option const) :=
  let t := res_type o (fst l) (fst r) in
  match o with
  | Add | Sub | Mul | Eq | Neq => let* p := promote l r in calc o false t (fst p) (snd p)
  | And | Or =>
      if is_bool (fst l) && is_bool (fst r) then calc o false t l r      (* constFoldBinaryOp<BoolAttr> *)
      else let* p := promote l r in calc o false t (fst p) (snd p)
  | _ => if is_signed t || is_unsigned t then let* p := promote l r in calc o (is_signed t) t (fst p) (snd p) else Ok None
  end.
(** EwMinusOp::fold, Fold.cpp 231-241 *)
Definition fold_minus (c : const) : const := (fst c, (- snd c) mod 2 ^ width (fst c)).

(** * Minimum and maximum of floating-point numbers *)
Section float.
  Context {F : Type} (lt : F -> F -> bool) (is_nan is_zero is_neg : F -> bool).
  (** llvm::minimum, llvm::maximum *)
  Definition ap_minimum (a b : F) : F :=
    if is_nan a then a else if is_nan b then b
    else if is_zero a && is_zero b && negb (Bool.eqb (is_neg a) (is_neg b)) then if is_neg a then a else b else if lt b a then b else a.
  Definition ap_maximum (a b : F) : F :=
    if is_nan a then a else if is_nan b then b
    else if is_zero a && is_zero b && negb (Bool.eqb (is_neg a) (is_neg b)) then if is_neg a then b else a else if lt a b then b else a.
  (** std::min, std::max, EwBinarySca.h 163-164 *)
  Definition std_min (a b : F) : F := if lt b a then b else a.
  Definition std_max (a b : F) : F := if lt a b then b else a.
End float.
