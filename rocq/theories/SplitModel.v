(** Model of grouped sums with optimistic splitting (src/runtime/local/kernels/ColAggGrp.h).

    Values are mathematical integers. [wrapv] says what an overflow of signed arithmetic is: undefined behaviour, as in C++, or (compiler flag -fwrapv, which
    the build does not set) two's complement. Conversions to a smaller signed type are two's complement in any case. *)
From stdpp Require Import base numbers list.
From Verif Require Import CppBase.
Local Open Scope Z_scope.

(** ColAggGrp.h 142-146: the value types with optimistic splitting *)
Inductive ity := I32 | U32 | I64 | U64.
Definition is_signed (t : ity) : bool := match t with I32 | I64 => true | U32 | U64 => false end.
(** the number of values of the type, and (ColAggGrp.h 87-90) of its half type *)
Definition full (t : ity) : Z := match t with I32 | U32 => 2 ^ 32 | I64 | U64 => 2 ^ 64 end.
Definition half (t : ity) : Z := match t with I32 | U32 => 2 ^ 16 | I64 | U64 => 2 ^ 32 end.
Definition in_type (sg : bool) (m z : Z) : Prop := if sg then - (m / 2) <= z < m / 2 else 0 <= z < m.
Global Instance in_type_dec sg m z : Decision (in_type sg m z).
Proof. unfold in_type. destruct sg; apply _. Defined.
(** conversion to the type with [m] values *)
Definition wrap (sg : bool) (m z : Z) : Z := if sg then (z + m / 2) mod m - m / 2 else z mod m.

Section Split.
  Context (wrapv : bool) (t : ity).
  (** a result of arithmetic in a type with [m] values that is int or wider *)
  Definition arith (m z : Z) : outcome Z :=
    if is_signed t then (if decide (in_type true m z) then Ok z else if wrapv then Ok (wrap true m z) else UB) else Ok (wrap false m z).
  (** ColAggGrp.h 113: the sum of two values of the half type, as a value of the half type. 16-bit values are promoted to int, where the sum cannot overflow. *)
  Definition add_half (x y : Z) : outcome Z :=
    match t with I32 | U32 => Ok (wrap (is_signed t) (half t) (x + y)) | I64 | U64 => arith (half t) (x + y) end.
  Definition add_full (x y : Z) : outcome Z := arith (full t) (x + y).
  (** ColAggGrp.h 107-127: one row *)
  Definition split_row (data : list Z) (ids : list Z) (numDistinct r : nat) (s : list Z * list Z) : outcome (list Z * list Z) :=
    let '(res, lo) := s in
    let* g := rd ids r in
    if decide (g < 0 \/ Z.of_nat numDistinct < g) then Throw else
    let* v := rd data r in
    let* l := rd lo (Z.to_nat g) in
    let* tmp := add_half (wrap (is_signed t) (half t) v) l in
    let overflow := negb (xorb (bool_decide (0 <= v)) (bool_decide (tmp < v))) in
    if overflow then
      let* x := add_full v l in
      let* a := rd res (Z.to_nat g) in
      let* a := add_full a x in
      let* res := wr res (Z.to_nat g) a in
      let* lo := wr lo (Z.to_nat g) 0 in Ok (res, lo)
    else let* lo := wr lo (Z.to_nat g) tmp in Ok (res, lo).
  (** ColAggGrp.h 95-134, 161-183: grouped sum with optimistic splitting *)
  Definition agg_split (data : list Z) (ids : list Z) (numDistinct : nat) : outcome (list Z) :=
    if decide (length data <> length ids) then Throw else
    let* s := for_up 0 (length data) (split_row data ids numDistinct) (replicate numDistinct 0, replicate numDistinct 0) in
    for_up 0 numDistinct (fun r res =>
      let* a := rd res r in let* l := rd (snd s) r in let* a := add_full a l in wr res r a) (fst s).
  (** ColAggGrp.h 52-63, 161-188: the same without it; EwBinarySca.h, addition *)
  Definition agg_plain (data : list Z) (ids : list Z) (numDistinct : nat) : outcome (list Z) :=
    if decide (length data <> length ids) then Throw else
    for_up 0 (length data) (fun r res =>
      let* g := rd ids r in
      if decide (g < 0 \/ Z.of_nat numDistinct < g) then Throw else
      let* a := rd res (Z.to_nat g) in
      let* v := rd data r in
      let* a := add_full a v in
      wr res (Z.to_nat g) a) (replicate numDistinct 0).
End Split.
