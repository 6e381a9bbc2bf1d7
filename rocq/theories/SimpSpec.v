(** Specification for the simplifications of element-wise operations: what an expression of DaphneDSL means.

    A scalar has one of DAPHNE's value types, a matrix has a value type, a shape and its cells. Integers are mathematical integers within the bounds of their
    type, floating-point numbers are the IEEE 754 numbers of [Coq.Floats.SpecFloat], strings are strings. *)
From Coq Require Import Floats.SpecFloat Strings.String.
From stdpp Require Import base numbers list.
From Verif Require Import CppBase.
Local Open Scope Z_scope.

(** ** Value types *)

Inductive vt := TS8 | TU8 | TS32 | TU32 | TIdx | TS64 | TU64 | TF32 | TF64 | TStr.
Global Instance vt_eq_dec : EqDecision vt.
Proof. solve_decision. Defined.
(** src/compiler/inference/TypeInferenceUtils.cpp 19-52 (generality; booleans left out): the type of the result of an arithmetic operation is the more general
    one of the types of its arguments, and the arguments are cast to it (DaphneOps.td, ValueTypeFromArgs and CastArgsToResType) *)
Definition generality (t : vt) : Z :=
  match t with
  | TStr => 10 | TF64 => 9 | TF32 => 8 | TU64 => 7 | TS64 => 6 | TIdx => 5 | TU32 => 4 | TS32 => 3 | TU8 => 2 | TS8 => 1
  end.
Definition most (t u : vt) : vt := if decide (generality t < generality u) then u else t.
Definition is_int (t : vt) : bool := match t with TF32 | TF64 | TStr => false | _ => true end.
Definition is_flt (t : vt) : bool := match t with TF32 | TF64 => true | _ => false end.
Definition is_str (t : vt) : bool := match t with TStr => true | _ => false end.
Definition is_signed (t : vt) : bool := match t with TS8 | TS32 | TS64 => true | _ => false end.
Definition bits (t : vt) : Z := match t with TS8 | TU8 => 8 | TS32 | TU32 => 32 | _ => 64 end.
Definition prec (t : vt) : Z := match t with TF32 => 24 | _ => 53 end.
Definition emax (t : vt) : Z := match t with TF32 => 128 | _ => 1024 end.

(** the integers of a type; conversion of an integer to it *)
Definition in_type (t : vt) (z : Z) : Prop := if is_signed t then - 2 ^ (bits t - 1) <= z < 2 ^ (bits t - 1) else 0 <= z < 2 ^ bits t.
Global Instance in_type_dec t z : Decision (in_type t z).
Proof. unfold in_type. destruct (is_signed t); apply _. Defined.
Definition wrap (t : vt) (z : Z) : Z :=
  if is_signed t then (z + 2 ^ (bits t - 1)) mod 2 ^ bits t - 2 ^ (bits t - 1) else z mod 2 ^ bits t.

(** ** Values *)

Inductive pay := PI (z : Z) | PF (f : spec_float) | PS (s : string).
Inductive value :=
| VS (t : vt) (p : pay)
| VM (t : vt) (n m : nat) (x : list (list pay)).

(** a value of the type *)
Definition of_type (t : vt) (p : pay) : Prop :=
  match p with
  | PI z => is_int t = true /\ in_type t z
  | PF f => is_flt t = true /\ valid_binary (prec t) (emax t) f = true
  | PS _ => t = TStr
  end.
Definition good (v : value) : Prop :=
  match v with
  | VS t p => of_type t p
  | VM t n m x => length x = n /\ Forall (fun row => length row = m /\ Forall (of_type t) row) x
  end.

(** ** Operations *)

Inductive bop := Add | Sub | Mul | Div | Pow.

Section Meaning.
  (** [wrapv]: whether signed overflow (of 32 or 64 bits) is two's complement; else it is undefined behaviour. [pw]: powers (std::pow of the C library).
      [show]: how a number is written as a string. [prod]: the product of two matrices. *)
  Context (wrapv : bool) (pw : vt -> pay -> pay -> pay) (show : vt -> pay -> string).

  (** the result [z] of integer arithmetic in type [t]; 8-bit integers are promoted to int and converted back *)
  Definition iarith (t : vt) (z : Z) : outcome pay :=
    if decide (in_type t z) then Ok (PI z) else
    match t with
    | TS32 | TS64 => if wrapv then Ok (PI (wrap t z)) else UB
    | _ => Ok (PI (wrap t z))
    end.
  (** conversion of a value to a type that is at least as general *)
  Definition conv (t : vt) (p : pay) : pay :=
    match p with
    | PI z => if is_int t then PI (wrap t z) else if is_flt t then PF (binary_normalize (prec t) (emax t) z 0 false) else p
    | PF (S754_finite s m e) => PF (binary_normalize (prec t) (emax t) (cond_Zopp s (Zpos m)) e s)
    | _ => p
    end.
  (** arithmetic on two values of type [t] (src/runtime/local/kernels/EwBinarySca.h 139-147) *)
  Definition arith (o : bop) (t : vt) (p q : pay) : outcome pay :=
    match p, q with
    | PI x, PI y =>
        match o with
        | Add => iarith t (x + y) | Sub => iarith t (x - y) | Mul => iarith t (x * y)
        | Div => if decide (y = 0) then UB else iarith t (Z.quot x y)
        | Pow => Ok (pw t p q)
        end
    | PF x, PF y =>
        match o with
        | Add => Ok (PF (SFadd (prec t) (emax t) x y)) | Sub => Ok (PF (SFsub (prec t) (emax t) x y))
        | Mul => Ok (PF (SFmul (prec t) (emax t) x y)) | Div => Ok (PF (SFdiv (prec t) (emax t) x y))
        | Pow => Ok (pw t p q)
        end
    | _, _ => Throw
    end.
  Definition str_of (t : vt) (p : pay) : string := match p with PS s => s | _ => show t p end.
  (** an operation on two scalars: on strings, [+] is concatenation, and numbers are written as strings for it *)
  Definition sca (o : bop) (t : vt) (p : pay) (u : vt) (q : pay) : outcome pay :=
    if is_str t || is_str u then match o with Add => Ok (PS (str_of t p ++ str_of u q)%string) | _ => Throw end
    else arith o (most t u) (conv (most t u) p) (conv (most t u) q).

  Fixpoint mapo {A B} (f : A -> outcome B) (l : list A) : outcome (list B) :=
    match l with [] => Ok [] | a :: l => let* b := f a in let* k := mapo f l in Ok (b :: k) end.
  Fixpoint zipo {A B C} (f : A -> B -> outcome C) (l : list A) (k : list B) : outcome (list C) :=
    match l, k with a :: l, b :: k => let* c := f a b in let* r := zipo f l k in Ok (c :: r) | _, _ => Ok [] end.

  (** src/runtime/local/kernels/EwBinaryMat.h 53-101: two matrices of the same shape, or a matrix and a row or a column on its right. (The kernel also takes a
      row or a column on the left, and then returns a result of its shape.) *)
  Definition ewmm {A} (f : A -> A -> outcome A) (n m : nat) (x : list (list A)) (n' m' : nat) (y : list (list A)) : outcome (list (list A)) :=
    if decide (n = n' /\ m = m') then zipo (zipo f) x y
    else if decide (m = m' /\ (n' = 1 \/ n = 1))%nat then
      mapo (fun row => zipo f row (default [] (y !! 0%nat))) x
    else if decide (n = n' /\ (m' = 1 \/ m = 1))%nat then
      zipo (fun row row' => match row' with b :: _ => mapo (fun a => f a b) row | [] => match row with [] => Ok [] | _ => UB end end) x y
    else Throw.

  Definition mixed (t u : vt) : bool := negb (Bool.eqb (is_str t) (is_str u)).
  (** an element-wise operation; on a matrix and a scalar, each cell is combined with the scalar. There is no operation on a matrix of numbers and strings. *)
  Definition ebin (o : bop) (v w : value) : outcome value :=
    match v, w with
    | VS t p, VS u q => let* r := sca o t p u q in Ok (VS (most t u) r)
    | VM t n m x, VS u q =>
        if mixed t u then Throw else
        let* r := mapo (mapo (fun p => sca o t p u q)) x in Ok (VM (most t u) n m r)
    | VS t p, VM u n m x =>
        if mixed t u then Throw else
        let* r := mapo (mapo (fun q => sca o t p u q)) x in Ok (VM (most t u) n m r)
    | VM t n m x, VM u n' m' y =>
        if mixed t u then Throw else
        let* r := ewmm (fun p q => sca o t p u q) n m x n' m' y in Ok (VM (most t u) n m r)
    end.

  (** negation of each cell *)
  Definition neg (t : vt) (p : pay) : outcome pay :=
    match p with PI z => iarith t (- z) | PF f => Ok (PF (SFopp f)) | PS _ => Throw end.
  Definition emap (f : vt -> pay -> outcome pay) (v : value) : outcome value :=
    match v with
    | VS t p => let* r := f t p in Ok (VS t r)
    | VM t n m x => let* r := mapo (mapo (f t)) x in Ok (VM t n m r)
    end.

  (** concatenation, for strings only: of two scalars, of each cell with a scalar, or of two matrices cell by cell; no kernel takes a scalar and a matrix *)
  Definition cat (p q : pay) : outcome pay := match p, q with PS a, PS b => Ok (PS (a ++ b)%string) | _, _ => Throw end.
  Definition econcat (v w : value) : outcome value :=
    match v, w with
    | VS TStr p, VS TStr q => let* r := cat p q in Ok (VS TStr r)
    | VM TStr n m x, VS TStr q => let* r := mapo (mapo (fun p => cat p q)) x in Ok (VM TStr n m r)
    | VM TStr n m x, VM TStr n' m' y => let* r := ewmm cat n m x n' m' y in Ok (VM TStr n m r)
    | _, _ => Throw
    end.
  (** a scalar as a string; a matrix only if it has a single cell *)
  Definition to_str (v : value) : outcome value :=
    match v with
    | VS t p => Ok (VS TStr (PS (str_of t p)))
    | VM t 1 1 [[p]] => Ok (VS TStr (PS (str_of t p)))
    | VM _ _ _ _ => Throw
    end.

  (** transposition *)
  Definition trans {A} (m : nat) (x : list (list A)) : list (list A) := (fun j => omap (fun row => row !! j) x) <$> seq 0 m.
  Definition etrans (v : value) : outcome value := match v with VM t n m x => Ok (VM t m n (trans m x)) | VS _ _ => Throw end.
End Meaning.
