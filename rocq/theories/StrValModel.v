(** Model of string values: string scalars (C strings in memory), strings in matrices (std::string) and fixed-size strings (FixedStr16).
    Characters are bytes, given as numbers below 256; char is signed, so that bytes from 128 on are negative numbers. *)
From stdpp Require Import base numbers list.
From Verif Require Import CppBase.

(** * C strings.  Memory is one list of bytes; an address is a position.  Simplification: memory is never freed, new blocks are put at the end. *)
Fixpoint cstr (mem : list nat) : outcome (list nat) :=
  match mem with
  | [] => UB
  | 0 :: _ => Ok []
  | c :: mem => let* s := cstr mem in Ok (c :: s)
  end.
Definition cstr_at (mem : list nat) (p : nat) : outcome (list nat) := cstr (drop p mem).
(** std::strncmp: the sign of the result.  [n]: at most so many characters are looked at *)
Fixpoint strncmp (n : nat) (s t : list nat) : outcome comparison :=
  match n with
  | 0 => Ok Eq
  | S n =>
      match s, t with
      | a :: s, b :: t => if decide (a = b) then if decide (a = 0) then Ok Eq else strncmp n s t else Ok (a ?= b)
      | _, _ => UB
      end
  end.
(** std::tolower, std::toupper in the default locale *)
Definition tolower (c : nat) : nat := if decide (65 <= c <= 90) then c + 32 else c.
Definition toupper (c : nat) : nat := if decide (97 <= c <= 122) then c - 32 else c.
(** The same with an argument of type char: negative numbers except EOF (-1) are undefined behaviour. *)
Definition on_char (f : nat -> nat) (c : nat) : outcome nat := if decide (128 <= c < 255) then UB else Ok (f c).
Fixpoint mapo {A B} (f : A -> outcome B) (l : list A) : outcome (list B) :=
  match l with [] => Ok [] | a :: l => let* b := f a in let* bs := mapo f l in Ok (b :: bs) end.

(** src/runtime/local/kernels/BinaryOpCode.h 29-58, those that concern strings *)
Inductive sop := EQ | NEQ | LT | LE | GT | GE | MIN | MAX | CONCAT.
(** src/runtime/local/kernels/BinaryOpCode.h 186-201: which operations are supported on which types of strings: C strings, std::string (with
    std::string or C string as the right-hand side), FixedStr16 *)
Inductive skind := KC | KS | KF.
Definition supported (k : skind) (o : sop) : bool :=
  match k, o with
  | _, (EQ | NEQ | CONCAT) => true
  | KS, (LT | LE | GT | GE) => true
  | KF, (LT | GT) => true
  | _, _ => false
  end.

(** A result: a number (0 or 1), or a string *)
Inductive sres (S : Type) := RB (b : bool) | RS (s : S).
Arguments RB {S}. Arguments RS {S}.

(** src/runtime/local/kernels/EwBinarySca.h 56-104 (no function: throw), 151-152, 157-161, 170-186: string scalars at addresses.  The result is the
    memory afterwards, and a number or an address. [junk n]: what newly allocated memory of [n] bytes contains *)
Section Scalars.
  Context (junk : nat -> list nat).
  Definition copy (mem : list nat) (dst : nat) (s : list nat) : outcome (list nat) :=
    if decide (dst + length s <= length mem) then Ok (take dst mem ++ s ++ drop (dst + length s) mem) else UB.
  Definition c_concat (mem : list nat) (p q : nat) : outcome (list nat * nat) :=
    let* s := cstr_at mem p in
    let* t := cstr_at mem q in
    let r := length mem in
    let mem := mem ++ junk (length s + length t + 1) in
    let* mem := copy mem r s in
    let* mem := copy mem (r + length s) t in
    let* mem := wr mem (r + (length s + length t)) 0 in
    Ok (mem, r).
  Definition ew_c (o : sop) (mem : list nat) (p q : nat) : outcome (list nat * sres nat) :=
    if supported KC o then
      match o with
      | EQ => let* s := cstr_at mem p in let* t := cstr_at mem q in Ok (mem, RB (bool_decide (s = t)))
      | NEQ => Ok (mem, RB (bool_decide (p <> q)))
      | CONCAT => let* (mem, r) := c_concat mem p q in Ok (mem, RS r)
      | _ => Throw
      end
    else Throw.
  (** src/runtime/local/kernels/EwUnarySca.h 167-178, 212-213 *)
  Definition c_case (f : nat -> nat) (mem : list nat) (p : nat) : outcome (list nat * nat) :=
    let* s := cstr_at mem p in
    let* s' := mapo (on_char f) s in
    let r := length mem in
    let* mem := copy (mem ++ junk (length s + 1)) r s' in
    let* mem := wr mem (r + length s) 0 in
    Ok (mem, r).

  (** Expressions on string scalars whose values are not known at compile time.  Variables and constants are addresses of C strings
      (src/compiler/lowering/LowerToLLVMPass.cpp 93-131 for constants).  Simplification: each operation is executed once for each time it is
      written; the compiler may unify equal ones. *)
  Inductive sexp := Var (i : nat) | Cat (a b : sexp) | Low (a : sexp) | Upp (a : sexp).
  Fixpoint eval (env : list nat) (e : sexp) (mem : list nat) : outcome (list nat * nat) :=
    match e with
    | Var i => let* p := rd env i in Ok (mem, p)
    | Cat a b => let* (mem, p) := eval env a mem in let* (mem, q) := eval env b mem in c_concat mem p q
    | Low a => let* (mem, p) := eval env a mem in c_case tolower mem p
    | Upp a => let* (mem, p) := eval env a mem in c_case toupper mem p
    end.
  Definition eval2 (o : sop) (env : list nat) (a b : sexp) (mem : list nat) : outcome (list nat * sres nat) :=
    let* (mem, p) := eval env a mem in let* (mem, q) := eval env b mem in ew_c o mem p q.
End Scalars.

(** src/ir/daphneir/Fold.cpp 376-395, 397-424: operations on two constants at compile time; [None]: left to the run time *)
Definition fold_str (o : sop) (s t : list nat) : option (sres (list nat)) :=
  match o with
  | CONCAT => Some (RS (s ++ t))
  | EQ => Some (RB (bool_decide (s = t)))
  | _ => None
  end.

(** * std::string *)
(** std::string::compare: memcmp of the common length, then the lengths *)
Fixpoint str_compare (s t : list nat) : comparison :=
  match s, t with
  | [], [] => Eq
  | [], _ :: _ => Lt
  | _ :: _, [] => Gt
  | a :: s, b :: t => match a ?= b with Eq => str_compare s t | c => c end
  end.
Definition cmp_res (o : sop) (c : comparison) : outcome bool :=
  match o, c with
  | EQ, Eq | NEQ, (Lt | Gt) | LT, Lt | LE, (Lt | Eq) | GT, Gt | GE, (Gt | Eq) => Ok true
  | (EQ | NEQ | LT | LE | GT | GE), _ => Ok false
  | _, _ => Throw
  end.
(** EwBinarySca.h 151-156, 169: two cells of matrices of strings.  A cell and a string scalar: the scalar is used as a C string. *)
Definition ew_str (o : sop) (s t : list nat) : outcome (sres (list nat)) :=
  if supported KS o then
    match o with CONCAT => Ok (RS (s ++ t)) | _ => let* b := cmp_res o (str_compare s t) in Ok (RB b) end
  else Throw.
Definition ew_str_c (o : sop) (s mem : list nat) (q : nat) : outcome (sres (list nat)) := let* t := cstr_at mem q in ew_str o s t.
(** EwUnarySca.h 158-165, 210-211 *)
Definition str_case (f : nat -> nat) (s : list nat) : outcome (list nat) := mapo (on_char f) s.

(** * FixedStr16: src/runtime/local/datastructures/FixedSizeStringValueType.h.  A value is the list of the 16 bytes. *)
Definition cap : nat := 16.
(** 39 *)
Definition fixed_default : list nat := replicate cap 0.
(** 55-62 (std::string).  Copying and filling are written as one list. *)
Definition fixed_of (s : list nat) : outcome (list nat) :=
  if decide (cap <= length s) then Throw else Ok (s ++ replicate (cap - length s) 0).
(** 42-49 and 108-115 (C string) *)
Definition fixed_of_c (mem : list nat) (p : nat) : outcome (list nat) := let* s := cstr_at mem p in fixed_of s.
(** 73, 78 *)
Definition fixed_eq (f g : list nat) : bool := bool_decide (f = g).
(** 75, 80 *)
Definition fixed_eq_c (f mem : list nat) (p : nat) : outcome bool :=
  let* c := strncmp cap f (drop p mem) in Ok (match c with Eq => true | _ => false end).
(** 83, 86, 121 *)
Definition fixed_compare (f g : list nat) : outcome comparison := strncmp cap f g.
Definition fixed_lt (f g : list nat) : outcome bool := let* c := fixed_compare f g in Ok (match c with Lt => true | _ => false end).
Definition fixed_gt (f g : list nat) : outcome bool := let* c := fixed_compare f g in Ok (match c with Gt => true | _ => false end).
(** 89-93 *)
Definition fixed_concat (f g : list nat) : outcome (list nat) := let* s := cstr f in let* t := cstr g in Ok (s ++ t).
(** 99-102 *)
Definition fixed_print (f : list nat) : list nat := take cap f.
(** 105, 118 *)
Definition fixed_size (f : list nat) : outcome nat := let* s := cstr f in Ok (length s).
Definition fixed_string (f : list nat) : outcome (list nat) := let* n := fixed_size f in Ok (take n f).
(** 124-135: the characters are converted to unsigned char first *)
Definition fixed_case (g : nat -> nat) (f : list nat) : list nat := map g f.
(** EwBinarySca.h 151-156, 169 on FixedStr16 *)
Definition ew_fixed (o : sop) (f g : list nat) : outcome (sres (list nat)) :=
  if supported KF o then
    match o with
    | EQ => Ok (RB (fixed_eq f g))
    | NEQ => Ok (RB (negb (fixed_eq f g)))
    | LT => let* b := fixed_lt f g in Ok (RB b)
    | GT => let* b := fixed_gt f g in Ok (RB b)
    | CONCAT => let* s := fixed_concat f g in Ok (RS s)
    | _ => Throw
    end
  else Throw.
