(** What the product of two matrices is. *)
From stdpp Require Import base numbers list.
From Verif Require Import CppBase CSRModel AggModel.
Section spec.
Context {V : Type} `{Val V} (A : arith V).
(** ((0 + x i 0 * y 0 j) + x i 1 * y 1 j) + ... , K terms, in this order. *)
Definition prod (K : nat) (x y : nat -> nat -> V) (i j : nat) : V :=
  foldl (fun s k => aadd A s (amul A (x i k) (y k j))) vzero (seq 0 K).
(** Adding a product with zero changes nothing (the integers and, leaving infinities, NaNs and signed zeros aside, floating point numbers). *)
Definition zero_laws : Prop := (forall s y, aadd A s (amul A vzero y) = s) /\ (forall s y, aadd A s (amul A y vzero) = s).
End spec.
