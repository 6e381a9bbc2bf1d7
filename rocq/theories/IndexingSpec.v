(** What indexing means, independent of the code (doc/DaphneDSL/LanguageRef.md, "Indexing"). *)
From stdpp Require Import base numbers list.
From Coq Require Import ZArith Lia.
From Verif Require Import CppBase Mem Bitmap IndexingModel.
Local Open Scope nat_scope.

(** Positions are rounded down to integers. *)
Definition floor (p : pos) : Z := (p_num p / Z.pos (p_den p))%Z.
(** A position among n counts from the end if it is negative. *)
Definition counted (n : nat) (z : Z) : Z := if decide (z < 0)%Z then (Z.of_nat n + z)%Z else z.
(** The positions among 0 .. n - 1 that are addressed, in order. *)
Inductive addressed (n : nat) : axis -> list nat -> Prop :=
| ad_omit : addressed n Omit (seq 0 n)
| ad_all : addressed n (Range None None) (seq 0 n)
| ad_at p i : Z.of_nat i = counted n (floor p) -> i < n -> addressed n (At p) [i]
| ad_from p l : Z.of_nat l = counted n (floor p) -> l < n -> addressed n (Range (Some p) None) (seq l (n - l))
| ad_to p u : Z.of_nat u = counted n (floor p) -> 0 < n -> u <= n -> addressed n (Range None (Some p)) (seq 0 u)
| ad_range p q l u : Z.of_nat l = counted n (floor p) -> Z.of_nat u = counted n (floor q) -> l < n -> l <= u <= n -> addressed n (Range (Some p) (Some q)) (seq l (u - l))
| ad_positions sel zs is : column sel zs -> Forall2 (fun z i => Z.of_nat i = counted n z /\ i < n) zs is -> addressed n (Positions sel) is.
(** The positions written are integers or not negative, fit 64 bits; a matrix of positions is not a part of a wider one. *)
Definition plain (p : pos) : Prop := (Z.pos (p_den p) = 1 \/ 0 <= p_num p)%Z /\ (- 2 ^ 63 <= floor p < 2 ^ 63)%Z.
Definition clean (ax : axis) : Prop :=
  match ax with
  | Omit | Label => True
  | At p => plain p
  | Range lo up => (forall p, lo = Some p -> plain p) /\ (forall p, up = Some p -> plain p) /\ ~ (exists p q, lo = Some p /\ up = Some q /\ floor p < 0 /\ floor q = 0)%Z
  | Positions sel => (m_skip sel = 1 \/ m_rows sel <= 1) /\ forall zs, column sel zs -> Forall (fun v => - 2 ^ 63 <= v < 2 ^ 63)%Z zs
  end.
(** The cells with a row from [rs] and a column from [cs] are taken from [y] in order, the others from [x]. *)
Definition replaced {V} (n m : nat) (rs cs : list nat) (x y z : nat -> nat -> V) : Prop :=
  (forall i j r c, rs !! i = Some r -> cs !! j = Some c -> z r c = y i j) /\
  (forall r c, r < n -> c < m -> r ∉ rs \/ c ∉ cs -> z r c = x r c).
(** Ranges can be assigned to. *)
Definition assignable (ax : axis) : Prop := match ax with Positions _ | Label => False | _ => True end.
(** Assigning the values one after the other, each to its variable with its own brackets. *)
Inductive assigned {V} `{CSRModel.Val V} (junk : nat -> list V) : @vars V -> list (nat * option (axis * axis)) -> list (@value V) -> @vars V -> Prop :=
| as_nil s : assigned junk s [] [] s
| as_cons s x idx v s1 parts vs s2 : assign junk s x idx v = Ok s1 -> assigned junk s1 parts vs s2 -> assigned junk s ((x, idx) :: parts) (v :: vs) s2.
