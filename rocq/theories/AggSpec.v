(** What an aggregation of a list of values is. *)
From stdpp Require Import base numbers list.
From Verif Require Import CppBase CSRModel AggModel.

(** The cells of an n x m matrix given by [x], row after row; those of row [r]; those of column [c]. *)
Definition row_cells {V} (m : nat) (x : nat -> nat -> V) (r : nat) : list V := (fun c => x r c) <$> seq 0 m.
Definition col_cells {V} (n : nat) (x : nat -> nat -> V) (c : nat) : list V := (fun r => x r c) <$> seq 0 n.
Definition all_cells {V} (n m : nat) (x : nat -> nat -> V) : list V := concat (row_cells m x <$> seq 0 n).

(** v1 op (v2 op (... op (vk op e))). *)
Definition reduce {V} (op : V -> V -> V) (e : V) (l : list V) : V := foldr op e l.

Section spec.
Context {V : Type} `{Val V} (A : arith V).
Definition total (l : list V) : V := reduce (aadd A) vzero l.
Definition mean (l : list V) : V := adiv A (total l) (length l).
(** The mean of the squared deviations from the mean. *)
Definition variance (l : list V) : V := adiv A (total ((fun v => amul A (asub A v (mean l)) (asub A v (mean l))) <$> l)) (length l).
(** The aggregate of a list of values (not for IDXMIN and IDXMAX, see [first_best]). *)
Definition aggregate (o : aggop) (l : list V) : V :=
  match o with
  | SUM => total l
  | PROD => reduce (amul A) (aone A) l
  | MIN => reduce (amin A) (atop A) l
  | MAX => reduce (amax A) (abot A) l
  | MEAN => mean l
  | VAR => variance l
  | STDDEV => asqrt A (variance l)
  | IDXMIN | IDXMAX => vzero
  end.

(** What is assumed of the arithmetic for the aggregation function [o]. *)
Record comm_monoid (op : V -> V -> V) (e : V) : Prop := mkCM {
  cm_assoc : forall a b c, op a (op b c) = op (op a b) c;
  cm_comm : forall a b, op a b = op b a;
  cm_id : forall a, op e a = a
}.
Definition times (k : nat) (v : V) : V := total (replicate k v).
Definition fits (o : aggop) : Prop :=
  match o with
  | SUM | MEAN => comm_monoid (aadd A) vzero
  | PROD => comm_monoid (amul A) (aone A) /\ amul A vzero vzero = vzero
  | MIN => comm_monoid (amin A) (atop A)
  | MAX => comm_monoid (amax A) (abot A)
  | VAR | STDDEV => comm_monoid (aadd A) vzero /\ (forall a, amul A (asub A vzero a) (asub A vzero a) = amul A a a) /\
      (forall k a, amul A (amul A (aofnat A k) a) a = times k (amul A a a)) /\ (forall k a, amul A (amul A a a) (aofnat A k) = times k (amul A a a))
  | IDXMIN | IDXMAX => False
  end.

(** [i] is the first position of a best value: no value is better, and the value is better than every value before it. *)
Definition first_best (better : V -> V -> bool) (l : list V) (i : nat) : Prop :=
  exists v, l !! i = Some v /\ (forall j w, l !! j = Some w -> better w v = false) /\ (forall j w, j < i -> l !! j = Some w -> better v w = true).
(** "Less than" and "greater than" are strict orders (values may be incomparable only if they compare the same way with all others). *)
Definition weak_order (better : V -> V -> bool) : Prop :=
  (forall a b, better a b = true -> better b a = false) /\ (forall a b c, better a b = true -> better a c = true \/ better c b = true).
Definition better_of (o : aggop) (v w : V) : bool := match o with IDXMIN => alt A v w | _ => alt A w v end.
End spec.
