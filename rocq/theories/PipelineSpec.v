(** What a row-wise (or aggregating) pipeline means, independently of how it is executed. *)
From stdpp Require Import base numbers list.
From Verif Require Import CppBase Mem PipelineModel.

Section spec.
Context {V : Type}.
(** What the body sees of input [x] when it processes row [i]: row i of a row-split input (a single row stands for all rows), all of
    an input that is not split. *)
Definition seen (split : bool) (x : list (list V)) (i : nat) : list (list V) :=
  if split then (if decide (length x = 1) then x else match x !! i with Some row => [row] | None => [] end) else x.
Definition all_seen (splits : list bool) (xs : list (list (list V))) (i : nat) : list (list (list V)) :=
  zip_with (fun s x => seen s x i) splits xs.
(** Inputs for [k] rows: each split input has k rows or a single one, at least one split input has k rows, and what is seen for each
    row is [valid] (for example: the rows have the number of columns the body expects). *)
Definition lengths_fit (splits : list bool) (xs : list (list (list V))) (k : nat) : Prop :=
  Forall2 (fun s x => s = true -> length x = k \/ length x = 1) splits xs.
Definition some_input_has (splits : list bool) (xs : list (list (list V))) (k : nat) : Prop :=
  exists j x, splits !! j = Some true /\ xs !! j = Some x /\ length x = k.
Definition compatible (valid : list (list (list V)) -> Prop) (splits : list bool) (xs : list (list (list V))) (k : nat) : Prop :=
  lengths_fit splits xs k /\ some_input_has splits xs k /\ forall i, i < k -> valid (all_seen splits xs i).
(** A body that acts row-wise: row i of its output is [h] of what is seen for row i. The output may be stored with any stride. *)
Definition row_wise (body : list (list (list V)) -> outcome (dmat V)) (valid : list (list (list V)) -> Prop) (splits : list bool) (m : nat) (h : list (list (list V)) -> nat -> V) : Prop :=
  forall xs k, 0 < k -> compatible valid splits xs k -> exists out, body xs = Ok out /\ is_dense out k m (fun i c => h (all_seen splits xs i) c).
(** The same with the rows of the input becoming columns of the output. *)
Definition col_wise (body : list (list (list V)) -> outcome (dmat V)) (valid : list (list (list V)) -> Prop) (splits : list bool) (m : nat) (h : list (list (list V)) -> nat -> V) : Prop :=
  forall xs k, 0 < k -> compatible valid splits xs k -> exists out, body xs = Ok out /\ is_dense out m k (fun c i => h (all_seen splits xs i) c).

(** f a `op` f (a+1) `op` ... `op` f (a+k) *)
Fixpoint aggr (op : V -> V -> V) (f : nat -> V) (a k : nat) : V := match k with 0 => f a | S k' => op (aggr op f a k') (f (a + k)) end.
(** A body that aggregates over the rows. *)
Definition aggregating (body : list (list (list V)) -> outcome (dmat V)) (valid : list (list (list V)) -> Prop) (splits : list bool) (op : V -> V -> V) (p q : nat)
    (h : list (list (list V)) -> nat -> nat -> V) : Prop :=
  forall xs k, 0 < k -> compatible valid splits xs k ->
    exists out, body xs = Ok out /\ is_dense out p q (fun i j => aggr op (fun t => h (all_seen splits xs t) i j) 0 (k - 1)).

(** A list of tasks: every row below [n] belongs to exactly one of them; none is empty. *)
Definition tasks_cover (n : nat) (ts : list (nat * nat)) : Prop :=
  (forall t, t ∈ ts -> fst t < snd t <= n) /\
  (forall r, r < n -> exists i t, ts !! i = Some t /\ fst t <= r < snd t /\ forall j t', ts !! j = Some t' -> fst t' <= r < snd t' -> j = i).
End spec.
