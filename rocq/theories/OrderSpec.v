(** What ordering rows by several keys means. *)
From stdpp Require Import base numbers sorting list.

(** A key: the value of every row, the order < of the values, ascending or descending. *)
Record skey := mkSKey { s_type : Type; s_lt : s_type -> s_type -> bool; s_val : nat -> s_type; s_asc : bool }.
(** < is a strict weak order (integers; strings; floating-point numbers without NaN, where -0 and 0 are equivalent). *)
Definition weak_order {T} (lt : T -> T -> bool) : Prop :=
  (forall x, lt x x = false) /\ (forall x y z, lt x y = true -> lt y z = true -> lt x z = true) /\
  (forall x y z, lt x z = true -> lt x y = true \/ lt y z = true).
Definition less_by (k : skey) (i j : nat) : Prop := (if s_asc k then s_lt k (s_val k i) (s_val k j) else s_lt k (s_val k j) (s_val k i)) = true.
Definition same_by (k : skey) (i j : nat) : Prop := s_lt k (s_val k i) (s_val k j) = false /\ s_lt k (s_val k j) (s_val k i) = false.

(** Rows compared by the first key, then the second, ... *)
Fixpoint lex_less (ks : list skey) (i j : nat) : Prop :=
  match ks with [] => False | k :: ks' => less_by k i j \/ (same_by k i j /\ lex_less ks' i j) end.
Definition lex_same (ks : list skey) (i j : nat) : Prop := Forall (fun k => same_by k i j) ks.
(** ... and finally by their position in the input. *)
Definition comes_before (ks : list skey) (i j : nat) : Prop := lex_less ks i j \/ (lex_same ks i j /\ i < j).
Definition ordered (n : nat) (ks : list skey) (p : list nat) : Prop := p ≡ₚ seq 0 n /\ StronglySorted (comes_before ks) p.

(** The ranges of positions of the ordered rows that hold two or more rows with the same keys; every range is maximal. *)
Definition is_group (ks : list skey) (p : list nat) (g : nat * nat) : Prop :=
  fst g + 2 <= snd g <= length p /\
  (forall i j, fst g <= i < snd g -> fst g <= j < snd g -> lex_same ks (p !!! i) (p !!! j)) /\
  (forall i, i < length p -> ~ (fst g <= i < snd g) -> ~ lex_same ks (p !!! i) (p !!! (fst g))).
Definition groups_of (ks : list skey) (p : list nat) (gs : list (nat * nat)) : Prop :=
  StronglySorted (fun g h => snd g <= fst h) gs /\ forall g, g ∈ gs <-> is_group ks p g.
