(** What "evenly partitioned" and "a part of a matrix" mean. *)
From stdpp Require Import base numbers list.
From Verif Require Import CppBase Mem.

(** A list of ranges (start, length) that partitions [0, total) evenly. *)
Record even_cover (total : nat) (rs : list (nat * nat)) : Prop := {
  ec_unique : forall r, r < total -> exists i, (exists s l, rs !! i = Some (s, l) /\ s <= r < s + l) /\
                forall j s l, rs !! j = Some (s, l) -> s <= r < s + l -> j = i;
  ec_inside : forall i s l, rs !! i = Some (s, l) -> s + l <= total;
  ec_even : forall i j s l s' l', rs !! i = Some (s, l) -> rs !! j = Some (s', l') -> l <= l' + 1;
  ec_consecutive : forall i s l s' l', rs !! i = Some (s, l) -> rs !! (i + 1) = Some (s', l') -> s' = s + l
}.

(** [part] holds rows r0.. and columns c0.. (nr x nc cells) of the matrix [x]. *)
Definition part_of {V} (x : nat -> nat -> V) (r0 nr c0 nc : nat) (part : list V) : Prop :=
  tabulated nr nc (fun i j => x (r0 + i) (c0 + j)) part.

(** The sum of [f] over a list. *)
Definition sum_with {V} (add : V -> V -> V) (z : V) (f : nat -> V) (l : list nat) : V := foldr (fun w acc => add (f w) acc) z l.
