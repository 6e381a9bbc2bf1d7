(** Specification of "a list of row ranges covers [0, total) exactly", independent of any model. *)
From Coq Require Import NArith List Lia.
Import ListNotations.
Local Open Scope N_scope.

(** Row [r] lies in the half-open range [a, b). *)
Definition covers (rg : N * N) (r : N) : Prop := fst rg <= r < snd rg.

(** Every row below [total] lies in exactly one of the ranges; ranges are non-empty and end at [total] or before. *)
Definition exact_cover (total : N) (rs : list (N * N)) : Prop :=
  (forall r, r < total -> exists i rg, nth_error rs i = Some rg /\ covers rg r /\
                               forall j rg', nth_error rs j = Some rg' -> covers rg' r -> j = i)
  /\ (forall rg, In rg rs -> fst rg < snd rg /\ snd rg <= total).

(** The ranges follow each other without gap, from [a] to [b]. *)
Fixpoint consecutive (a b : N) (rs : list (N * N)) : Prop :=
  match rs with
  | [] => a = b
  | rg :: r => fst rg = a /\ fst rg < snd rg /\ consecutive (snd rg) b r
  end.

Definition sumN (l : list N) : N := fold_right N.add 0 l.

(** Every row below [total] belongs to exactly one task of exactly one queue. *)
Definition exact_cover_queues (total : N) (qs : list (list (N * N))) : Prop :=
  (forall r, r < total ->
     exists q i ts rg, nth_error qs q = Some ts /\ nth_error ts i = Some rg /\ covers rg r /\
       forall q' i' ts' rg', nth_error qs q' = Some ts' -> nth_error ts' i' = Some rg' -> covers rg' r ->
                             q' = q /\ i' = i)
  /\ (forall ts rg, In ts qs -> In rg ts -> fst rg < snd rg /\ snd rg <= total).
