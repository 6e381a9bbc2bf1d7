(** What a call of a function means. *)
From stdpp Require Import base numbers list.
From Verif Require Import CppBase CallArgsModel.

(** The arguments of a call: first those without, then those with a name. *)
Definition split_args {V} (args : list (arg V)) (pos : list V) (named : list (name * V)) : Prop :=
  args = map (mkArg None) pos ++ map (fun e => mkArg (Some (fst e)) (snd e)) named.
(** [vals] are the values of the first parameters: first the positional arguments in
    order; each further parameter has the value given by its name; every keyword is
    the name of one of those parameters and is used once. *)
Definition binds {V} (params : list name) (args : list (arg V)) (vals : list V) : Prop :=
  exists pos named, split_args args pos named /\ length vals <= length params /\
    (exists rest, vals = pos ++ rest) /\
    NoDup (map fst named) /\
    (forall n v, (n, v) ∈ named <-> exists i, length pos <= i /\ params !! i = Some n /\ vals !! i = Some v).

(** An argument can be passed to a parameter: the types are the same, or one of them
    is not known, or both are matrices and one of the value types is not known. *)
Inductive passes : uty -> uty -> Prop :=
| pa_same t : passes t t
| pa_arg p : passes UUnknown p
| pa_param a : passes a UUnknown
| pa_mat_arg p : passes (UMatrix None) (UMatrix p)
| pa_mat_param a : passes (UMatrix a) (UMatrix None).
Definition accepts (u : udf) (vals : list val) : Prop := Forall2 (fun v p => passes (snd v) (snd p)) vals (u_params u).
(** The first definition of a function that accepts the values. *)
Definition first_accepting (us : list udf) (f : name) (vals : list val) (u : udf) : Prop :=
  exists us1 us2, us = us1 ++ u :: us2 /\ u_name u = f /\ accepts u vals /\ forall u', u' ∈ us1 -> u_name u' = f -> ~ accepts u' vals.
