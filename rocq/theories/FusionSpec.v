(** What it means that the operations of a block are in a valid order, and what they compute. *)
From stdpp Require Import base numbers sorting list.
From Verif Require Import FusionModel.

(** All values an operation needs *)
Definition uses (o : vop) : list nat := o_args o ++ o_nested o.
(** Every value has one definition and no operation uses a value that is defined by itself or later *)
Definition ordered (l : list vop) : Prop :=
  NoDup (names l) /\ StronglySorted (fun y z => o_id z ∉ uses y) l /\ Forall (fun y => o_id y ∉ uses y) l.
(** The values of all operations; [f]: what the operations compute *)
Section eval.
  Context {V : Type} (f : nat -> list V -> V).
  Definition set (env : nat -> V) (x : nat) (v : V) : nat -> V := fun y => if decide (y = x) then v else env y.
  Fixpoint eval (l : list vop) (env : nat -> V) : nat -> V :=
    match l with [] => env | y :: l' => eval l' (set env (o_id y) (f (o_id y) (map env (uses y)))) end.
End eval.
(** The operations with side effects, in order *)
Definition effects (l : list vop) : list nat := names (filter (fun o => o_eff o = true) l).
(** Every value of the block is used at most once (in one operation, at one operand) *)
Definition used_once (l : list vop) : Prop := NoDup (filter (fun a => a ∈ names l) (l ≫= uses)).
(** Item [i] of a block needs item [j]: directly or through other items *)
Inductive needs (blk : list (list vop)) : nat -> nat -> Prop :=
  | needs_use i j it y z itj : blk !! i = Some it -> blk !! j = Some itj -> y ∈ it -> z ∈ itj -> o_id z ∈ uses y -> needs blk i j
  | needs_trans i j k : needs blk i j -> needs blk j k -> needs blk i k.
(** Item [i] defines value [v]; item [i] is part of the pipeline *)
Definition defines (blk : list (list vop)) (i v : nat) : Prop := exists it, blk !! i = Some it /\ v ∈ names it.
Definition in_pipe (blk : list (list vop)) (pipe : list nat) (i : nat) : Prop := exists it v, blk !! i = Some it /\ v ∈ names it /\ v ∈ pipe.
