(** Specification for the columnar operators: what the operations they replace compute. Frames, cells and matching pairs of rows are those of C32
    ([cell], [valid], [key_column], [matches], [headers], [source]). *)
From stdpp Require Import base numbers sorting list list_numbers.
From Verif Require Import CppBase Mem JoinModel Join ColumnarModel.
Local Open Scope nat_scope.

(** The comparison an operation stands for. *)
Definition holds {V W} (o : cmps V W) (op : ew_cmp) (v : V) (w : W) : bool :=
  match op with EwEq => c_eq o v w | EwNeq => c_ne o v w | EwGt => c_gt o v w | EwGe => c_ge o v w | EwLt => c_lt o v w | EwLe => c_le o v w end.
(** The logical operation on bits. *)
Definition bit_op (op : ew_log) (x y : Z) : Z :=
  match op with EwAnd => if decide (x <> 0 /\ y <> 0)%Z then 1 else 0 | EwOr => if decide (x <> 0 \/ y <> 0)%Z then 1 else 0 end%Z.

Section Frames.
  Context {V L : Type}.
  (** [res] has the columns of [f] and the rows [ps] of [f], in that order. *)
  Definition picks (f : frame V L) (ps : list nat) (res : frame V L) : Prop :=
    f_rows res = length ps /\ headers res = headers f /\ forall i p c, ps !! i = Some p -> cell res i c = cell f p c.

  (** Rows with the same values in the columns [cs]. *)
  Definition same_key (cs : list (list V)) (i j : nat) : Prop := Forall (fun c => c !! i = c !! j) cs.
End Frames.

(** A relation on the rows 0, ..., n-1: the rows that are not related to an earlier one, in order, and the rows related to row [f], in order. *)
Definition firsts (R : nat -> nat -> Prop) `{forall i j, Decision (R i j)} (n : nat) : list nat := filter (fun i => Forall (fun j => ~ R j i) (seq 0 i)) (seq 0 n).
Definition members (R : nat -> nat -> Prop) `{forall i j, Decision (R i j)} (n : nat) (f : nat) : list nat := filter (R f) (seq 0 n).
Global Instance same_key_dec {V} `{EqDecision V} (cs : list (list V)) i j : Decision (same_key cs i j).
Proof. unfold same_key. apply _. Defined.
