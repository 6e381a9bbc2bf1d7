(** What fusing pipelines that scan the same matrix is about. The order of a block, the values and the effects are those of FusionSpec.v. *)
From stdpp Require Import base numbers sorting list.
From Verif Require Import FusionModel FusionSpec.

(** A block in which all vectorizable operations are in pipelines: every item is a pipeline or a single other operation *)
Definition pipeline (it : list vop) : Prop := it <> [] /\ forall o, o ∈ it -> o_vec o = true.
Definition plain (it : list vop) : Prop := exists o, it = [o] /\ o_vec o = false.
Definition well_formed (blk : list (list vop)) : Prop := forall it, it ∈ blk -> pipeline it \/ plain it.

(** [x] uses [a], directly or through operations that are not in pipelines *)
Inductive reach (l : list vop) : nat -> nat -> Prop :=
  | reach_use y a : y ∈ l -> a ∈ uses y -> reach l (o_id y) a
  | reach_via y z a : y ∈ l -> z ∈ l -> o_id z ∈ uses y -> o_vec z = false -> reach l (o_id z) a -> reach l (o_id y) a.

(** Two pipelines scan the same value: it is an operand of both, from outside of the pipeline, and split by rows in both *)
Definition scans (it : list vop) (a : nat) : Prop := exists o, o ∈ it /\ (a, true) ∈ zip (o_args o) (o_rows o) /\ a ∉ names it.
Definition share (p q : list vop) : Prop := exists a, scans p a /\ scans q a.

(** No pipeline needs a result of another one *)
Definition independent (blk : list (list vop)) : Prop :=
  forall p q o r, p ∈ blk -> q ∈ blk -> pipeline p -> pipeline q -> p <> q -> o ∈ p -> r ∈ q -> ~ reach (concat blk) (o_id o) (o_id r).
(** Pipelines that share a scan with the same pipeline share one *)
Definition transitive_sharing (blk : list (list vop)) : Prop :=
  forall p q r, p ∈ blk -> q ∈ blk -> r ∈ blk -> pipeline p -> pipeline q -> pipeline r -> p <> q -> q <> r -> p <> r -> share p q -> share q r -> share p r.
(** What is used inside control structures neither is a result of a pipeline nor needs one *)
Definition nested_plain (blk : list (list vop)) : Prop :=
  forall y a r, y ∈ concat blk -> a ∈ o_nested y -> r ∈ concat blk -> o_vec r = true -> a <> o_id r /\ ~ reach (concat blk) a (o_id r).
(** A pipeline that shares a scan with a later one is directly followed by an operation that uses one of its results and needs no other pipeline *)
Definition followed (blk : list (list vop)) : Prop :=
  forall l1 p l2 q l3, blk = l1 ++ p :: l2 ++ q :: l3 -> pipeline p -> pipeline q -> share p q ->
    exists f l4, l2 = [f] :: l4 /\ o_vec f = false /\ (exists r, r ∈ p /\ o_id r ∈ o_args f) /\
      forall r, r ∈ concat blk -> o_vec r = true -> r ∉ p -> ~ reach (concat blk) (o_id f) (o_id r).
(** All pipelines that share a scan with another one share one with each other *)
Definition one_group (blk : list (list vop)) : Prop :=
  forall p q p' q', p ∈ blk -> q ∈ blk -> p' ∈ blk -> q' ∈ blk -> pipeline p -> pipeline q -> pipeline p' -> pipeline q' ->
    p <> q -> share p q -> p' <> q' -> share p' q' -> p = p' \/ share p p'.
(** What has side effects between two pipelines that share a scan needs one of those that share it *)
Definition effects_need (blk : list (list vop)) : Prop :=
  forall l1 p l2 e l3 q l4, blk = l1 ++ p :: l2 ++ [e] :: l3 ++ q :: l4 -> pipeline p -> pipeline q -> share p q -> o_eff e = true ->
    exists it r, it ∈ blk /\ pipeline it /\ (it = p \/ share p it) /\ r ∈ it /\ reach (concat blk) (o_id e) (o_id r).
