(** What it means for a kernel to be applicable and preferred. *)
From stdpp Require Import base numbers list.
From Coq Require Import ZArith.
From Verif Require Import CppBase CsvModel KernelModel.

(** The type of an operand agrees with the parameter of a kernel: the same data
    type, value type and representation, whatever else is known about the operand. *)
Inductive agrees : ty -> ty -> Prop :=
| ag_scalar v : agrees (TScalar v) (TScalar v)
| ag_matrix v r i : agrees (TMatrix v r i) (TMatrix v r [])
| ag_frame cs i : agrees (TFrame cs i) (TFrame [vt_unknown] [])
| ag_column v i : agrees (TColumn v i) (TColumn v [])
| ag_list t k : agrees t k -> agrees (TList t) (TList k)
| ag_mem1 v a : agrees (TMemRef v [a]) (TMemRef v [dyn])
| ag_mem2 v a b : agrees (TMemRef v [a; b]) (TMemRef v [dyn; dyn])
| ag_structure : agrees TStructure TStructure
| ag_context : agrees TContext TContext.
(** For operations on any structure: any matrix, frame, column or list. *)
Definition is_structure (t : ty) : Prop := match t with TMatrix _ _ _ | TFrame _ _ | TColumn _ _ | TList _ => True | _ => False end.
Definition agrees_gen (gen : bool) (t k : ty) : Prop :=
  if gen then (is_structure t /\ k = TStructure) \/ (~ is_structure t /\ agrees t k) else agrees t k.
(** Memory references of rank 1 or 2 only. *)
Fixpoint rank_ok (t : ty) : Prop := match t with TMemRef _ s => length s = 1 \/ length s = 2 | TList t => rank_ok t | _ => True end.

(** These operations take any structure. *)
Definition any_structure : list opk := [OCreateFrame; ONumCells; ONumCols; ONumRows; OIncRef; ODecRef].
Definition takes_any (o : opk) : bool := bool_decide (o ∈ any_structure).
(** The backend an operation was marked for. *)
Definition for_backend (o : oper) (b : name) : Prop :=
  (o_cuda o = true /\ b = CUDA) \/ (o_cuda o = false /\ o_fpga o = true /\ b = FPGA) \/ (o_cuda o = false /\ o_fpga o = false /\ b = CPP).
(** The operands of an operation with variadic operands fit the parameters of a
    kernel: the parameter of a variadic operand agrees with the types of all of its
    occurrences, and is followed by the number of occurrences. *)
Inductive fits (o : opk) : nat -> list nat -> list bool -> list ty -> list ty -> Prop :=
| fits_nil i : fits o i [] [] [] []
| fits_one i gs vs t ts k ks : agrees_gen (takes_any o) t k -> fits o (S i) gs vs ts ks -> fits o i (1 :: gs) (false :: vs) (t :: ts) (k :: ks)
| fits_many i n gs vs ts1 ts k ks : length ts1 = S n -> Forall (fun t => agrees_gen (takes_any o) t k) ts1 -> fits o (S i) gs vs ts ks ->
    fits o i (S n :: gs) (true :: vs) (ts1 ++ ts) (k :: TScalar vt_index :: ks)
| fits_none i t gs vs ts k ks : empty_group_type o i = Some t -> agrees_gen (takes_any o) t k -> fits o (S i) gs vs ts ks ->
    fits o i (0 :: gs) (true :: vs) ts (k :: TScalar vt_index :: ks).
Definition fits_args (o : oper) (params : list ty) : Prop :=
  match variadic (o_name o) with
  | None => Forall2 (agrees_gen (takes_any (o_name o))) (map snd (o_args o)) params
  | Some vs => fits (o_name o) 0 (o_groups o) vs (map snd (o_args o)) params
  end.
(** A kernel that can be used for an operation. *)
Definition applicable (c : catalog) (o : oper) (k : kernel) : Prop :=
  (o_name o, k) ∈ c /\ for_backend o (k_backend k) /\ fits_args o (k_args k) /\ Forall2 agrees (o_res o) (k_res k).

(** The groups of operands are as declared, and the occurrences of a variadic
    operand have the same type up to what is ignored. *)
Definition same_class (gen : bool) (t u : ty) : Prop := forall k, agrees_gen gen t k <-> agrees_gen gen u k.
Inductive grouped (o : opk) : list nat -> list bool -> list ty -> Prop :=
| gr_nil : grouped o [] [] []
| gr_one gs vs t ts : grouped o gs vs ts -> grouped o (1 :: gs) (false :: vs) (t :: ts)
| gr_many gs vs ts1 ts : grouped o gs vs ts -> (forall t u, t ∈ ts1 -> u ∈ ts1 -> same_class (takes_any o) t u) ->
    grouped o (length ts1 :: gs) (true :: vs) (ts1 ++ ts).
Definition well_grouped (o : oper) : Prop :=
  match variadic (o_name o) with None => True | Some vs => grouped (o_name o) (o_groups o) vs (map snd (o_args o)) end.
(** The operands that a list of arguments passes on, in order. *)
Fixpoint passed (ks : list karg) : list nat :=
  match ks with [] => [] | KVal v :: ks => v :: passed ks | KPack _ vs :: ks => vs ++ passed ks | _ :: ks => passed ks end.
(** Each pack is followed by its size. *)
Fixpoint sized (ks : list karg) : Prop :=
  match ks with
  | [] => True
  | k :: ks =>
      match k, ks with
      | KPack _ vs, KSize n :: _ => n = length vs
      | KEnums l, KSize n :: _ => n = length l
      | KPack _ _, _ | KEnums _, _ => False
      | _, _ => True
      end /\ sized ks
  end.
(** The libraries that have a function of that name. *)
Definition may_call (provides : name -> name -> Prop) (libs : list name) (f lib : name) : Prop := lib ∈ libs /\ provides lib f.
