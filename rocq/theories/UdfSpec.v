(** * What programs with functions compute, and what a compiled program must satisfy (for C76) *)
From stdpp Require Import base numbers list gmap.
From Verif Require Import CppBase UdfModel.

Section spec.
  Context {val op : Type}.
  (** The truth of a condition; what operations compute; the elements of a matrix, and the matrix with other elements. *)
  Context (truth : val → option bool) (opsem : op → list val → option val).
  Context (elems : val → option (list val)) (rebuild : val → list val → option val).

  (** ** The value of an expression: [call f vs] is the value of the function f for the arguments vs. *)
  Fixpoint ev (call : name → list val → option val) (args : list val) (S : list site) (e : exp val op) : option val :=
    match e with
    | Var i => args !! i
    | Cst c => Some c
    | Op o es => vs ← mapM (ev call args S) es; opsem o vs
    | Call k es => vs ← mapM (ev call args S) es; gt ← S !! k; call gt.1 vs
    | MapE k e => v ← ev call args S e; xs ← elems v; gt ← S !! k; ys ← mapM (fun x => call gt.1 [x]) xs; rebuild v ys
    | If c t e => v ← ev call args S c; b ← truth v; if (b : bool) then ev call args S t else ev call args S e
    end.
  (** The value of a function, with at most [d] nested calls. *)
  Fixpoint app (M : gmap name (func val op)) (d : nat) (f : name) (args : list val) : option val :=
    match d with
    | 0 => None
    | S d' => F ← M !! f; ev (app M d') args (sites F) (body F)
    end.
  (** The function [f] of the program [M] returns [v] for the arguments. *)
  Definition returns (M : gmap name (func val op)) (f : name) (args : list val) (v : val) : Prop := ∃ d, app M d f args = Some v.

  (** ** A compiled program *)
  (** Every call and every map in it is of a function that is in it. *)
  Definition closed (M : gmap name (func val op)) : Prop :=
    ∀ n F k g t, M !! n = Some F → k ∈ (calls_of (body F)).*1 \/ k ∈ (maps_of (body F)).*1 → sites F !! k = Some (g, t) → is_Some (M !! g).

  Context (vty : val → ty) (opty : op → list ty → ty).
  (** Every call passes arguments of the types of the parameters and takes a result of the type that the function returns; every map
      passes the element type of its matrix. *)
  Definition calls_agree (M : gmap name (func val op)) : Prop :=
    ∀ n F k es g t, M !! n = Some F → (k, es) ∈ calls_of (body F) → sites F !! k = Some (g, t) →
    ∃ G, M !! g = Some G /\ params G = typ vty opty (params F) (sites F) <$> es /\ res G = t.
  (** The same without the results. *)
  Definition arguments_agree (M : gmap name (func val op)) : Prop :=
    ∀ n F k es g t, M !! n = Some F → (k, es) ∈ calls_of (body F) → sites F !! k = Some (g, t) →
    ∃ G, M !! g = Some G /\ params G = typ vty opty (params F) (sites F) <$> es.
  (** Every map is over a matrix, with a function of one parameter that has the type of its elements. *)
  Definition maps_agree (M : gmap name (func val op)) : Prop :=
    ∀ n F k e g t, M !! n = Some F → (k, e) ∈ maps_of (body F) → sites F !! k = Some (g, t) →
    ∃ G v p, M !! g = Some G /\ typ vty opty (params F) (sites F) e = Mat v p /\ params G = [match v with Some w => Sca w | None => Unk end].
  (** The result of a map is a matrix of what the function returns, with the shape of its operand. *)
  Definition map_results_agree (M : gmap name (func val op)) : Prop :=
    ∀ n F k e g t, M !! n = Some F → (k, e) ∈ maps_of (body F) → sites F !! k = Some (g, t) →
    ∃ G v p, M !! g = Some G /\ typ vty opty (params F) (sites F) e = Mat v p /\ t = Mat (match res G with Sca w => Some w | _ => None end) p.

  (** ** Programs *)
  (** What the parser makes: the symbols are those of definitions; every call site is used once, has its entry in the table and calls a
      defined function, not main, with as many arguments as it has parameters (a map: one); main has no parameters. *)
  Definition well_formed (M : gmap name (func val op)) : Prop :=
    (∃ F, M !! main = Some F /\ params F = []) /\
    ∀ n F, M !! n = Some F →
      n.2 = [] /\ NoDup ((calls_of (body F)).*1 ++ (maps_of (body F)).*1) /\
      (∀ k es, (k, es) ∈ calls_of (body F) → ∃ g t G, sites F !! k = Some (g, t) /\ M !! g = Some G /\ g ≠ main /\ length (params G) = length es) /\
      (∀ k e, (k, e) ∈ maps_of (body F) → ∃ g t G, sites F !! k = Some (g, t) /\ M !! g = Some G /\ g ≠ main /\ length (params G) = 1).
  (** Every function other than main has a parameter of unknown type or a matrix parameter (whose shape is unknown). *)
  Definition all_templates (M : gmap name (func val op)) : Prop := ∀ n F, M !! n = Some F → n ≠ main → is_template F = true.
  (** What a function returns is not the result of a call, nor an operation on such a result. *)
  Fixpoint own_result (e : exp val op) : bool :=
    match e with
    | Var _ | Cst _ => true
    | Op _ es => forallb own_result es
    | Call _ _ | MapE _ _ => false
    | If _ t e => own_result t && own_result e
    end.
  Definition own_results (M : gmap name (func val op)) : Prop := ∀ n F, M !! n = Some F → n ≠ main → own_result (body F) = true.
  (** No argument of a call contains a map. *)
  Definition no_map_passed (M : gmap name (func val op)) : Prop :=
    ∀ n F k es e, M !! n = Some F → (k, es) ∈ calls_of (body F) → e ∈ es → maps_of e = [].
  (** No recursion: functions call functions of lower rank. *)
  Definition nonrecursive (M : gmap name (func val op)) (rank : nat → nat) : Prop :=
    ∀ n F k g t, M !! n = Some F → k ∈ (calls_of (body F)).*1 \/ k ∈ (maps_of (body F)).*1 → sites F !! k = Some (g, t) → rank g.1 < rank n.1.
  (** The order in which the functions are visited: all of them, in any order. *)
  Definition visits_all (order : list name) (M : gmap name (func val op)) : Prop := ∀ n, n ∈ order ↔ is_Some (M !! n).
End spec.

(** ** Resolving a call *)
(** An argument of type [a] may be one for a parameter of type [p]: the types are the same, or one of them is not known. *)
Inductive may_be : ty → ty → Prop :=
  | may_same t : may_be t t
  | may_unknown_arg p : may_be Unk p
  | may_unknown_par a : may_be a Unk
  | may_unknown_elem_arg p w q : may_be (Mat None p) (Mat w q)
  | may_unknown_elem_par v p q : may_be (Mat v p) (Mat None q).
Definition known (t : ty) : Prop := match t with Unk => False | Mat None _ => False | _ => True end.
