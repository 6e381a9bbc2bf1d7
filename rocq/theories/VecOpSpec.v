(** What it takes for an operation to be computed chunk by chunk. *)
From stdpp Require Import base numbers list list_numbers.
From Verif Require Import PipeSigModel VecOpModel.

(** The chunks are not empty and contain each of the [n] rows exactly once, in any order. *)
Definition covers (n : nat) (cs : list (nat * nat)) : Prop := Forall (fun c => fst c < snd c) cs /\ (cs ≫= fun c => seq (fst c) (snd c - fst c)) ≡ₚ seq 0 n.
(** The operations the aggregations use are associative and commutative, with the neutral elements. Holds for integers that wrap around; not for floating-point sums. *)
Definition monoid {T} (op : T -> T -> T) (e : T) : Prop := (forall a b c, op a (op b c) = op (op a b) c) /\ (forall a b, op a b = op b a) /\ (forall a, op e a = a).
Definition exact {T} (E : elems T) : Prop := monoid (e_add E) (e_zero E) /\ monoid (e_min E) (e_top E) /\ monoid (e_max E) (e_bot E).
(** Every row has the length it should have. *)
Definition rect {T} (m : mat T) : Prop := Forall (fun r => length r = ncol m) (rows m).
Definition shaped {T} (v : val T) : Prop := match v with Mat m => rect m | _ => True end.
(** [v] is a matrix with [n] rows. *)
Definition tall {T} (n : nat) (v : val T) : Prop := match v with Mat m => nrow m = n | _ => False end.
(** The heights of the operands suit a pipeline that processes [n] rows: all operands that are split have [n] rows, but the right operand of an elementwise operation
    may be a row vector. *)
Definition suits {T} (n : nat) (o : vop T) (vs : list (val T)) : Prop :=
  match o, vs with
  | EwBin _, [x; y] => tall n x /\ (is_mat y = true -> tall n y \/ tall 1 y)
  | (ColBind | Gemv), [x; y] => tall n x /\ tall n y
  | _, x :: _ => tall n x
  | _, _ => True
  end.
(** The operations whose declarations are right: not the product with a transposed left operand, not X @ t(X). *)
Definition right_op {T} (o : vop T) : Prop := match o with MatMul true _ | Syrk false => False | _ => True end.
