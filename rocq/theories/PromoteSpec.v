(** What mixed value types should mean, independently of the inference. *)
From stdpp Require Import base numbers sorting list.
From Verif Require Import CppBase PromoteModel.
Open Scope Z_scope.

(** [x] (a multiple of 2^-1074) is a number of the value type [t]: an integer
    of the range of [t], or a number of 24 or 53 bits. *)
Definition range (t : vt) : option (Z * Z) :=
  match t with
  | B1 => Some (0, 1)
  | SI8 => Some (-128, 127) | UI8 => Some (0, 255)
  | SI32 => Some (-2147483648, 2147483647) | UI32 => Some (0, 4294967295)
  | SI64 => Some (-9223372036854775808, 9223372036854775807)
  | UI64 | IDX => Some (0, 18446744073709551615)
  | _ => None
  end.

Definition has_bits (p k0 x : Z) : Prop :=
  exists m k, Z.abs m < 2 ^ p /\ k0 <= k /\ x = m * 2 ^ k.

Definition holds (t : vt) (x : Z) : Prop :=
  match t with
  | F32 => has_bits 24 (1074 - 149) x
  | F64 => has_bits 53 0 x
  | _ => exists a b z, range t = Some (a, b) /\ x = z * 2 ^ 1074 /\ a <= z <= b
  end.

Definition numeric (t : vt) : Prop := t <> STR /\ t <> UNK.
Definition is_int (t : vt) : Prop := exists a b, range t = Some (a, b).
Definition is_float (t : vt) : Prop := t = F32 \/ t = F64.

(** The value types in the order in which the compiler prefers them. *)
Definition ranking : list vt := [B1; SI8; UI8; SI32; UI32; IDX; SI64; UI64; F32; F64; STR; UNK].
Definition below (s t : vt) : Prop :=
  exists i j, ranking !! i = Some s /\ ranking !! j = Some t /\ (i <= j)%nat.

(** [r] is the highest-ranking of [ts]. *)
Definition highest (ts : list vt) (r : vt) : Prop := r ∈ ts /\ forall t, t ∈ ts -> below t r.

(** The mathematical result [v] of an operation on [x] and [y]; an integer
    division drops the fraction; logical operations and comparisons give 1 or
    0. *)
Definition yes_no (P : Prop) (v : Z) : Prop := (P /\ v = 2 ^ 1074) \/ (~ P /\ v = 0).

Definition ideal (o : op) (r : vt) (x y v : Z) : Prop :=
  match o with
  | Add => v = x + y
  | Sub => v = x - y
  | Mul => v * 2 ^ 1074 = x * y
  | Div => y <> 0 /\ ((is_int r /\ v = Z.quot x y * 2 ^ 1074) \/ (is_float r /\ v * y = x * 2 ^ 1074))
  | Mod => y <> 0 /\ v = Z.rem x y
  | Min => v = Z.min x y
  | Max => v = Z.max x y
  | Eq => yes_no (x = y) v
  | Neq => yes_no (x <> y) v
  | Lt => yes_no (x < y) v
  | Le => yes_no (x <= y) v
  | Gt => yes_no (x > y) v
  | Ge => yes_no (x >= y) v
  | And => yes_no (x <> 0 /\ y <> 0) v
  | Or => yes_no (x <> 0 \/ y <> 0) v
  end.

(** The type an operation is computed in: the highest-ranking one, or ui64 for
    a logical operation with an argument that is a size or has a fraction. *)
Definition computed_in (o : op) (s t r : vt) : Prop :=
  match o with
  | And | Or => exists g, highest [s; t] g /\ ((is_int g /\ g <> IDX /\ r = g) \/ ((is_float g \/ g = IDX) /\ r = UI64))
  | _ => highest [s; t] r
  end.

(** [e] has the value type [r] and the mathematical value [v], and nothing is
    lost on the way: both arguments of every operation are numbers of the type
    it is computed in, and so is its result.  [%] on integers needs arguments
    of 53 bits as well. *)
Inductive exact : expr -> vt -> Z -> Prop :=
| exact_leaf t x : numeric t -> holds t x -> exact (Leaf t x) t x
| exact_node o e1 e2 s t r x y v :
    exact e1 s x -> exact e2 t y -> computed_in o s t r ->
    holds r x -> holds r y -> ideal o r x y v -> holds r v ->
    (o = Mod -> is_int r -> holds F64 x /\ holds F64 y) ->
    exact (Node o e1 e2) r v.

(** The value types of the leaves. *)
Fixpoint leaf_types (e : expr) : list vt :=
  match e with Leaf t _ => [t] | Node _ e1 e2 => leaf_types e1 ++ leaf_types e2 end.

(** Only arithmetic, minimum and maximum. *)
Definition arith (o : op) : Prop := o ∈ [Add; Sub; Mul; Div; Mod; Min; Max].
Fixpoint arithmetic (e : expr) : Prop :=
  match e with Leaf _ _ => True | Node o e1 e2 => arith o /\ arithmetic e1 /\ arithmetic e2 end.

(** Casting every number of [s] to [t] keeps it. *)
Definition keeps (s t : vt) : Prop := forall x, holds s x -> cast_arg s t x = Ok x.
