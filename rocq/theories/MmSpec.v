(** What a Matrix Market file means. *)
From stdpp Require Import base numbers list.
From Coq Require Import ZArith.
From Verif Require Import CppBase CSRModel MmModel.

(** The positions of the values of an array file, in the order of the file: column by column; of a symmetric matrix only the lower triangle, of a skew-symmetric one only what is below the diagonal. *)
Definition column (s : mmsym) (n c : nat) : list (nat * nat) :=
  (fun r => (r, c)) <$> match s with Symmetric => seq c (n - c) | Skew => seq (c + 1) (n - (c + 1)) | _ => seq 0 n end.
Definition positions (s : mmsym) (n m : nat) : list (nat * nat) := concat (column s n <$> seq 0 m).

Section Spec.
  Context {V : Type} `{Val V} (one : V) (neg : V -> V).
  Implicit Types f : mmfile (V := V).
  (** The value of a line: in a file with the pattern only, it is one. *)
  Definition value_of f (l : line) : V := if f_pattern f then one else l_val l.
  (** The file lists the value [v] for the cell (i, j), counted from zero. *)
  Definition listed f (i j : nat) (v : V) : Prop :=
    match f_fmt f with
    | Coordinate => exists l, l ∈ f_lines f /\ l_row l = (Z.of_nat i + 1)%Z /\ l_col l = (Z.of_nat j + 1)%Z /\ v = value_of f l
    | Array => exists k l, positions (f_sym f) (f_rows f) (f_cols f) !! k = Some (i, j) /\ f_lines f !! k = Some l /\ v = value_of f l
    end.
  (** The value of a cell that follows from what is listed. *)
  Definition given f (i j : nat) (v : V) : Prop :=
    listed f i j v \/ (f_sym f = Symmetric /\ listed f j i v) \/ (f_sym f = Skew /\ exists w, listed f j i w /\ v = neg w).
  (** The cell (i, j) of the matrix is [v]: it follows from what is listed, or nothing does and it is zero. *)
  Definition denotes f (i j : nat) (v : V) : Prop := given f i j v \/ ((forall w, ~ given f i j w) /\ v = vzero).

  (** Files as the format asks for. *)
  Definition well_formed f : Prop :=
    (Z.of_nat (f_rows f) * Z.of_nat (f_cols f) < 2 ^ 64)%Z /\ (0 < f_rows f)%nat /\ (0 < f_cols f)%nat /\
    f_sym f <> Hermitian /\ (f_sym f <> General -> f_rows f = f_cols f) /\
    match f_fmt f with
    | Coordinate =>
        f_nnz f = length (f_lines f) /\
        NoDup ((fun l => (l_row l, l_col l)) <$> f_lines f) /\
        Forall (fun l => (1 <= l_row l <= Z.of_nat (f_rows f) /\ 1 <= l_col l <= Z.of_nat (f_cols f) /\ l_row l < 2 ^ 31 /\ l_col l < 2 ^ 31)%Z) (f_lines f) /\
        (f_sym f = Symmetric -> Forall (fun l => (l_col l <= l_row l)%Z) (f_lines f)) /\
        (f_sym f = Skew -> Forall (fun l => (l_col l < l_row l)%Z) (f_lines f))
    | Array => length (f_lines f) = length (positions (f_sym f) (f_rows f) (f_cols f))
    end.
End Spec.
