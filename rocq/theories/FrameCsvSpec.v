(** Which frames should survive being written and read. *)
From stdpp Require Import base numbers list.
From Coq Require Import ZArith.
From Verif Require Import CppBase CsvModel Csv PromoteModel PromoteSpec FrameCsvModel.
Open Scope Z_scope.

(** The values of an integer column. *)
Definition int_range (t : ctype) : Z * Z :=
  match t with
  | CI8 => (-128, 127) | CU8 => (0, 255) | CI32 => (-2147483648, 2147483647) | CU32 => (0, 4294967295)
  | CI64 => (-9223372036854775808, 9223372036854775807) | _ => (0, 18446744073709551615)
  end.
Definition is_int_type (t : ctype) : Prop := t ∈ [CI8; CI32; CI64; CU8; CU32; CU64].
Definition is_flt_type (t : ctype) : Prop := t = CF32 \/ t = CF64.
Definition significand (t : ctype) : Z := match t with CF32 => 24 | _ => 53 end.

(** [x] is a floating-point number of the type [t] (see PromoteSpec). *)
Definition is_flt (t : ctype) (x : Z) : Prop := holds (match t with CF32 => F32 | _ => F64 end) x.

(** [x] is the floating-point number of type [t] that stands for the decimal
    number n/1000000: no other one is as near. *)
Definition stands_for (t : ctype) (x n : Z) : Prop :=
  is_flt t x /\ forall y, is_flt t y -> y <> x -> Z.abs (x * 10 ^ 6 - n * 2 ^ 1074) < Z.abs (y * 10 ^ 6 - n * 2 ^ 1074).

(** The cells that survive: integers of the column's type that fit an int,
    floating-point numbers that stand for a decimal number of six places and less
    than 2^23 (2^52) millionths, multiples of 1/64, and strings without the characters that CSV loses. *)
Definition safe_cell (t : ctype) (v : cell) : Prop :=
  match v with
  | CInt z => is_int_type t /\ fst (int_range t) <= z <= snd (int_range t) /\ - 2 ^ 31 <= z < 2 ^ 31
  | CFlt x => is_flt_type t /\ ((exists n, Z.abs n < 2 ^ (significand t - 1) /\ stands_for t x n) \/ (is_flt t x /\ exists m, 64 * x = m * 2 ^ 1074))
  | CStr s => t = CSTR /\ csv_safe s
  end.
Definition safe_rows (ts : list ctype) (rows : list (list cell)) : Prop :=
  Forall (Forall2 safe_cell ts) rows.

(** The cells of a column of type [t]. *)
Definition typed (t : ctype) (v : cell) : Prop :=
  match v with
  | CInt z => is_int_type t /\ fst (int_range t) <= z <= snd (int_range t)
  | CFlt x => is_flt_type t /\ is_flt t x
  | CStr s => t = CSTR \/ t = CFIX16
  end.

(** What comes back for a cell: integers (that fit an int) and strings
    unchanged, a floating-point number as a nearest one to its rounding to six
    decimal places. *)
Definition comes_back (t : ctype) (v w : cell) : Prop :=
  match v, w with
  | CFlt x, CFlt y => exists n, 2 * Z.abs (x * 10 ^ 6 - n * 2 ^ 1074) <= 2 ^ 1074 /\ is_flt t y /\
                        forall u, is_flt t u -> Z.abs (y * 10 ^ 6 - n * 2 ^ 1074) <= Z.abs (u * 10 ^ 6 - n * 2 ^ 1074)
  | _, _ => w = v
  end.
(** As [safe_cell], with any floating-point number. *)
Definition printable (t : ctype) (v : cell) : Prop :=
  match v with CFlt _ => is_flt_type t | _ => safe_cell t v end.
Inductive row_comes_back : list ctype -> list cell -> list cell -> Prop :=
| row_nil : row_comes_back [] [] []
| row_cons t ts v vs w ws : comes_back t v w -> row_comes_back ts vs ws -> row_comes_back (t :: ts) (v :: vs) (w :: ws).
