(** Model of writing a frame to a CSV file with its meta data file, and of
    reading it back.  A frame is its schema, its labels and its rows (the
    columns are stored one by one; the order does not matter here). *)
From stdpp Require Import base numbers list.
From Coq Require Import ZArith.
From Verif Require Import CppBase CsvModel PromoteModel.
Open Scope Z_scope.

(** src/runtime/local/datastructures/ValueTypeCode.h: the types of columns. *)
Inductive ctype := CI8 | CI32 | CI64 | CU8 | CU32 | CU64 | CF32 | CF64 | CSTR | CFIX16.
Global Instance ctype_eq_dec : EqDecision ctype.
Proof. solve_decision. Defined.

(** A cell: an integer, a finite floating-point number (a multiple of 2^-1074,
    see PromoteModel) or a string. *)
Inductive cell := CInt (z : Z) | CFlt (x : Z) | CStr (s : list byte).

Record frame := mkFrame { f_types : list ctype; f_labels : list (list byte); f_rows : list (list cell) }.

(** * Writing *)

(** [k] decimal digits of [r], padded with zeros. *)
Fixpoint pad (k : nat) (r : Z) : list byte :=
  match k with O => [] | S k => pad k (r / 10) ++ [(48 + Z.to_nat (r mod 10))%nat] end.

(** printf's %f: six digits after the point, rounded to nearest, ties to
    even (glibc). *)
Definition print_f (x : Z) : list byte :=
  let n := rne (Z.abs x * 10 ^ 6) one in
  (if decide (x < 0) then [45%nat] else []) ++ print_dec (n / 10 ^ 6) ++ [46%nat] ++ pad 6 (n mod 10 ^ 6).

(** src/runtime/local/io/WriteCsv.h, lines 137-173: one cell.  Columns of
    fixed-size strings are not supported. *)
Definition print_cell (t : ctype) (v : cell) : outcome (list byte) :=
  match t, v with
  | (CI8 | CI32 | CI64 | CU8 | CU32 | CU64), CInt z => Ok (print_dec z)
  | (CF32 | CF64), CFlt x => Ok (print_f x)
  | CSTR, CStr s => Ok (print_str s)
  | CFIX16, _ => Throw
  | _, _ => UB
  end.

(** src/runtime/local/io/WriteCsv.h, lines 133-181: one row; a comma after every
    cell but the last, a line feed after the last. *)
Fixpoint write_row (ts : list ctype) (vs : list cell) : outcome (list byte) :=
  match ts, vs with
  | [], _ => Ok []
  | t :: ts', v :: vs' =>
      let* b := print_cell t v in
      let* rest := write_row ts' vs' in
      Ok (b ++ (match ts' with [] => [10%nat] | _ => [44%nat] end) ++ rest)
  | _ :: _, [] => UB
  end.
Fixpoint write_rows (ts : list ctype) (rows : list (list cell)) : outcome (list byte) :=
  match rows with
  | [] => Ok []
  | r :: rows => let* b := write_row ts r in let* rest := write_rows ts rows in Ok (b ++ rest)
  end.

(** The meta data file, as the JSON value it contains. *)
Record meta := mkMeta { mt_rows : nat; mt_cols : nat; mt_schema : list (list byte * ctype) }.

Section with_utf8.
(** Whether a label is valid UTF-8. *)
Context (utf8 : list byte -> bool).

(** src/parser/metadata/MetaDataParser.cpp, lines 92-126, and
    src/runtime/local/kernels/Write.h, lines 102-109: the JSON library throws on
    strings that are not UTF-8. *)
Definition write_meta (f : frame) : outcome meta :=
  if forallb utf8 (f_labels f)
  then Ok (mkMeta (length (f_rows f)) (length (f_types f)) (zip (f_labels f) (f_types f)))
  else Throw.

(** src/runtime/local/kernels/Write.h, lines 96-115: the meta data first, then
    the rows. *)
Definition write_frame (f : frame) : outcome (meta * list byte) :=
  let* m := write_meta f in
  let* b := write_rows (f_types f) (f_rows f) in
  Ok (m, b).
End with_utf8.

(** * Reading *)

(** strtod and strtof on a sign, digits, and a point with digits, in the type
    with [p] bits whose last bit is at least 2^k.  Exponents, hexadecimal
    numbers, infinities and NaN (also for text without a number) are not modelled.  [dlen]: the number of digits
    at the front. *)
Fixpoint dlen (bs : list byte) : nat :=
  match bs with c :: bs' => if is_digit c then S (dlen bs') else O | [] => O end.
Definition strtod_abs (p k : Z) (bs : list byte) : Z :=
  let i := digits_val bs 0 in
  match drop (dlen bs) bs with
  | c :: frac => if Nat.eqb c 46 then rnd p k (digits_val frac i * one) (10 ^ Z.of_nat (dlen frac)) else rnd p k (i * one) 1
  | [] => rnd p k (i * one) 1
  end.
Definition strtod (p k : Z) (bs : list byte) : Z :=
  match skip_space bs with
  | c :: bs' => if Nat.eqb c 45 then - strtod_abs p k bs' else if Nat.eqb c 43 then strtod_abs p k bs' else strtod_abs p k (c :: bs')
  | [] => 0
  end.

(** The integer type, for the conversion from int. *)
Definition int_type (t : ctype) : vt :=
  match t with CI8 => SI8 | CI32 => SI32 | CI64 => SI64 | CU8 => UI8 | CU32 => UI32 | _ => UI64 end.
Definition flt_type (t : ctype) : vt := match t with CF32 => F32 | _ => F64 end.

(** src/runtime/local/io/ReadCsvFile.h, lines 323-379: one cell at the position
    [cur]; the position moves for strings only. *)
Definition read_cell (t : ctype) (ls : list line) (cur : line) : outcome (cell * option line * list line) :=
  match t with
  | CI8 | CI32 | CI64 | CU8 | CU32 | CU64 =>
      let* z := atoi cur in Ok (CInt (to_int (int_type t) z), Some cur, ls)
  | CF32 | CF64 => Ok (CFlt (strtod (prec (flt_type t)) (kmin (flt_type t)) cur), Some cur, ls)
  | CSTR => let* (s, p, ls) := set_cstring 44%nat ls cur in Ok (CStr s, p, ls)
  | CFIX16 => let* (s, p, ls) := set_cstring 44%nat ls cur in Ok (CStr s, p, ls)
  end.

(** src/runtime/local/io/ReadCsvFile.h, lines 321-394: one row.  An empty schema
    is excluded by the check of the number of columns. *)
Fixpoint read_row (ts : list ctype) (ls : list line) (cur : line) : outcome (list cell * list line) :=
  match ts with
  | [] => UB
  | t :: ts' =>
      let* (v, p, ls) := read_cell t ls cur in
      match ts' with
      | [] => Ok ([v], ls)
      | _ =>
          match p with
          | None => UB
          | Some p =>
              let* cur := skip_field 44%nat p in
              let* (vs, ls) := read_row ts' ls cur in
              Ok (v :: vs, ls)
          end
      end
  end.

(** src/runtime/local/io/ReadCsvFile.h, lines 313-398: [n] rows.  At the end of
    the file the loop ends without an error; [junk r] is the contents of the
    uninitialized row [r]. *)
Fixpoint read_rows (junk : nat -> list cell) (ts : list ctype) (n r : nat) (ls : list line) : outcome (list (list cell)) :=
  match n with
  | O => Ok []
  | S n' =>
      match ls with
      | [] => Ok (map junk (seq r n))
      | l :: ls =>
          let* (vs, ls) := read_row ts ls l in
          let* rows := read_rows junk ts n' (S r) ls in
          Ok (vs :: rows)
      end
  end.

(** src/runtime/local/kernels/Read.h, lines 141-171, MetaDataParser.cpp, lines
    33-90, and ReadCsvFile.h, lines 294-303: the labels and types come from the
    meta data. *)
Definition read_frame (junk : nat -> list cell) (m : meta) (file : list byte) : outcome frame :=
  let types := map snd (mt_schema m) in
  let labels := map fst (mt_schema m) in
  if decide (mt_rows m = 0%nat) then Throw
  else if decide (mt_cols m = 0%nat) then Throw
  else let* rows := read_rows junk types (mt_rows m) 0 (lines_of file) in
       Ok (mkFrame types labels rows).
