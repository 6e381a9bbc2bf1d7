(** What it means that a matrix consists of given rows, and that a list of matrices are the parts of one matrix. *)
From stdpp Require Import base numbers list.
From Verif Require Import CppBase Mem SerModel SerSpec.

(** The matrix [a], whose rows may be apart in memory, has the rows [rows]. *)
Definition has_rows {V} (a : dmat V) (rows : list (list V)) : Prop :=
  m_rows a = length rows /\
  forall r row, rows !! r = Some row -> length row = m_cols a /\ take (m_cols a) (drop (m_off a + r * m_skip a) (m_buf a)) = row.
(** The object [o] with [m] columns holds the rows [rows] in row-major order. *)
Definition obj_has_rows {V} `{Rep V} (o : dobj) (m : nat) (rows : list (list V)) : Prop :=
  do_rows o = length rows /\ do_cols o = m /\ dec <$> words vsize (length rows * m) (do_mem o) = concat rows.
(** The rows [startRow], ..., [startRow + num - 1]. *)
Definition row_range {V} (startRow num : nat) (rows : list (list V)) : list (list V) := take num (drop startRow rows).
(** The matrices [parts], all with [m] columns and without gaps between their rows, have the rows [rowss]. *)
Definition parts_have_rows {V} (m : nat) (parts : list (dmat V)) (rowss : list (list (list V))) : Prop :=
  Forall2 (fun a rows => has_rows a rows /\ m_cols a = m /\ contiguous a) parts rowss.
(** [startRow] is the first row of a segment (or the end of the data). *)
Definition at_boundary {A} (startRow : nat) (segs : list (list A)) : Prop := exists k, startRow = length (concat (take k segs)).
(** The [num] rows from [startRow] on are all in one segment. *)
Definition in_one_segment {A} (startRow num : nat) (segs : list (list A)) : Prop :=
  exists k seg, segs !! k = Some seg /\ length (concat (take k segs)) <= startRow /\ startRow + num <= length (concat (take k segs)) + length seg.

(** * CSV *)
From Verif Require Import CsvModel.
(** The text of a row: the cells, separated by commas. *)
Fixpoint csv_line {V} (pr : V -> list byte) (row : list V) : list byte :=
  match row with [] => [] | v :: row' => pr v ++ match row' with [] => [] | _ => COMMA :: csv_line pr row' end end.
(** The text of rows: one line each. *)
Definition csv_text {V} (pr : V -> list byte) (rows : list (list V)) : list byte := concat ((fun row => csv_line pr row ++ [LF]) <$> rows).
(** The text [pr v] of a value has no comma and no line feed, and [conv] finds the value at the beginning of a text that goes on with a comma or not at all. *)
Definition csv_repr {V} (conv : list byte -> outcome V) (pr : V -> list byte) (valid : V -> Prop) : Prop :=
  forall v, valid v -> COMMA ∉ pr v /\ LF ∉ pr v /\ conv (pr v) = Ok v /\ forall rest, conv (pr v ++ COMMA :: rest) = Ok v.
