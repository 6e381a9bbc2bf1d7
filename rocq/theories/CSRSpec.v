(** What the arrays of a sparse matrix mean, independently of the operations of the class.
    A sparse matrix is a list of rows; a row is a list of (column, value) pairs with increasing columns; a cell that
    is not listed is zero. *)
From stdpp Require Import base list sorting.
From Verif Require Import CppBase CSRModel.

Notation row V := (list (nat * V)) (only parsing).

Section spec.
Context {V : Type} `{Val V}.

(** The value of column [c] of a row. *)
Fixpoint cell_in (c : nat) (l : row V) : V :=
  match l with
  | [] => vzero
  | (k, v) :: l' => if decide (k = c) then v else cell_in c l'
  end.
(** The value of cell (r, c) of a list of rows. *)
Definition cell (rows : list (row V)) (r c : nat) : V := match rows !! r with Some l => cell_in c l | None => vzero end.

(** Columns strictly increasing and in range. *)
Definition row_ok (ncols : nat) (l : row V) : Prop := StronglySorted lt (l.*1) /\ Forall (fun c => c < ncols) (l.*1).
(** No stored value is zero. *)
Definition no_zeros (rows : list (row V)) : Prop := Forall (Forall (fun e => viszero (snd e) = false)) rows.

(** Row offsets of consecutive rows starting at position [k]. *)
Fixpoint offsets (k : nat) (rows : list (row V)) : list nat :=
  k :: match rows with [] => [] | l :: rs => offsets (k + length l) rs end.

(** The arrays [b] store the rows [rows]: the row offsets are those of the rows, and the values and column indexes
    are those of the rows one after the other, followed by unused space. *)
Definition stores (b : csrbuf V) (rows : list (row V)) : Prop :=
  broff b = offsets 0 rows /\
  exists restc restv,
    bcols b = (concat rows).*1 ++ restc /\ bvals b = (concat rows).*2 ++ restv /\ length restc = length restv.

(** Number of stored entries. *)
Definition stored (rows : list (row V)) : nat := length (concat rows).

(** The object [h] on arrays that store [rows] covers the rows [h_off h .. h_off h + h_rows h). *)
Record covers (b : csrbuf V) (h : csrh) (rows : list (row V)) : Prop := mkCovers {
  cov_stores : stores b rows;
  cov_rows : Forall (row_ok (h_cols h)) rows;
  cov_in : h_rows h <= h_alloc h;
  cov_alloc : h_off h + h_alloc h = length rows;
  cov_max : h_max h = length (bvals b)
}.
End spec.

(** The append protocol: what a history of [append(r, c, v)] calls asks for. *)
Section append_spec.
Context {V : Type} `{Val V}.

(** The non-zero entries appended to row [r], in the order of the calls. *)
Definition entries_for (r : nat) (hist : list (nat * nat * V)) : row V :=
  omap (fun e => match e with (r', c, v) => if decide (r' = r /\ viszero v = false) then Some (c, v) else None end) hist.
(** The first [n] rows of the appended matrix. *)
Definition appended (hist : list (nat * nat * V)) (n : nat) : list (row V) := (fun r => entries_for r hist) <$> seq 0 n.
(** The calls are in row-major order: by row, and by strictly increasing column in the same row. *)
Definition row_major (hist : list (nat * nat * V)) : Prop :=
  StronglySorted (fun e1 e2 => match e1, e2 with (r1, c1, _), (r2, c2, _) => r1 < r2 \/ (r1 = r2 /\ c1 < c2) end) hist.
Definition in_range (nrows ncols : nat) (hist : list (nat * nat * V)) : Prop :=
  Forall (fun e => match e with (r, c, _) => r < nrows /\ c < ncols end) hist.
(** Number of non-zero values appended. *)
Definition nonzeros (hist : list (nat * nat * V)) : nat := length (filter (fun e => viszero (snd e) = false) hist).
End append_spec.

(** Matrices as functions, and the effect of a sequence of writes on them (a written zero is the zero). *)
Section fun_spec.
Context {V : Type} `{Val V}.
Definition norm (v : V) : V := if viszero v then vzero else v.
Definition upd (f : nat -> nat -> V) (r c : nat) (v : V) : nat -> nat -> V :=
  fun r' c' => if decide (r' = r /\ c' = c) then v else f r' c'.
Fixpoint after_writes (f : nat -> nat -> V) (ops : list (nat * nat * V)) : nat -> nat -> V :=
  match ops with
  | [] => f
  | (r, c, v) :: ops' => after_writes (upd f r c (norm v)) ops'
  end.
End fun_spec.
