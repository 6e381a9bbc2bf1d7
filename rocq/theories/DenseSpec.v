(** What dense matrices and their views mean, independently of the class. *)
From stdpp Require Import base sorting list numbers.
From Verif Require Import CppBase.

(** A rectangular window of an [n] x [m] matrix stored row by row: its upper left corner and its size. *)
Record window := mkW { w_row : nat; w_col : nat; w_rows : nat; w_cols : nat }.
Definition whole (n m : nat) : window := mkW 0 0 n m.

(** Selecting rows [rl, ru) and columns [cl, cu) of a window: the bounds must lie in the window, and the lower bounds must
    be existing positions (or 0). *)
Definition valid_bounds (lo hi : Z) (n : nat) : Prop := (0 <= lo <= hi /\ hi <= Z.of_nat n /\ (lo < Z.of_nat n \/ lo = 0))%Z.
Definition sub_window (w : window) (rl ru cl cu : Z) : window :=
  mkW (w_row w + Z.to_nat rl) (w_col w + Z.to_nat cl) (Z.to_nat (ru - rl)) (Z.to_nat (cu - cl)).

(** A chain of selections. *)
Fixpoint windows (w : window) (chain : list (Z * Z * Z * Z)) : option window :=
  match chain with
  | [] => Some w
  | (rl, ru, cl, cu) :: chain' =>
      if decide (valid_bounds rl ru (w_rows w) /\ valid_bounds cl cu (w_cols w))
      then windows (sub_window w rl ru cl cu) chain' else None
  end.

(** The matrix stored in a buffer, row by row. *)
Definition stored_at {V} (b : list V) (m r c : nat) : option V := b !! (r * m + c).

(** Append histories. *)
Section hist.
Context {V : Type} (z : V).
Definition dense_row_major (hist : list (nat * nat * V)) : Prop :=
  StronglySorted (fun e1 e2 => match e1, e2 with (r1, c1, _), (r2, c2, _) => r1 < r2 \/ (r1 = r2 /\ c1 < c2) end) hist.
(** The value of cell (r, c) asked for by the history: the value appended there, or zero. *)
Fixpoint wanted (hist : list (nat * nat * V)) (r c : nat) : V :=
  match hist with
  | [] => z
  | (r', c', v) :: hist' => if decide (r' = r /\ c' = c) then v else wanted hist' r c
  end.
(** Every row that receives values receives one for its first column first. *)
Fixpoint rows_start_at_0 (last : nat) (hist : list (nat * nat * V)) : Prop :=
  match hist with
  | [] => True
  | (r, c, _) :: hist' => (r = last \/ c = 0) /\ rows_start_at_0 r hist'
  end.
Fixpoint last_row (last : nat) (hist : list (nat * nat * V)) : nat :=
  match hist with [] => last | (r, _, _) :: hist' => last_row r hist' end.
End hist.
