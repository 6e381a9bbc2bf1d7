(** Model of the symmetry check (src/runtime/local/kernels/IsSymmetric.h). A [return] inside a loop sets a flag that turns the remaining
    iterations into no-ops. *)
From stdpp Require Import base numbers list.
From Verif Require Import CppBase Mem CSRModel.

Section sym.
Context {V : Type} `{Val V}.
(** the comparison == of the value type *)
Context (eqb : V -> V -> bool).

(** IsSymmetric.h 46-65: dense matrices; also 121-136, the variant for any matrix that only uses get. [get] throws or is undefined for
    positions outside the matrix. *)
Definition sym_get (n m : nat) (get : nat -> nat -> outcome V) : outcome bool :=
  if decide (n <> m) then Throw else
  for_up 0 n (fun r ok => for_up (r + 1) m (fun c (ok : bool) =>
    if ok then let* v1 := get r c in let* v2 := get c r in Ok (eqb v1 v2) else Ok false) ok) true.
Definition sym_dense (a : dmat V) : outcome bool := sym_get (m_rows a) (m_cols a) (dm_at a).

(** positions[i]: the wrapped value -1 is None. Incrementing it gives 0; no other value wraps, since a position is less than the number of
    entries of a row before it is incremented (IsSymmetric.h 98-101). *)
Definition incpos (p : option nat) : option nat := match p with None => Some 0 | Some k => Some (k + 1) end.

(** IsSymmetric.h 86-109: one entry of the row [r], which starts at [a]. *)
Definition sym_entry (b : csrbuf V) (h : csrh) (r a idx : nat) (pos : list (option nat)) : outcome (list (option nat) * bool) :=
  let* cA := rd (bcols b) (a + idx) in
  if decide (cA <= r) then Ok (pos, true) else
  let* pos := wr pos r (Some idx) in
  let* vA := rd (bvals b) (a + idx) in
  let* nnzB := csr_row_nnz b h cA in
  let* aB := roff b h cA in
  let* p := rd pos cA in
  let* pos := wr pos cA (incpos p) in
  let posB := default 0 (incpos p) in
  if decide (nnzB <= posB) then Ok (pos, false) else
  let* cB := rd (bcols b) (aB + posB) in
  let* vB := rd (bvals b) (aB + posB) in
  Ok (pos, if decide (cB = r) then eqb vA vB else false).
(** IsSymmetric.h 81-117: one row. *)
Definition sym_row (b : csrbuf V) (h : csrh) (r : nat) (s : list (option nat) * bool) : outcome (list (option nat) * bool) :=
  if snd s then
    let* nnz := csr_row_nnz b h r in
    let* a := roff b h r in
    let* s := for_up 0 nnz (fun idx (s : list (option nat) * bool) => if snd s then sym_entry b h r a idx (fst s) else Ok s) s in
    if snd s then
      let* p := rd (fst s) r in
      Ok (fst s, negb (bool_decide (p = None) && negb (bool_decide (nnz = 0))))
    else Ok s
  else Ok s.
(** IsSymmetric.h 68-119: sparse matrices. *)
Definition sym_csr (b : csrbuf V) (h : csrh) : outcome bool :=
  if decide (h_rows h <> h_cols h) then Throw else
  if decide (h_rows h <= 1) then Ok true else
  let* s := for_up 0 (h_rows h) (sym_row b h) (replicate (h_rows h) None, true) in Ok (snd s).
End sym.
