(** Model of the sparse matrix class CSRMatrix (src/runtime/local/datastructures/CSRMatrix.h). *)
From stdpp Require Import base list numbers.
From Coq Require Import Lia.
From Verif Require Import CppBase.

(** The value type of a matrix, as far as CSRMatrix uses it: the value [ValueType(0)] and the test [v == ValueType(0)]
    (two things for floating point, where -0.0 == 0). *)
Class Val (V : Type) := { vzero : V; viszero : V -> bool }.

(** The three arrays shared by a matrix and its views: CSRMatrix.h 70-72 (values, colIdxs, rowOffsets).
    Simplification: the shared_ptr ownership is modelled elsewhere; here the arrays are values passed along. *)
Record csrbuf (V : Type) := mkBuf { bvals : list V; bcols : list nat; broff : list nat }.
Arguments mkBuf {V} _ _ _.
Arguments bvals {V} _.
Arguments bcols {V} _.
Arguments broff {V} _.

(** A CSRMatrix object without its arrays: CSRMatrix.h 50-74. [h_off] is the distance of this object's rowOffsets
    pointer from the start of the allocation (0 unless it is a view). *)
Record csrh := mkH {
  h_off : nat;      (* rowOffsets.get() - start of the allocation *)
  h_rows : nat;     (* numRows *)
  h_cols : nat;     (* numCols *)
  h_alloc : nat;    (* numRowsAllocated *)
  h_before : bool;  (* isRowAllocatedBefore *)
  h_max : nat;      (* maxNumNonZeros *)
  h_last : nat      (* lastAppendedRowIdx *)
}.

Section csr.
Context {V : Type} `{Val V}.

(** CSRMatrix.h 92-104: constructor with [zero = true]. *)
Definition csr_new (rows cols maxnnz : nat) : csrbuf V * csrh :=
  (mkBuf (replicate maxnnz vzero) (replicate maxnnz 0) (replicate (rows + 1) 0),
   mkH 0 rows cols rows false maxnnz 0).

(** CSRMatrix.h 92-104: constructor with [zero = false]: the contents of the arrays are arbitrary. *)
Definition csr_new_uninit (rows cols maxnnz : nat) (b : csrbuf V) (h : csrh) : Prop :=
  length (bvals b) = maxnnz /\ length (bcols b) = maxnnz /\ length (broff b) = rows + 1 /\
  h = mkH 0 rows cols rows false maxnnz 0.

(** [rowOffsets.get()[i]], read and write. *)
Definition roff (b : csrbuf V) (h : csrh) (i : nat) : outcome nat := rd (broff b) (h_off h + i).

(** CSRMatrix.h 131-151: view constructor (also sliceRow, 405-407). The bounds checks of the code run after the
    member initialisers; the initialisers only do unsigned arithmetic, so the order is not observable. *)
Definition csr_view (h : csrh) (rl ru : nat) : outcome csrh :=
  if decide (h_rows h <= rl) then Throw
  else if decide (h_rows h < ru) then Throw
  else if decide (ru <= rl) then Throw
  else Ok (mkH (h_off h + rl) (ru - rl) (h_cols h) (h_alloc h - rl) (bool_decide (0 < rl)) (h_max h) 0).

(** CSRMatrix.h 173-178: shrinkNumRows. *)
Definition csr_shrinkNumRows (h : csrh) (n : nat) : outcome csrh :=
  if decide (h_rows h < n) then Throw
  else Ok (mkH (h_off h) n (h_cols h) (h_alloc h) (h_before h) (h_max h) (h_last h)).

(** CSRMatrix.h 181: getNumNonZeros(). *)
Definition csr_nnz (b : csrbuf V) (h : csrh) : outcome nat :=
  let* e := roff b h (h_rows h) in let* s := roff b h 0 in Ok (e - s).
(** CSRMatrix.h 183-187: getNumNonZeros(rowIdx). *)
Definition csr_row_nnz (b : csrbuf V) (h : csrh) (r : nat) : outcome nat :=
  if decide (h_rows h <= r) then Throw
  else let* e := roff b h (r + 1) in let* s := roff b h r in Ok (e - s).

(** std::lower_bound on [cols[first, first+len)] with key [c] (used in CSRMatrix.h 245 and 263): the halving loop of the
    standard library. The fuel [len] is enough because [len] shrinks in every iteration (lemma lower_bound_spec). *)
Fixpoint lower_bound (fuel : nat) (cols : list nat) (first len c : nat) : outcome nat :=
  if decide (len = 0) then Ok first else
  match fuel with
  | 0 => UB
  | S fuel' =>
    let half := len / 2 in
    let* x := rd cols (first + half) in
    if decide (x < c) then lower_bound fuel' cols (first + half + 1) (len - half - 1) c
    else lower_bound fuel' cols first half c
  end.

(** CSRMatrix.h 237-253: get. *)
Definition csr_get (b : csrbuf V) (h : csrh) (r c : nat) : outcome V :=
  if decide (h_rows h <= r) then Throw
  else if decide (h_cols h <= c) then Throw
  else
    let* beg := roff b h r in
    let* fin := roff b h (r + 1) in
    let* p := lower_bound (fin - beg) (bcols b) beg (fin - beg) c in
    if decide (p = fin) then Ok vzero
    else let* x := rd (bcols b) p in
         if decide (x <> c) then Ok vzero else rd (bvals b) p.

(** CSRMatrix.h 278-281: the loop that creates the gap, and 293-296: the loop that closes it. *)
Definition shift_right {A} (beg posEnd posExp : nat) (a : list A) : outcome (list A) :=
  for_down posEnd posExp (fun pos a => let* x := rd a (beg + (pos - 1)) in wr a (beg + pos) x) a.
Definition shift_left {A} (beg posExp posEnd : nat) (a : list A) : outcome (list A) :=
  for_up posExp posEnd (fun pos a => let* x := rd a (beg + (pos + 1)) in wr a (beg + pos) x) a.

(** CSRMatrix.h 255-305: set. The two shifting loops work on the values and on the column indexes in the same pass;
    the model does one pass per array, which gives the same arrays since the passes do not interact. *)
Definition csr_set (b : csrbuf V) (h : csrh) (r c : nat) (v : V) : outcome (csrbuf V) :=
  if decide (h_rows h <= r) then Throw
  else if decide (h_cols h <= c) then Throw
  else
    let* beg := roff b h r in
    let* fin := roff b h (r + 1) in
    let* p := lower_bound (fin - beg) (bcols b) beg (fin - beg) c in
    let posExp := p - beg in
    let* tot := roff b h (h_alloc h) in
    let posEnd := tot - beg in
    let* absent := (if decide (p = fin) then Ok true
                    else let* x := rd (bcols b) p in Ok (bool_decide (x <> c))) in
    if (absent : bool) then
      if viszero v then Ok b
      else
        let* vs := (if decide (posEnd = 0) then Ok (bvals b) else shift_right beg posEnd posExp (bvals b)) in
        let* cs := (if decide (posEnd = 0) then Ok (bcols b) else shift_right beg posEnd posExp (bcols b)) in
        let* vs := wr vs (beg + posExp) v in
        let* cs := wr cs (beg + posExp) c in
        let* ro := for_up (r + 1) (h_alloc h + 1)
                     (fun i ro => let* x := rd ro (h_off h + i) in wr ro (h_off h + i) (x + 1)) (broff b) in
        Ok (mkBuf vs cs ro)
    else
      if viszero v then
        let* vs := shift_left beg posExp posEnd (bvals b) in
        let* cs := shift_left beg posExp posEnd (bcols b) in
        let* ro := for_up (r + 1) (h_alloc h + 1)
                     (fun i ro => let* x := rd ro (h_off h + i) in wr ro (h_off h + i) (x - 1)) (broff b) in
        Ok (mkBuf vs cs ro)
      else
        let* vs := wr (bvals b) (beg + posExp) v in
        Ok (mkBuf vs (bcols b) (broff b)).

(** CSRMatrix.h 307-315: prepareAppend. *)
Definition csr_prepareAppend (b : csrbuf V) (h : csrh) : outcome (csrbuf V * csrh) :=
  let* ro := (if h_before h then
                let* x := roff b h 0 in wr (broff b) (h_off h + 1) x
              else let* ro := wr (broff b) (h_off h + 0) 0 in wr ro (h_off h + 1) 0) in
  Ok (mkBuf (bvals b) (bcols b) ro, mkH (h_off h) (h_rows h) (h_cols h) (h_alloc h) (h_before h) (h_max h) 0).

(** CSRMatrix.h 160-166: fillNextPosUntil. *)
Definition csr_fillNextPosUntil (ro : list nat) (h : csrh) (nextPos r : nat) : outcome (list nat * nat) :=
  if decide (h_last h < r) then
    let* ro := for_up (h_last h + 2) (r + 2) (fun i ro => wr ro (h_off h + i) nextPos) ro in
    Ok (ro, r)
  else Ok (ro, h_last h).

(** CSRMatrix.h 320-335: append. *)
Definition csr_append (b : csrbuf V) (h : csrh) (r c : nat) (v : V) : outcome (csrbuf V * csrh) :=
  if decide (h_rows h <= r) then Throw
  else if decide (h_cols h <= c) then Throw
  else if viszero v then Ok (b, h)
  else
    let* nextPos := roff b h (h_last h + 1) in
    let* (ro, last) := csr_fillNextPosUntil (broff b) h nextPos r in
    let* vs := wr (bvals b) nextPos v in
    let* cs := wr (bcols b) nextPos c in
    let* x := rd ro (h_off h + (r + 1)) in
    let* ro := wr ro (h_off h + (r + 1)) (x + 1) in
    Ok (mkBuf vs cs ro, mkH (h_off h) (h_rows h) (h_cols h) (h_alloc h) (h_before h) (h_max h) last).

(** CSRMatrix.h 337: finishAppend. [numRows - 1] on an empty matrix wraps around to the largest size_t: the loop then
    writes far outside of the array, which the model reports as UB (if the read of the next position has not already
    done so). *)
Definition csr_finishAppend (b : csrbuf V) (h : csrh) : outcome (csrbuf V * csrh) :=
  let* nextPos := roff b h (h_last h + 1) in
  if decide (h_rows h = 0) then UB
  else
    let* (ro, last) := csr_fillNextPosUntil (broff b) h nextPos (h_rows h - 1) in
    Ok (mkBuf (bvals b) (bcols b) ro, mkH (h_off h) (h_rows h) (h_cols h) (h_alloc h) (h_before h) (h_max h) last).

(** CSRMatrix.h 339: isView. *)
Definition csr_isView (h : csrh) : bool := bool_decide (h_rows h < h_alloc h) || h_before h.

End csr.

(** CSRMatrix.h 421-458: operator==. [veq] compares the bytes of two arrays of values (memcmp); the shortcuts for
    identical pointers do not change the result. *)
Definition csr_eq {V} (veq : list V -> list V -> bool) (b1 : csrbuf V) (h1 : csrh) (b2 : csrbuf V) (h2 : csrh) : outcome bool :=
  if decide (h_rows h1 <> h_rows h2 \/ h_cols h1 <> h_cols h2) then Ok false
  else
    let* s1 := roff b1 h1 0 in let* e1 := roff b1 h1 (h_rows h1) in
    let* s2 := roff b2 h2 0 in let* e2 := roff b2 h2 (h_rows h1) in
    let n1 := e1 - s1 in
    let n2 := e2 - s2 in
    if decide (n1 <> n2) then Ok false
    else if negb (veq (take n1 (drop s1 (bvals b1))) (take n1 (drop s2 (bvals b2)))) then Ok false
    else if decide (take n1 (drop s1 (bcols b1)) <> take n1 (drop s2 (bcols b2))) then Ok false
    else Ok true.

(** A client issuing a sequence of [set] calls (any history of [set(r, c, v)]). *)
Fixpoint csr_sets {V} `{Val V} (b : csrbuf V) (h : csrh) (ops : list (nat * nat * V)) : outcome (csrbuf V) :=
  match ops with
  | [] => Ok b
  | (r, c, v) :: ops' => let* b' := csr_set b h r c v in csr_sets b' h ops'
  end.

(** Integers as value type, for the examples. *)
#[global] Instance Val_Z : Val Z := { vzero := 0%Z; viszero := Z.eqb 0 }.
