(** Model of the conversions between bitmaps and position lists (src/runtime/local/kernels/ConvertPosListToBitmap.h and
    ConvertBitmapToPosList.h). Values are 64-bit integers given as mathematical integers; the result pointer is null on entry. *)
From stdpp Require Import base numbers list.
From Verif Require Import CppBase Mem.

(** conversion of a value to size_t *)
Definition to_size (z : Z) : nat := Z.to_nat (z mod 2 ^ 64).

(** ConvertPosListToBitmap.h 49-70. The new result is zeroed and has rowSkip 1. *)
Definition pos_to_bitmap (a : dmat Z) (numRowsRes : nat) : outcome (dmat Z) :=
  if decide (m_cols a <> 1) then Throw else
  let* res := for_up 0 (m_rows a) (fun r res =>
    let* v := dm_at a r 0 in
    let pos := to_size v in
    if decide (numRowsRes < pos) then Throw else wr res (pos * 1) 1%Z) (replicate numRowsRes 0%Z) in
  Ok (mkDM res 0 numRowsRes 1 1).

(** ConvertBitmapToPosList.h 47-74. [junk]: contents of the new array; the counter of results is also the write position, since the
    result has rowSkip 1. shrinkNumRows (DenseMatrix.h) only changes the number of rows. *)
Definition bitmap_to_pos (junk : list Z) (a : dmat Z) : outcome (dmat Z) :=
  if decide (m_cols a <> 1) then Throw else
  let* s := for_up 0 (m_rows a) (fun r (s : list Z * nat) =>
    let* v := dm_at a r 0 in
    if decide (v = 1%Z) then let* res := wr (fst s) (snd s) (Z.of_nat r) in Ok (res, snd s + 1) else Ok s) (junk, 0) in
  if decide (m_rows a < snd s) then Throw else Ok (mkDM (fst s) 0 (snd s) 1 1).
