(** Model of the selection kernels: src/runtime/local/kernels/ExtractRow.h, ExtractCol.h, FilterRow.h, FilterCol.h. Positions and bits
    are integers (selections given as floating-point matrices are not modelled); the result pointer is null on entry, so [junk] stands
    for the contents of the freshly allocated, uninitialised result. *)
From stdpp Require Import base numbers list.
From Verif Require Import CppBase Mem BitmapModel.

(** ExtractRow.h 189-206, 121-130 and ExtractCol.h 95-104: a negative index counts from the end; then the bounds check. *)
Definition sel_index (v : Z) (n : nat) : outcome nat :=
  let w := if decide (v < 0)%Z then (v + Z.of_nat n)%Z else v in
  if decide (w < 0)%Z then Throw else if decide (n <= to_size w) then Throw else Ok (to_size w).

(** valuesSel[r]: the dense kernels read the selection without its rowSkip (ExtractRow.h 186-188, ExtractCol.h 78, 94) ... *)
Definition sel_raw (sel : dmat Z) (r : nat) : outcome Z := rd (m_buf sel) (m_off sel + r).
(** ... and the kernels for the abstract class Matrix through get (ExtractRow.h 243, ExtractCol.h 166). *)
Definition sel_get (sel : dmat Z) (r : nat) : outcome Z := dm_at sel r 0.

Section Dense.
  Context {V : Type}.
  (** ExtractRow.h 155-211 with [at_ := sel_raw], 217-275 with [at_ := sel_get] (there, get and append on a dense matrix take the place
      of the pointers). *)
  Definition extract_row_with (at_ : dmat Z -> nat -> outcome Z) (junk : list V) (a : dmat V) (sel : dmat Z) : outcome (dmat V) :=
    if decide (m_cols sel <> 1) then Throw else
    let* b := for_up 0 (m_rows sel) (fun r b =>
      let* v := at_ sel r in
      let* i := sel_index v (m_rows a) in
      for_up 0 (m_cols a) (fun c b =>
        let* x := rd (m_buf a) (m_off a + i * m_skip a + c) in wr b (r * m_cols a + c) x) b) junk in
    Ok (mkDM b 0 (m_rows sel) (m_cols a) (m_cols a)).
  Definition extract_row := extract_row_with sel_raw.

  (** ExtractCol.h 71-112 with [at_ := sel_raw], 155-184 with [at_ := sel_get]. The index is checked again for every row. *)
  Definition extract_col_with (at_ : dmat Z -> nat -> outcome Z) (junk : list V) (a : dmat V) (sel : dmat Z) : outcome (dmat V) :=
    if decide (m_cols sel <> 1) then Throw else
    let* b := for2 (m_rows a) (m_rows sel) (fun r c b =>
      let* v := at_ sel c in
      let* i := sel_index v (m_cols a) in
      let* x := rd (m_buf a) (m_off a + r * m_skip a + i) in wr b (r * m_rows sel + c) x) junk in
    Ok (mkDM b 0 (m_rows a) (m_rows sel) (m_rows sel)).
  Definition extract_col := extract_col_with sel_raw.

  (** for(r) numRowsRes += sel->get(r, 0), in size_t (FilterRow.h 63-65, FilterCol.h 62-64). *)
  Definition count_sel (sel : dmat Z) (n : nat) : outcome nat :=
    let* z := for_up 0 n (fun r z => let* v := dm_at sel r 0 in Ok ((z + v) mod 2 ^ 64)%Z) 0%Z in Ok (Z.to_nat z).

  (** FilterRow.h 53-83. [junk n]: contents of a new array of n elements. *)
  Definition filter_row (junk : nat -> list V) (a : dmat V) (sel : dmat Z) : outcome (dmat V) :=
    if decide (m_rows sel <> m_rows a) then Throw else if decide (m_cols sel <> 1) then Throw else
    let* n := count_sel sel (m_rows a) in
    let* s := for_up 0 (m_rows a) (fun r (s : list V * nat) =>
      let* v := dm_at sel r 0 in
      if decide (v <> 0%Z) then
        let* b := copy_range (fst s) (snd s * m_cols a) (m_buf a) (m_off a + r * m_skip a) (m_cols a) in Ok (b, snd s + 1)
      else Ok s) (junk (n * m_cols a), 0) in
    Ok (mkDM (fst s) 0 n (m_cols a) (m_cols a)).

  (** FilterCol.h 52-103 (approach 2). *)
  Definition filter_col (junk : nat -> list V) (a : dmat V) (sel : dmat Z) : outcome (dmat V) :=
    if decide (m_rows sel <> m_cols a) then Throw else if decide (m_cols sel <> 1) then Throw else
    let* n := count_sel sel (m_cols a) in
    let* positions := for_up 0 (m_cols a) (fun c ps => let* v := dm_at sel c 0 in Ok (if decide (v <> 0%Z) then ps ++ [c] else ps)) [] in
    let* b := for2 (m_rows a) (length positions) (fun r i b =>
      let* p := rd positions i in
      let* x := rd (m_buf a) (m_off a + r * m_skip a + p) in wr b (r * n + i) x) (junk (m_rows a * n)) in
    Ok (mkDM b 0 (m_rows a) n n).
End Dense.

Section Frame.
  Context {B : Type}.
  (** One column of a frame, as bytes: elements of size [e]; every element is copied as 8 bytes.
      ExtractRow.h 118-142; the columns are independent of each other, so the inner loop over the columns is not modelled, and string
      columns are copied element by element. *)
  Definition extract_frame_col (e n : nat) (src dst : list B) (sel : dmat Z) : outcome (list B) :=
    for_up 0 (m_rows sel) (fun r b =>
      let* v := sel_raw sel r in
      let* i := sel_index v n in copy_range b (r * e) src (i * e) 8) dst.
  (** FilterRow.h 127-153; the second component is the number of rows kept. *)
  Definition filter_frame_col (e n : nat) (src dst : list B) (sel : dmat Z) : outcome (list B * nat) :=
    for_up 0 n (fun r (s : list B * nat) =>
      let* v := sel_raw sel r in
      if decide (v <> 0%Z) then let* b := copy_range (fst s) (snd s * e) src (r * e) 8 in Ok (b, snd s + 1) else Ok s) (dst, 0).
End Frame.
