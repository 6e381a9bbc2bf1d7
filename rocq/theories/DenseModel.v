(** Model of the dense matrix class DenseMatrix (src/runtime/local/datastructures/DenseMatrix.h and .cpp), for numeric
    value types and host memory. Not modelled: device allocations (the IAllocationDescriptor machinery), the
    specialisation for strings. *)
From stdpp Require Import base list numbers.
From Coq Require Import Lia.
From Verif Require Import CppBase.

(** std::fill(values + lo, values + hi, z) as an assignment loop. *)
Definition fill_range {V} (b : list V) (lo hi : nat) (z : V) : outcome (list V) := for_up lo hi (fun i b => wr b i z) b.

(** A DenseMatrix object without its buffer: DenseMatrix.h 43-57 (and row_offset, col_offset of Structure.h).
    [d_off] is the position of the object's values pointer in the allocation; [d_buf] is bufferSize / sizeof(ValueType). *)
Record dmh := mkD {
  d_off : nat;  (* values.get() - start of the allocation *)
  d_rows : nat; (* numRows *)
  d_cols : nat; (* numCols *)
  d_skip : nat; (* rowSkip *)
  d_buf : nat;  (* bufferSize, in elements *)
  d_ro : nat;   (* row_offset *)
  d_co : nat;   (* col_offset *)
  d_lr : nat;   (* lastAppendedRowIdx *)
  d_lc : nat    (* lastAppendedColIdx *)
}.

(** DenseMatrix.cpp 67-87 (and 89-96): a matrix that is not a view. *)
Definition dm_new (rows cols : nat) : dmh := mkD 0 rows cols cols (rows * cols) 0 0 0 0.

(** DenseMatrix.cpp 31-60: validateArgs, one dimension ([n] is the number of rows or columns of the source). *)
Definition bad_range (lo hi : Z) (n : nat) : bool :=
  bool_decide (lo < 0 \/ hi < lo \/ Z.of_nat n < hi \/ (lo = Z.of_nat n /\ lo <> 0))%Z.

(** DenseMatrix.cpp 98-115, DenseMatrix.h 301-307: view constructor, slice. *)
Definition dm_slice (h : dmh) (rl ru cl cu : Z) : outcome dmh :=
  if bad_range rl ru (d_rows h) then Throw
  else if bad_range cl cu (d_cols h) then Throw
  else
    let rows := Z.to_nat (ru - rl) in
    let cols := Z.to_nat (cu - cl) in
    let offset := Z.to_nat rl * d_skip h + Z.to_nat cl in
    Ok (mkD (d_off h + offset) rows cols (d_skip h) (rows * d_skip h) (Z.to_nat rl) (Z.to_nat cl) 0 0).
(** DenseMatrix.h 301: sliceRow; 303: sliceCol. *)
Definition dm_sliceRow (h : dmh) (rl ru : Z) : outcome dmh := dm_slice h rl ru 0 (Z.of_nat (d_cols h)).
Definition dm_sliceCol (h : dmh) (cl cu : Z) : outcome dmh := dm_slice h 0 (Z.of_nat (d_rows h)) cl cu.

(** DenseMatrix.h 189-191: isPartialBuffer. *)
Definition dm_partial (h : dmh) : bool := bool_decide (d_buf h <> d_rows h * d_skip h).
(** DenseMatrix.h 180-182: offset, startAddress; this is what getValues() returns for a host allocation
    (DenseMatrix.cpp 194-206). *)
Definition dm_start (h : dmh) : nat := if dm_partial h then d_off h + (d_ro h * d_skip h + d_co h) else d_off h.
(** DenseMatrix.h 115-121: pos. *)
Definition dm_pos (h : dmh) (r c : nat) (override : bool) : outcome nat :=
  if decide (d_rows h <= r) then Throw
  else if decide (d_cols h <= c) then Throw
  else Ok (r * (if override then d_cols h else d_skip h) + c).
(** DenseMatrix.h 253-255: get. *)
Definition dm_get {V} (b : list V) (h : dmh) (r c : nat) : outcome V :=
  let* p := dm_pos h r c (dm_partial h) in rd b (dm_start h + p).
(** DenseMatrix.h 257-260: set. *)
Definition dm_set {V} (b : list V) (h : dmh) (r c : nat) (v : V) : outcome (list V) :=
  let* p := dm_pos h r c false in wr b (dm_start h + p) v.
(** DenseMatrix.h 193-200: shrinkNumRows. *)
Definition dm_shrinkNumRows (h : dmh) (n : nat) : outcome dmh :=
  if decide (d_rows h < n) then Throw
  else Ok (mkD (d_off h) n (d_cols h) (d_skip h) (d_buf h) (d_ro h) (d_co h) (d_lr h) (d_lc h)).

Section append.
Context {V : Type} (z : V). (* z: ValueTypeUtils::defaultValue *)

(** DenseMatrix.h 123-145: fillZeroUntil. *)
Definition dm_fillZeroUntil (b : list V) (h : dmh) (r c : nat) : outcome (list V) :=
  if decide (d_skip h = d_cols h \/ d_lr h = r) then
    let* p0 := dm_pos h (d_lr h) (d_lc h) false in
    let startPosIncl := p0 + 1 in
    let* endPosExcl := dm_pos h r c false in
    if decide (startPosIncl < endPosExcl) then fill_range b (d_off h + startPosIncl) (d_off h + endPosExcl) z else Ok b
  else
    let v := d_off h + d_lr h * d_skip h in
    let* b := fill_range b (v + d_lc h + 1) (v + d_cols h) z in
    let* b := for_up (d_lr h + 1) r (fun i b => fill_range b (d_off h + i * d_skip h) (d_off h + i * d_skip h + d_cols h) z) b in
    let v := d_off h + (d_lr h + 1 + (r - (d_lr h + 1))) * d_skip h in
    if decide (c <> 0) then fill_range b v (v + c - 1) z else Ok b.

(** DenseMatrix.h 262-268: prepareAppend. *)
Definition dm_prepareAppend (b : list V) (h : dmh) : outcome (list V * dmh) :=
  let h' := mkD (d_off h) (d_rows h) (d_cols h) (d_skip h) (d_buf h) (d_ro h) (d_co h) 0 0 in
  if decide (d_rows h <> 0 /\ d_cols h <> 0) then let* b := wr b (d_off h + 0) z in Ok (b, h') else Ok (b, h').
(** DenseMatrix.h 270-278: append. *)
Definition dm_append (b : list V) (h : dmh) (r c : nat) (v : V) : outcome (list V * dmh) :=
  let* b := dm_fillZeroUntil b h r c in
  let* p := dm_pos h r c false in
  let* b := wr b (d_off h + p) v in
  Ok (b, mkD (d_off h) (d_rows h) (d_cols h) (d_skip h) (d_buf h) (d_ro h) (d_co h) r c).
(** DenseMatrix.h 280-285: finishAppend. *)
Definition dm_finishAppend (b : list V) (h : dmh) : outcome (list V * dmh) :=
  if decide ((d_rows h <> 0 /\ d_cols h <> 0) /\ (d_lr h + 1 < d_rows h \/ d_lc h + 1 < d_cols h))
  then dm_append b h (d_rows h - 1) (d_cols h - 1) z else Ok (b, h).
(** A client running the whole protocol. *)
Fixpoint dm_appends (b : list V) (h : dmh) (hist : list (nat * nat * V)) : outcome (list V * dmh) :=
  match hist with
  | [] => Ok (b, h)
  | (r, c, v) :: hist' => let* (b', h') := dm_append b h r c v in dm_appends b' h' hist'
  end.
Definition dm_append_all (b : list V) (h : dmh) (hist : list (nat * nat * V)) : outcome (list V * dmh) :=
  let* (b, h) := dm_prepareAppend b h in
  let* (b, h) := dm_appends b h hist in
  dm_finishAppend b h.
End append.

(** DenseMatrix.h 311-342: operator==. [same] stands for the comparison of the two addresses ([this == &rhs], or equal
    values pointers and strides); [veq] is != on elements, negated. *)
Fixpoint dm_eq_cols {V} (veq : V -> V -> bool) (b1 b2 : list V) (p1 p2 n : nat) : outcome bool :=
  match n with
  | 0 => Ok true
  | S n' => let* x := rd b1 p1 in let* y := rd b2 p2 in
            if veq x y then dm_eq_cols veq b1 b2 (p1 + 1) (p2 + 1) n' else Ok false
  end.
Fixpoint dm_eq_rows {V} (veq : V -> V -> bool) (b1 b2 : list V) (p1 p2 s1 s2 cols n : nat) : outcome bool :=
  match n with
  | 0 => Ok true
  | S n' => let* e := dm_eq_cols veq b1 b2 p1 p2 cols in
            if (e : bool) then dm_eq_rows veq b1 b2 (p1 + s1) (p2 + s2) s1 s2 cols n' else Ok false
  end.
Definition dm_eq {V} (veq : V -> V -> bool) (b1 : list V) (h1 : dmh) (b2 : list V) (h2 : dmh) : outcome bool :=
  if decide (d_rows h1 <> d_rows h2 \/ d_cols h1 <> d_cols h2) then Ok false
  else dm_eq_rows veq b1 b2 (dm_start h1) (dm_start h2) (d_skip h1) (d_skip h2) (d_cols h1) (d_rows h1).
(** The same comparison when both objects share the buffer [b] and have the shortcut available. *)
Definition dm_eq_shared {V} (veq : V -> V -> bool) (b : list V) (h1 h2 : dmh) : outcome bool :=
  if decide (d_rows h1 <> d_rows h2 \/ d_cols h1 <> d_cols h2) then Ok false
  else if decide (dm_start h1 = dm_start h2 /\ d_skip h1 = d_skip h2) then Ok true
  else dm_eq veq b h1 b h2.
