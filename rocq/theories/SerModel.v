(** Model of the byte serializer src/runtime/local/io/DaphneSerializer.h for dense and sparse matrices, including the
    in-order and out-of-order chunk classes. Bytes are numbers of type N. Sizes are nat; the unsigned subtractions of the
    code that could wrap around are guarded and reported as UB, because the wrapped value is used as a copy length. *)
From stdpp Require Import base numbers list.
From Coq Require Import Lia NArith.
From Verif Require Import CppBase Mem CSRModel.

(** The little-endian memory image of an unsigned integer of [k] bytes (higher bits are cut off), and its inverse:
    what reinterpret_cast<char*> and std::copy do on the supported platform. *)
Fixpoint le (k : nat) (n : N) : list N := match k with 0 => [] | S k' => (n `mod` 256)%N :: le k' (n `div` 256)%N end.
Fixpoint unle (l : list N) : N := match l with [] => 0%N | b :: l' => (b + 256 * unle l')%N end.
Definition le_nat (k n : nat) : list N := le k (N.of_nat n).
Definition unle_nat (l : list N) : nat := N.to_nat (unle l).

(** Reading [n] bytes from position [i] of a buffer. *)
Definition rdn {A} (buf : list A) (i n : nat) : outcome (list A) :=
  if decide (i + n <= length buf) then Ok (take n (drop i buf)) else UB.

(** A value type as the serializer sees it: sizeof(VT), ValueTypeUtils::codeFor<VT> and the memory image of a value. *)
Class Rep (V : Type) := { vsize : nat; vcode : N; enc : V -> list N; dec : list N -> V }.
(** The memory image of an array. *)
Definition enc_all {V} `{Rep V} (l : list V) : list N := concat (enc <$> l).

(** DaphneFile.h 21-26, 30-33, 35-39 and 28, 41: the packed structs of the header, and the codes of data and body types. *)
Definition df_header (dt : N) (rows cols : nat) : list N := [1%N; dt] ++ le_nat 8 rows ++ le_nat 8 cols.
Definition df_body : list N := le_nat 8 0 ++ le_nat 8 0.
Definition df_block (rows cols : nat) (bt : N) : list N := le_nat 4 rows ++ le_nat 4 cols ++ [bt].
Definition DT_DENSE : N := 1.
Definition DT_CSR : N := 2.
Definition BT_EMPTY : N := 0.
Definition BT_DENSE : N := 1.
Definition BT_SPARSE : N := 2.

(** * Dense matrices: DaphneSerializer.h 79-385 *)
Section dense.
Context {V : Type} `{Rep V}.

(** Lines 85, 89: HEADER_BUFFER_SIZE. *)
Definition HD : nat := 45.
(** Lines 95-107: length. *)
Definition dlen (rows cols : nat) : nat := HD + rows * cols * vsize.
(** Lines 117-170: serializeHeader. *)
Definition dense_header (rows cols : nat) : list N :=
  df_header DT_DENSE rows cols ++ [vcode] ++ df_body ++ df_block rows cols BT_DENSE ++ [vcode].

(** The number of bytes copied: lines 215-222 (serialize) and 352-359 (deserialize). *)
Definition dense_bytes (chunk from bidx vals : nat) : outcome nat :=
  if decide (from < HD) then Ok (if decide ((HD - from) + vals < chunk) then vals else chunk - bidx)
  else if decide (vals + HD < from + chunk) then (if decide (vals + HD < from) then UB else Ok (vals + HD - from))
  else Ok (chunk - bidx).

(** Lines 186-230: serialize(arg, buffer, chunkSize, serializeFromByte). Returns the bytes written to the buffer (their
    number is the result of the C++ function). The memory behind getValues() is the image of the shared array from the
    first cell on; the row skip is not used by the code. *)
Definition dense_ser (a : dmat V) (chunk from : nat) : outcome (list N) :=
  let chunk := if decide (chunk <> 0) then chunk else dlen (m_rows a) (m_cols a) in
  if decide (from = 0 /\ chunk < HD) then Throw
  else
    let out := if decide (from = 0) then dense_header (m_rows a) (m_cols a) else [] in
    let vals := m_rows a * m_cols a * vsize in
    let* n := dense_bytes chunk from (length out) vals in
    let start := if decide (HD < from) then from - HD else 0 in
    let* bs := rdn (enc_all (drop (m_off a) (m_buf a))) start n in
    Ok (out ++ bs).

(** A dense matrix of the receiver: shape and the bytes of its value array. *)
Record dobj := mkDO { do_rows : nat; do_cols : nat; do_mem : list N }.
(** Lines 280-312: deserializeHeader. [alloc n] stands for the arbitrary contents of a new array of n bytes. *)
Definition dense_deser_header (alloc : nat -> list N) (buf : list N) (o : option dobj) : outcome (option dobj) :=
  let* dt := rd buf 1 in
  if decide (dt <> DT_DENSE) then Throw else
  let* vt := rd buf 18 in
  if decide (vt <> vcode) then Throw else
  let* r := rdn buf 35 4 in
  let* c := rdn buf 39 4 in
  let* bt := rd buf 43 in
  if decide (bt = BT_EMPTY) then Ok (Some (mkDO 0 0 (alloc 0)))
  else if decide (bt = BT_DENSE) then
    match o with
    | None => Ok (Some (mkDO (unle_nat r) (unle_nat c) (alloc (unle_nat r * unle_nat c * vsize))))
    | Some _ => Ok o
    end
  else Throw.

(** Lines 328-364: deserialize(buf, chunkSize, matrix, deserializeFromByte). *)
Definition dense_deser (alloc : nat -> list N) (buf : list N) (chunk : nat) (o : option dobj) (from : nat) : outcome dobj :=
  if decide (from = 0 /\ chunk < HD) then Throw
  else
    let* o := (if decide (from = 0) then dense_deser_header alloc buf o else Ok o) in
    let bidx := if decide (from = 0) then HD else 0 in
    match o with
    | None => UB (* null pointer *)
    | Some o =>
      let vals := do_rows o * do_cols o * vsize in
      if decide (from <> 0 /\ from < HD) then UB (* negative offset *)
      else
        let off := if decide (from = 0) then 0 else from - HD in
        let* n := dense_bytes chunk from bidx vals in
        let* mem := copy_range (do_mem o) off buf bidx n in
        Ok (mkDO (do_rows o) (do_cols o) mem)
    end.
Definition dobj_len (o : dobj) : nat := dlen (do_rows o) (do_cols o).
End dense.

(** * Sparse matrices: DaphneSerializer.h 400-912 *)
Section sparse.
Context {V : Type} `{Rep V}.

(** Line 409. *)
Definition HS : nat := 53.
(** getNumNonZeros(r) summed over the rows (lines 458-461, 535-538, 578-581). *)
Definition csr_nzb (b : csrbuf V) (h : csrh) : outcome nat :=
  for_up 0 (h_rows h) (fun r n => let* x := csr_row_nnz b h r in Ok (n + x)) 0.
Definition slen (rows nzb : nat) : nat := HS + (rows + 1) * 8 + nzb * 8 + nzb * vsize.
(** Lines 437-471: length. *)
Definition csr_len (b : csrbuf V) (h : csrh) : outcome nat :=
  let* nzb := (if csr_isView h then csr_nzb b h else Ok (h_max h)) in Ok (slen (h_rows h) nzb).
(** Lines 480-544: serializeHeader. *)
Definition csr_header_bytes (rows cols nzb : nat) : list N :=
  df_header DT_CSR rows cols ++ [vcode] ++ df_body ++ df_block rows cols BT_SPARSE ++ [vcode] ++ le_nat 8 nzb.
Definition csr_header (b : csrbuf V) (h : csrh) : outcome (list N) :=
  let* nzb := csr_nzb b h in Ok (csr_header_bytes (h_rows h) (h_cols h) nzb).

(** One of the three sections of serialize (lines 583-604, 611-624, 633-646): [ser] is the position of the section in the
    serialized form, [arr] its size, [src] the memory it is copied from, [out] the bytes written so far. *)
Definition ser_section (chunk from ser arr : nat) (src out : list N) : outcome (list N) :=
  if decide (from < ser + arr) then
    let bidx := length out in
    let start := if decide (ser < from) then from - ser else 0 in
    let n := if decide (from < ser) then (if decide (arr < chunk - bidx) then arr else chunk - bidx)
             else (if decide (arr + ser - from < chunk) then arr + ser - from else chunk - bidx) in
    let* bs := rdn src start n in
    Ok (out ++ bs)
  else Ok out.

(** The row offsets, as rebased in lines 584-590. *)
Definition rebased (b : csrbuf V) (h : csrh) : outcome (list nat) :=
  let* d := roff b h 0 in
  for_up 0 (h_rows h + 1) (fun r l => let* x := roff b h r in Ok (l ++ [x - d])) [].

(** Lines 558-649: serialize(arg, buffer, chunkSize, serializeFromByte). getColIdxs(0) and getValues(0) point to the
    first entry of row 0 (CSRMatrix.h 195-224). *)
Definition csr_ser (b : csrbuf V) (h : csrh) (chunk from : nat) : outcome (list N) :=
  let* len := csr_len b h in
  let chunk := if decide (chunk <> 0) then chunk else len in
  if decide (chunk < HS) then Throw
  else
    let* out := (if decide (from = 0) then csr_header b h else Ok []) in
    let* nzb := csr_nzb b h in
    let* ro := rebased b h in
    let* base := roff b h 0 in
    let asz := (h_rows h + 1) * 8 in
    let* out := ser_section chunk from HS asz (concat (le_nat 8 <$> ro)) out in
    if decide (chunk <= length out) then Ok out
    else
      let* out := ser_section chunk from (HS + asz) (nzb * 8) (concat (le_nat 8 <$> drop base (bcols b))) out in
      if decide (chunk <= length out) then Ok out
      else ser_section chunk from (HS + asz + nzb * 8) (nzb * vsize) (enc_all (drop base (bvals b))) out.

(** A sparse matrix of the receiver: shape, maxNumNonZeros and the bytes of its three arrays. *)
Record sobj := mkSO { so_rows : nat; so_cols : nat; so_max : nat; so_ro : list N; so_ci : list N; so_va : list N }.
(** Lines 701-745: deserializeHeader; the new matrix is zeroed (CSRMatrix.h 99-103). *)
Definition csr_deser_header (buf : list N) (o : option sobj) : outcome (option sobj) :=
  let* dt := rd buf 1 in
  if decide (dt <> DT_CSR) then Throw else
  let* vt := rd buf 18 in
  if decide (vt <> vcode) then Throw else
  let* r := rdn buf 35 4 in
  let* c := rdn buf 39 4 in
  let* bt := rd buf 43 in
  if decide (bt = BT_EMPTY) then Ok (Some (mkSO 0 0 0 (replicate 8 0%N) [] []))
  else if decide (bt = BT_SPARSE) then
    let* z := rdn buf 45 8 in
    match o with
    | None => Ok (Some (mkSO (unle_nat r) (unle_nat c) (unle_nat z) (replicate ((unle_nat r + 1) * 8) 0%N)
                     (replicate (unle_nat z * 8) 0%N) (replicate (unle_nat z * vsize) 0%N)))
    | Some _ => Ok o
    end
  else Ok o.

(** One of the three sections of deserialize (lines 780-797, 803-820, 825-840): returns the new contents of the section
    and the new position in the buffer. The offset of the first section (line 782) differs from the other two (805, 827) only for
    positions inside the header; those are rejected in [csr_deser]. *)
Definition deser_section (buf : list N) (chunk from ser arr bidx : nat) (dst : list N) : outcome (list N * nat) :=
  if decide (from < ser + arr) then
    let off := if decide (from < ser) then 0 else from - ser in
    let n := if decide (from < ser) then (if decide (ser + arr < from + chunk) then arr else chunk - bidx)
             else (if decide (ser + arr < from + chunk) then arr + ser - from else chunk - bidx) in
    let* dst := copy_range dst off buf bidx n in
    Ok (dst, bidx + n)
  else Ok (dst, bidx).

(** Lines 762-842: deserialize(buffer, chunkSize, matrix, deserializeFromByte). *)
Definition csr_deser (buf : list N) (chunk : nat) (o : option sobj) (from : nat) : outcome sobj :=
  if decide (from = 0 /\ chunk < HS) then Throw
  else
    let* o := (if decide (from = 0) then csr_deser_header buf o else Ok o) in
    let bidx := if decide (from = 0) then HS else 0 in
    match o with
    | None => UB
    | Some o =>
      if decide (from <> 0 /\ from < HS) then UB
      else
        let asz := (so_rows o + 1) * 8 in
        let nzb := so_max o in
        let* (ro, bidx) := deser_section buf chunk from HS asz bidx (so_ro o) in
        if decide (chunk <= bidx) then Ok (mkSO (so_rows o) (so_cols o) nzb ro (so_ci o) (so_va o))
        else
          let* (ci, bidx) := deser_section buf chunk from (HS + asz) (nzb * 8) bidx (so_ci o) in
          if decide (chunk <= bidx) then Ok (mkSO (so_rows o) (so_cols o) nzb ro ci (so_va o))
          else
            let* (va, bidx) := deser_section buf chunk from (HS + asz + nzb * 8) (nzb * vsize) bidx (so_va o) in
            Ok (mkSO (so_rows o) (so_cols o) nzb ro ci va)
    end.
(** Lines 437-471 for a matrix made by deserializeHeader, which is not a view. *)
Definition sobj_len (o : sobj) : nat := slen (so_rows o) (so_max o).
End sparse.

(** * Chunks in order: DaphneSerializerChunks (lines 1586-1700) and DaphneDeserializerChunks (1706-1794).
    [hd] is HEADER_BUFFER_SIZE, [len] the length of the object, [ser c from] and [deser buf chunk o from] are serialize and deserialize. *)
Section in_order.
(** for (it = begin(); it != end(); ++it) use( *it ): [n] is end().index - it.index. The increment that reaches end() also calls serialize. *)
Fixpoint ser_iter (ser : nat -> nat -> outcome (list N)) (c n from : nat) : outcome (list (list N)) :=
  match n with
  | 0 => let* _ := ser c from in Ok []
  | S n' => let* bs := ser c from in let* rest := ser_iter ser c n' (from + length bs) in Ok (bs :: rest)
  end.
(** ceil(x / (double)y), lines 1694-1698. Simplification: exact, i.e. sizes below 2^53. *)
Definition ceil_div (x y : nat) : nat := (x + y - 1) / y.
(** Lines 1609-1621, 1645-1659, 1694-1698: constructor, begin, end. *)
Definition ser_chunks (hd len : nat) (ser : nat -> nat -> outcome (list N)) (c0 : nat) : outcome (list (list N)) :=
  if decide (c0 < hd) then Throw
  else
    let c := if decide (len < c0) then len else c0 in
    if decide (c < hd) then Throw else ser_iter ser c (ceil_div len c) 0.
(** One [++it] of the deserializing iterator (lines 1760-1770) on the buffer and size the user has put there; [idx] is
    the index and [from] the number of bytes so far. *)
Definition deser_next {O} (hdr : list N -> option O -> outcome (option O)) (deser : list N -> nat -> option O -> nat -> outcome O)
    (st : option O * nat * nat) (buf : list N) : outcome (option O * nat * nat) :=
  let '(o, from, idx) := st in
  let* o := (if decide (idx = 0) then hdr buf o else Ok o) in
  let* o := deser buf (length buf) o from in
  Ok (Some o, from + length buf, idx + 1).
Fixpoint deser_chunks {O} (hdr : list N -> option O -> outcome (option O)) (deser : list N -> nat -> option O -> nat -> outcome O)
    (st : option O * nat * nat) (bufs : list (list N)) : outcome (option O * nat * nat) :=
  match bufs with [] => Ok st | b :: bs => let* st := deser_next hdr deser st b in deser_chunks hdr deser st bs end.
End in_order.

(** * Chunks out of order: DaphneSerializerOutOfOrderChunks (lines 1451-1516), DaphneDeserializerOutOfOrderChunks (1527-1579). *)
Section out_of_order.
(** Lines 1471-1474: the chunk size chosen by the constructor. *)
Definition ooo_chunk_size (len c0 : nat) : nat := if decide (c0 = 0) then len else c0.
(** Lines 1486-1508: SerializeNextChunk with a buffer of [c] bytes, which must hold what is written. *)
Definition ooo_next (hd : nat) (header : outcome (list N)) (ser : nat -> nat -> outcome (list N)) (c start : nat) : outcome (list N * nat) :=
  let* hb := header in
  if decide (c < hd + 8) then UB
  else
    let* bs := ser (c - (hd + 8)) start in
    if decide (c < hd + 8 + length bs) then UB else Ok (hb ++ le_nat 8 start ++ bs, start + length bs).
(** while (HasNextChunk()) SerializeNextChunk(...): [ooo_makes start chunks] means that from [start] the loop ends after producing [chunks]. *)
Inductive ooo_makes (hd len : nat) (header : outcome (list N)) (ser : nat -> nat -> outcome (list N)) (c : nat) : nat -> list (list N) -> Prop :=
| ooo_done : ooo_makes hd len header ser c len []
| ooo_more start bs start' rest : start <> len -> ooo_next hd header ser c start = Ok (bs, start') ->
    ooo_makes hd len header ser c start' rest -> ooo_makes hd len header ser c start (bs :: rest).
(** Lines 1547-1567: DeserializeNextChunk; the state is the object and bytesDeserialized. *)
Definition ooo_recv {O} (hd : nat) (hdr : list N -> option O -> outcome (option O)) (deser : list N -> nat -> option O -> nat -> outcome O)
    (st : option O * nat) (buf : list N) : outcome (option O * nat) :=
  let '(o, got) := st in
  let* o := match o with None => hdr buf None | Some _ => Ok o end in
  let* sb := rdn buf hd 8 in
  let n := length buf - (hd + 8) in
  let* o := deser (drop (hd + 8) buf) n o (unle_nat sb) in
  Ok (Some o, got + n).
Fixpoint ooo_recv_all {O} (hd : nat) (hdr : list N -> option O -> outcome (option O)) (deser : list N -> nat -> option O -> nat -> outcome O)
    (st : option O * nat) (bufs : list (list N)) : outcome (option O * nat) :=
  match bufs with [] => Ok st | b :: bs => let* st := ooo_recv hd hdr deser st b in ooo_recv_all hd hdr deser st bs end.
(** Lines 1573-1578: HasNextChunk. *)
Definition ooo_has_next {O} (len : O -> nat) (st : option O * nat) : bool :=
  match fst st with None => true | Some o => bool_decide (snd st < len o) end.
End out_of_order.
