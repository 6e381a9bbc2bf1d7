(** Model of datasets that are stored as several segment files in one directory of HDFS: src/runtime/local/io/HDFS (HDFSUtils.h,
    ReadDaphneHDFS.h, ReadHDFSCsv.h, WriteDaphneHDFS.h, WriteHDFSCsv.h, WriteHDFS.h) and
    src/runtime/distributed/coordinator/kernels/DistributedRead.h and DistributedWrite.h (synchronous gRPC).
    A segment is the number of rows of its meta data file and its bytes; segment number k of the code is position k - 1 of the list. Only
    regular HDFS calls are modelled: a read delivers all bytes that are asked for and exist, files that exist can be opened; a file that
    does not exist makes parseHDFSMetaData (HDFSUtils.h 27-38) use a null pointer. Sizes do not wrap around; tSize is large enough. *)
From stdpp Require Import base numbers list.
From Coq Require Import ZArith NArith.
From Verif Require Import CppBase Mem SerModel CsvModel.

Record hseg (B : Type) := mkHS { hs_rows : nat; hs_bytes : list B }.
Arguments mkHS {B}. Arguments hs_rows {B}. Arguments hs_bytes {B}.
Definition hdir (B : Type) := list (option (hseg B)).

(** HDFSUtils.h 45-64: findSegmendAndOffset; the loop goes through the segments from number [seg] on. [seg--] of line 57 undoes the [seg++] of line 52. *)
Fixpoint find_segment {B} (dir : hdir B) (seg skipped startRow startOffset mult : nat) : outcome (nat * nat) :=
  if decide (skipped = startRow) then Ok (seg, startOffset)
  else match dir with
       | Some s :: dir' =>
           if decide (startRow < skipped + hs_rows s) then Ok (seg, startOffset + (startRow - skipped) * mult)
           else find_segment dir' (S seg) (skipped + hs_rows s) startRow startOffset mult
       | _ => UB
       end.

(** * Binary segments *)
Section binary.
Context {V : Type} `{Rep V}.
(** ReadDaphneHDFS.h 90-138: the loop over the segments. [num] and [cols] are the dimensions of the result. The new buffer is zeroed
    (line 114); hdfsSeek to a position behind the end of the file is not modelled (UB). In line 134 [bufferEnd - offset] can be
    negative only in the last iteration, where the sum is not used any more; the model cuts it off at 0. *)
Fixpoint read_bin_loop (num cols : nat) (dir : hdir N) (o : dobj) (parsed offset ser : nat) : outcome dobj :=
  if decide (parsed < num) then
    match dir with
    | Some s :: dir' =>
        let fileSize := length (hs_bytes s) in
        let offset := if decide (parsed = 0) then offset else HD in
        if decide (fileSize < offset) then UB else
        let got := drop offset (hs_bytes s) in
        let buffer := got ++ replicate (fileSize - length got) 0%N in
        let bufferEnd := if decide (num - parsed < hs_rows s) then (num - parsed) * cols * vsize else fileSize in
        let* o := dense_deser (V := V) (fun n => replicate n 0%N) buffer bufferEnd (Some o) ser in
        read_bin_loop num cols dir' o (parsed + hs_rows s) offset (ser + (bufferEnd - offset))
    | _ => UB
    end
  else Ok o.
(** ReadDaphneHDFS.h 71-139: the result object [o] is made by the caller (ReadHDFS.h 56, WorkerImplGRPCSync.cpp 138-139). *)
Definition read_bin (dir : hdir N) (o : dobj) (startRow : nat) : outcome dobj :=
  let* (seg, offset) := find_segment dir 0 0 startRow HD (do_cols o * vsize) in
  read_bin_loop (do_rows o) (do_cols o) (drop seg dir) o 0 offset HD.
(** WriteDaphneHDFS.h 70-105: one segment, with its meta data. *)
Definition write_bin (a : dmat V) : outcome (hseg N) :=
  let* bytes := dense_ser a (dlen (V := V) (m_rows a) (m_cols a)) 0 in Ok (mkHS (m_rows a) bytes).
End binary.

(** * CSV segments *)
(** WriteHDFSCsv.h 104-127: [pr v] is what an output stream writes for the value; [cell] counts the cells that were written, lines 105, 110, 119. *)
Definition write_hdfs_csv {V} (pr : V -> list byte) (a : dmat V) : outcome (hseg byte) :=
  let* (out, _) := for_up 0 (m_rows a) (fun i (s : list byte * nat) =>
    let* (out, cell) := for_up 0 (m_cols a) (fun j (s : list byte * nat) =>
      let '(out, cell) := s in
      let* v := rd (m_buf a) (m_off a + cell) in
      Ok (out ++ pr v ++ (if decide (j < m_cols a - 1) then [COMMA] else []), S cell)) s in
    Ok (out ++ [LF], cell)) ([], 0) in
  Ok (mkHS (m_rows a) out).
(** What an output stream writes for a value of type int8_t: the character. *)
Definition print_int8 (z : Z) : list byte := [Z.to_nat (z mod 256)].
(** What an output stream writes for the integer-valued double [z], with its six significant digits: like %g. The exact value is
    rounded to six digits, to even in case of a tie. *)
Definition digits_of (z : Z) : nat := length (print_dec z).
Definition round_even (n d : Z) : Z :=
  let q := (n / d)%Z in let r := (n mod d)%Z in
  if decide (2 * r < d)%Z then q else if decide (d < 2 * r)%Z then (q + 1)%Z else if Z.even q then q else (q + 1)%Z.
Fixpoint strip0 (bs : list byte) : list byte :=
  match bs with [] => [] | c :: bs' => match strip0 bs' with [] => if c =? 48 then [] else [c] | r => c :: r end end.
Definition print_g6_pos (z : Z) : list byte :=
  if decide (z < 1000000)%Z then print_dec z
  else
    let e := digits_of z - 1 in
    let q := round_even z (10 ^ Z.of_nat (e - 5)) in
    let '(q, e) := if decide (q = 1000000)%Z then (100000%Z, S e) else (q, e) in
    match print_dec q with
    | d :: ds => [d] ++ (match strip0 ds with [] => [] | ds => 46 :: ds end) ++ [101; 43] ++ (if e <? 10 then [48] else []) ++ print_dec (Z.of_nat e)
    | [] => []
    end.
Definition print_g6 (z : Z) : list byte := if decide (z < 0)%Z then 45 :: print_g6_pos (- z) else print_g6_pos z.

(** The state of reading one segment line by line, ReadHDFSCsv.h 101-103: the local buffer, [cur] (a position in it or null), [n], and the
    part of the file that has not been read. *)
Record linest := mkLS { l_buf : list byte; l_cur : option nat; l_n : nat; l_rest : list byte }.
(** memchr(buf + p, '\n', n): the position of the first line feed. *)
Fixpoint memchr_lf (buf : list byte) (p n : nat) : outcome (option nat) :=
  match n with
  | 0 => Ok None
  | S n' => let* c := rd buf p in if decide (c = LF) then Ok (Some p) else memchr_lf buf (S p) n'
  end.
(** ReadHDFSCsv.h 106-125: reading one line; each repetition reads at least one byte, so [fuel] above the length of the file suffices.
    [n] is not reduced when [cur] advances. *)
Fixpoint get_line (fuel : nat) (st : linest) (line : list byte) : outcome (linest * list byte) :=
  match fuel with
  | 0 => Throw
  | S fuel' =>
      let size := length (l_buf st) in
      let* (st, cur) := (match l_cur st with
                         | Some cur => Ok (st, cur)
                         | None =>
                             let got := take size (l_rest st) in
                             if decide (length got <= 0) then Throw
                             else Ok (mkLS (got ++ drop (length got) (l_buf st)) (Some 0) (length got) (drop size (l_rest st)), 0)
                         end) in
      let* eol := memchr_lf (l_buf st) cur (l_n st) in
      match eol with
      | None => let* bs := rdn (l_buf st) cur (l_n st) in get_line fuel' (mkLS (l_buf st) None (l_n st) (l_rest st)) (line ++ bs)
      | Some e => let* bs := rdn (l_buf st) cur (e - cur) in Ok (mkLS (l_buf st) (Some (S e)) (l_n st) (l_rest st), line ++ bs)
      end
  end.
Section csv.
Context {V : Type}.
(** convertCstr: the value at the beginning of the text *)
Context (conv : list byte -> outcome V).
(** ReadHDFSCsv.h 131-149: the cells of one line; [idx] is the position of valuesRes *)
Definition parse_row (delim : byte) (m : nat) (line : list byte) (idx : nat) (mem : list V) : outcome (list V) :=
  let* (_, mem) := for_up 0 m (fun c (s : list byte * list V) =>
    let '(pos, mem) := s in
    let* v := conv pos in
    let* mem := wr mem (idx + c) v in
    if decide (c < m - 1) then let* pos := skip_field delim pos in Ok (pos, mem) else Ok (pos, mem)) (line, mem) in
  Ok mem.
(** ReadHDFSCsv.h 105-153: the rows [r], [r + 1], ... of one segment, of which [cnt] are left *)
Fixpoint read_seg_rows (delim : byte) (num m within : nat) (cnt r : nat) (st : linest) (parsed : nat) (mem : list V) : outcome (nat * list V) :=
  match cnt with
  | 0 => Ok (parsed, mem)
  | S cnt' =>
      let* (st, line) := get_line (S (S (length (l_rest st)))) st [] in
      if decide (parsed = 0 /\ r < within) then read_seg_rows delim num m within cnt' (S r) st parsed mem
      else
        let* mem := parse_row delim m line (parsed * m) mem in
        if decide (S parsed = num) then Ok (S parsed, mem) else read_seg_rows delim num m within cnt' (S r) st (S parsed) mem
  end.
(** ReadHDFSCsv.h 91-156: the loop over the segments; [junk] is the contents of the uninitialised local buffer, whose size is the length of [junk] *)
Fixpoint read_csv_loop (junk : list byte) (delim : byte) (num m within : nat) (dir : hdir byte) (parsed : nat) (mem : list V) : outcome (list V) :=
  if decide (parsed < num) then
    match dir with
    | Some s :: dir' =>
        let* (parsed, mem) := read_seg_rows delim num m within (hs_rows s) 0 (mkLS junk None 0 (hs_bytes s)) parsed mem in
        read_csv_loop junk delim num m within dir' parsed mem
    | _ => UB
    end
  else Ok mem.
(** ReadHDFSCsv.h 57-157: [mem] is the array of the result, which has [num] rows and [m] columns *)
Definition read_hdfs_csv (junk : list byte) (delim : byte) (dir : hdir byte) (mem : list V) (num m startRow : nat) : outcome (list V) :=
  if decide (num <= 0) then Throw else
  let* (seg, within) := find_segment dir 0 0 startRow 0 1 in
  read_csv_loop junk delim num m within (drop seg dir) 0 mem.
End csv.
(** ReadHDFSCsv.h 101: char buffer[1UL << 20] *)
Definition BUF : N := 2 ^ 20.

(** * Writing a matrix that is distributed over workers *)
(** DistributedWrite.h 115-156: one segment for each worker, numbered in the order of the workers; a worker without a data placement is skipped, but its
    number is used up (lines 118, 151-153). [placed] gives the row range of each worker. The rows of a worker that holds its part are
    written from that part, the others from a view of the matrix (lines 143-149); here both are the rows of the matrix. *)
Definition row_view {V} (a : dmat V) (r n : nat) : dmat V := mkDM (m_buf a) (m_off a + r * m_skip a) n (m_cols a) (m_skip a).
Fixpoint dist_write {V B} (write : dmat V -> outcome (hseg B)) (a : dmat V) (placed : list (option (nat * nat))) : outcome (hdir B) :=
  match placed with
  | [] => Ok []
  | Some (r, n) :: placed' => let* s := write (row_view a r n) in let* dir := dist_write write a placed' in Ok (Some s :: dir)
  | None :: placed' => let* dir := dist_write write a placed' in Ok (None :: dir)
  end.
(** WriteHDFS.h 82-93: in distributed mode as above, otherwise one segment. *)
Definition write_hdfs {V B} (write : dmat V -> outcome (hseg B)) (distributed : bool) (a : dmat V) (placed : list (option (nat * nat))) : outcome (hdir B) :=
  if distributed then dist_write write a placed else let* s := write a in Ok [Some s].
