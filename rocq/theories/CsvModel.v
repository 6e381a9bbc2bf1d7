(** Model of writing and reading CSV files: src/runtime/local/io/WriteCsv.h, ReadCsvFile.h, utils.h and File.h, for dense matrices of
    strings and of integers. A file is its list of bytes; characters are numbers below 256. The delimiter of the reader is neither a line
    feed nor a carriage return. Floating-point values and frames are not modelled. *)
From stdpp Require Import base numbers list.
From Coq Require Import ZArith.
From Verif Require Import CppBase Mem.

Definition byte := nat.
Notation NUL := 0 (only parsing). Notation LF := 10 (only parsing). Notation CR := 13 (only parsing).
Notation QUOTE := 34 (only parsing). Notation COMMA := 44 (only parsing). Notation BSL := 92 (only parsing).

(** * Writing *)
(** WriteCsv.h 66-85: quoteStrCsvIf *)
Definition special (c : byte) : bool := (c =? COMMA) || (c =? LF) || (c =? CR) || (c =? QUOTE).
Definition escape (s : list byte) : list byte := concat (map (fun c => if c =? QUOTE then [QUOTE; QUOTE] else [c]) s).
Definition quote_if (s : list byte) : list byte := if existsb special s then [QUOTE] ++ escape s ++ [QUOTE] else s.
(** The effect of printing [s.c_str()] with %s: everything up to the first NUL *)
Fixpoint c_str (s : list byte) : list byte := match s with [] => [] | c :: s' => if c =? NUL then [] else c :: c_str s' end.
(** The effect of printing an integer in decimal *)
Fixpoint dec_digits (fuel : nat) (n : Z) (acc : list byte) : list byte :=
  match fuel with
  | 0 => acc
  | S f => let acc := (48 + Z.to_nat (n mod 10)) :: acc in if (n <? 10)%Z then acc else dec_digits f (n / 10)%Z acc
  end.
Definition print_dec (z : Z) : list byte :=
  if (z <? 0)%Z then 45 :: dec_digits (S (Z.to_nat (Z.log2 (- z)))) (- z) [] else dec_digits (S (Z.to_nat (Z.log2 z))) z [].

(** WriteCsv.h 95-120: WriteCsv<DenseMatrix>; [pr] is what fprintf writes for one value *)
Definition write_csv {V} (pr : V -> list byte) (a : dmat V) : outcome (list byte) :=
  for_up 0 (m_rows a) (fun i out =>
    for_up 0 (m_cols a) (fun j out =>
      let* v := rd (m_buf a) (m_off a + i * m_skip a + j) in
      Ok (out ++ pr v ++ (if decide (j < m_cols a - 1) then [COMMA] else [LF]))) out) [].
(** WriteCsv.h 107 *)
Definition print_str (s : list byte) : list byte := c_str (quote_if s).
(** WriteCsv.h 109-112: %ld for int64_t; %d for the other integer types, which reads 32 bits of a uint64_t argument *)
Definition print_ld (z : Z) : list byte := print_dec z.
Definition int32 (z : Z) : Z := ((z + 2 ^ 31) mod 2 ^ 32 - 2 ^ 31)%Z.
Definition print_d (z : Z) : list byte := print_dec (int32 z).

(** * Reading *)
(** File.h 79-85 getFileLine: getline delivers the file line by line, each with its line feed *)
Definition line := list byte.
Fixpoint lines_of (bs : list byte) : list line :=
  match bs with
  | [] => []
  | c :: bs' => if c =? LF then [c] :: lines_of bs' else match lines_of bs' with [] => [[c]] | l :: ls => (c :: l) :: ls end
  end.
(** A position in the current line: the rest of the line ([Some []] is the terminating NUL) or [None] if it is behind the terminating NUL. *)
Definition adv (p : line) : option line := match p with [] => None | _ :: l => Some l end.

(** utils.h 100-126: the loop of setCString for a field that starts with a quote. If there is no further line, getFileLine leaves the
    contents of the buffer unspecified. *)
Fixpoint read_quoted (ls : list line) : line -> list byte -> outcome (list byte * line * list line) :=
  fix inner (cur : line) (acc : list byte) : outcome (list byte * line * list line) :=
    match cur with
    | [] => Ok (acc, cur, ls)
    | c :: cur1 =>
        if c =? NUL then Ok (acc, cur, ls) else
        if c =? QUOTE then match cur1 with
                           | d :: cur2 => if d =? QUOTE then inner cur2 (acc ++ [QUOTE]) else Ok (acc, cur, ls)
                           | [] => Ok (acc, cur, ls)
                           end
        else if (c =? BSL) && match cur1 with d :: _ => d =? QUOTE | [] => false end then match cur1 with _ :: cur2 => inner cur2 (acc ++ [BSL; QUOTE]) | [] => UB end
        else if (c =? LF) || (c =? CR) then match ls with [] => UB | l :: ls' => read_quoted ls' l (acc ++ [LF]) end
        else inner cur1 (acc ++ [c])
    end.
(** utils.h 100-126 for a field that does not start with a quote *)
Fixpoint read_plain (delim : byte) (cur : line) (acc : list byte) : list byte * line :=
  match cur with
  | [] => (acc, cur)
  | c :: cur1 => if (c =? NUL) || (c =? delim) || (c =? LF) || (c =? CR) then (acc, cur) else read_plain delim cur1 (acc ++ [c])
  end.
(** utils.h 93-135: setCString; the results are the string, the position and the remaining lines *)
Definition set_cstring (delim : byte) (ls : list line) (cur : line) : outcome (list byte * option line * list line) :=
  match cur with
  | c :: cur1 => if c =? QUOTE then let* (v, p, ls) := read_quoted ls cur1 [] in Ok (v, adv p, ls)
                 else let '(v, p) := read_plain delim cur [] in Ok (v, Some p, ls)
  | [] => Ok ([], Some [], ls)
  end.
(** ReadCsvFile.h 126-158: ReadCsvFile<DenseMatrix<std::string>>; [cell++] is r * numCols + c *)
Definition read_csv_str (delim : byte) (junk : nat -> list (list byte)) (file : list byte) (n m : nat) : outcome (dmat (list byte)) :=
  if decide (n <= 0) then Throw else if decide (m <= 0) then Throw else
  let* s := for_up 0 n (fun r (s : list line * list (list byte)) =>
    match fst s with
    | [] => Throw
    | l :: ls =>
        let* t := for_up 0 m (fun c (t : option line * list line * list (list byte)) =>
          let '(pos, ls, b) := t in
          match pos with
          | None => UB
          | Some cur =>
              let* (v, p, ls) := set_cstring delim ls cur in
              let* b := wr b (r * m + c) v in
              Ok (match p with Some p => adv p | None => None end, ls, b)
          end) (Some l, ls, snd s) in
        let '(_, ls, b) := t in Ok (ls, b)
    end) (lines_of file, junk (n * m)) in
  Ok (mkDM (snd s) 0 n m m).

(** utils.h 66-71: atoi; values outside of int are undefined behaviour *)
Definition is_space (c : byte) : bool := (c =? 32) || ((9 <=? c) && (c <=? 13)).
Definition is_digit (c : byte) : bool := (48 <=? c) && (c <=? 57).
Fixpoint digits_val (bs : list byte) (a : Z) : Z := match bs with c :: bs' => if is_digit c then digits_val bs' (10 * a + (Z.of_nat c - 48))%Z else a | [] => a end.
Fixpoint skip_space (bs : list byte) : list byte := match bs with c :: bs' => if is_space c then skip_space bs' else bs | [] => [] end.
Definition atoi (bs : list byte) : outcome Z :=
  let v := match skip_space bs with
           | c :: bs' => if c =? 45 then (- digits_val bs' 0)%Z else if c =? 43 then digits_val bs' 0 else digits_val (c :: bs') 0
           | [] => 0%Z
           end in
  if decide (- 2 ^ 31 <= v < 2 ^ 31)%Z then Ok v else UB.
(** ReadCsvFile.h 115-117: while (file->line[pos] != delim) pos++; pos++ *)
Fixpoint skip_field (delim : byte) (cur : line) : outcome line :=
  match cur with [] => UB | c :: cur' => if c =? delim then Ok cur' else skip_field delim cur' end.
(** ReadCsvFile.h 79-123: ReadCsvFile<DenseMatrix<VT>> for integers; [conv] is the conversion of int to VT *)
Definition read_csv_int (conv : Z -> Z) (delim : byte) (junk : nat -> list Z) (file : list byte) (n m : nat) : outcome (dmat Z) :=
  if decide (n <= 0) then Throw else if decide (m <= 0) then Throw else
  let* s := for_up 0 n (fun r (s : list line * list Z) =>
    match fst s with
    | [] => Throw
    | l :: ls =>
        let* t := for_up 0 m (fun c (t : line * list Z) =>
          let* v := atoi (fst t) in
          let* b := wr (snd t) (r * m + c) (conv v) in
          if decide (c < m - 1) then let* cur := skip_field delim (fst t) in Ok (cur, b) else Ok (fst t, b)) (l, snd s) in
        Ok (ls, snd t)
    end) (lines_of file, junk (n * m)) in
  Ok (mkDM (snd s) 0 n m m).
