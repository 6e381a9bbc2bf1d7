(** Model of reading sparse matrices from coordinate files: src/runtime/local/io/ReadCsvFile.h 197-288, on top of the model of CSV files. *)
From stdpp Require Import base numbers list.
From Coq Require Import ZArith.
From Verif Require Import CppBase Mem CSRModel CsvModel.

(** utils.h 71: conversion of the int returned by atoi to uint64_t *)
Definition to_u64 (z : Z) : nat := Z.to_nat (z mod 2 ^ 64).

Section Coo.
  Context {V : Type} (one : V).
  (** ReadCsvFile.h 222-254: readCOOSorted *)
  Definition read_coo_sorted (delim : byte) (file : list byte) (n nnz : nat) (b : csrbuf V) : outcome (csrbuf V) :=
    let* ro := for_up 0 (n + 1) (fun i ro => wr ro i 0) (broff b) in
    let* s := for_up 0 nnz (fun i (s : list line * list nat * list nat * list V) =>
      let '(ls, ro, cs, vs) := s in
      match ls with
      | [] => Throw
      | l :: ls =>
          let* row := atoi l in
          let* l1 := skip_field delim l in
          let* col := atoi l1 in
          let* k := rd ro (to_u64 row + 1) in
          let* ro := wr ro (to_u64 row + 1) (k + 1) in
          let* vs := wr vs i one in
          let* cs := wr cs i (to_u64 col) in
          Ok (ls, ro, cs, vs)
      end) (lines_of file, ro, bcols b, bvals b) in
    let '(_, ro, cs, vs) := s in
    let* ro := for_up 1 (n + 1) (fun r ro => let* x := rd ro r in let* y := rd ro (r - 1) in wr ro r (x + y)) ro in
    Ok (mkBuf vs cs ro).

  (** std::priority_queue of pairs with std::greater: pairs in ascending order *)
  Definition pair_le (p q : nat * nat) : bool := (fst p <? fst q) || ((fst p =? fst q) && (snd p <=? snd q)).
  Fixpoint emplace (p : nat * nat) (q : list (nat * nat)) : list (nat * nat) := match q with [] => [p] | x :: q' => if pair_le p x then p :: q else x :: emplace p q' end.
  (** ReadCsvFile.h 271-288: the loop over the queue and the loop that follows it. State: row offsets, columns, values, currValIdx, rowIdx *)
  Fixpoint pop_all (n m : nat) (q : list (nat * nat)) (ro cs : list nat) (vs : list V) (curr rowIdx : nat) : outcome (csrbuf V) :=
    match q with
    | (r, c) :: q' =>
        if decide (n <= r \/ m <= c) then Throw else
        let* ro := for_up rowIdx r (fun k ro => wr ro (k + 1) curr) ro in
        let* vs := wr vs curr one in
        let* cs := wr cs curr c in
        pop_all n m q' ro cs vs (curr + 1) (max rowIdx r)
    | [] =>
        let* ro := for_up rowIdx n (fun k ro => wr ro (k + 1) curr) ro in
        Ok (mkBuf vs cs ro)
    end.
  (** ReadCsvFile.h 256-290: readCOOUnsorted; the pairs are a matrix of uint64_t *)
  Definition read_coo_pairs (pairs : dmat Z) (n m : nat) (b : csrbuf V) : outcome (csrbuf V) :=
    let* q := for_up 0 (m_rows pairs) (fun r q => let* x := dm_at pairs r 0 in let* y := dm_at pairs r 1 in Ok (emplace (Z.to_nat x, Z.to_nat y) q)) [] in
    let* ro := wr (broff b) 0 0 in
    pop_all n m q ro (bcols b) (bvals b) 0 0.
  (** ReadCsvFile.h 197-219: the unsorted case of apply *)
  Definition read_coo_unsorted (delim : byte) (junk : nat -> list Z) (file : list byte) (n m nnz : nat) (b : csrbuf V) : outcome (csrbuf V) :=
    let* pairs := read_csv_int (fun z => (z mod 2 ^ 64)%Z) delim junk file nnz 2 in
    read_coo_pairs pairs n m b.
End Coo.
