(** Model of the row partitioning, result placement and result collection of the distributed runtime:
    src/runtime/distributed/coordinator/scheduling/LoadPartitioningDistributed.h and
    src/runtime/distributed/coordinator/kernels/{Distribute,DistributedCollect}.h.
    Not modelled: the transport (gRPC/MPI) itself; a message is taken to carry the worker's matrix unchanged (serialization is
    modelled separately), size_t arithmetic is over unbounded naturals (the products are bounded by the number of rows). *)
From stdpp Require Import base numbers list.
From Coq Require Import Lia.
From Verif Require Import CppBase Mem DenseModel.

(** src/runtime/local/datastructures/Range.h 22-27. *)
Record range := mkR { r_start : nat; c_start : nat; r_len : nat; c_len : nat }.

(** LoadPartitioningDistributed.h 68-85: CreateRange, DISTRIBUTE. [i] is taskIndex. *)
Definition create_range (rows cols workers i : nat) : range :=
  let k := rows / workers in
  let m := rows mod workers in
  mkR (i * k + i `min` m) 0 (((i + 1) * k + (i + 1) `min` m) - (i * k + i `min` m)) cols.
(** LoadPartitioningDistributed.h 103-137 (GetNextChunk), 53 (HasNextChunk): the loop of Distribute.h 58-60, 97-98. *)
Definition distribute_ranges (rows cols workers : nat) : list range := create_range rows cols workers <$> seq 0 workers.
(** Distribute.h 65, 107: sliceRow on every range (dense matrices; the matrix is not a view here). *)
Definition distribute_slices (rows cols workers : nat) : outcome (list dmh) :=
  foldr (fun rg acc => let* v := dm_sliceRow (dm_new rows cols) (Z.of_nat (r_start rg)) (Z.of_nat (r_start rg + r_len rg)) in
                       let* vs := acc in Ok (v :: vs)) (Ok []) (distribute_ranges rows cols workers).

(** VectorCombine (src/ir/daphneir/DaphneDialect / Daphne.td): how outputs are combined. *)
Inductive combine := ROWS | COLS | ADD | OTHER.

(** LoadPartitioningDistributed.h 139-196: SetOutputsMetadata for one output of size rows x cols; the loop over the workers
    carries the index [ix] (its row or column component). *)
Definition output_range (cb : combine) (rows cols workers ix : nat) : outcome range :=
  match cb with
  | ROWS => let k := rows / workers in let m := rows mod workers in
      let st := ix * k + ix `min` m in
      Ok (mkR st 0 (((ix + 1) * k + (ix + 1) `min` m) - st) cols)
  | COLS | ADD => let k := cols / workers in let m := cols mod workers in
      let st := ix * k + ix `min` m in
      Ok (mkR 0 st rows (((ix + 1) * k + (ix + 1) `min` m) - st))
  | OTHER => Throw
  end.
Fixpoint output_ranges_loop (cb : combine) (rows cols workers ix n : nat) : outcome (list range) :=
  match n with
  | 0 => Ok []
  | S n' => let* rg := output_range cb rows cols workers ix in
            let* rgs := output_ranges_loop cb rows cols workers (ix + 1) n' in Ok (rg :: rgs)
  end.
Definition output_ranges (cb : combine) (rows cols workers : nat) : outcome (list range) :=
  output_ranges_loop cb rows cols workers 0 workers.

Section collect.
Context {V : Type} (add : V -> V -> V).

(** DistributedCollect.h 101-106 (= 172-177, 235-240): copy the part of a worker into its place. The part is a contiguous matrix with
    [pcols] columns (freshly deserialized). *)
Definition place_part (res : list V) (rskip : nat) (rg : range) (part : list V) (pcols : nat) : outcome (list V) :=
  copy_block res (r_start rg * rskip + c_start rg) rskip part 0 pcols (r_len rg) (c_len rg).
(** ewBinaryMat(ADD, res, part, res) for two contiguous matrices of the same shape (EwBinaryMat.h 60-73). *)
Definition add_part (res part : list V) : outcome (list V) :=
  for_up 0 (length res) (fun i b => let* x := rd b i in let* y := rd part i in wr b i (add x y)) res.
Definition collect_one (cb : combine) (cols : nat) (res : list V) (rg : range) (part : list V) : outcome (list V) :=
  match cb with
  | ADD => add_part res part
  | _ => place_part res cols rg part (c_len rg)
  end.
(** DistributedCollect.h 151-185: the asynchronous gRPC loop over the responses, in arrival order. (The synchronous variant, 218-251,
    is this loop too, for writes to disjoint places or under the lock.) *)
Fixpoint collect_grpc (cb : combine) (cols : nat) (rgs : list range) (parts : nat -> list V) (res : list V) (order : list nat) : outcome (list V) :=
  match order with
  | [] => Ok res
  | w :: order' =>
      let* rg := rd rgs w in
      let* res' := collect_one cb cols res rg (parts w) in
      collect_grpc cb cols rgs parts res' order'
  end.
(** DistributedCollect.h 81-121: the MPI loop, which stops as soon as all cells have been counted; the counter
    (collectedDataItems, initialised with 0u) is a 32-bit integer. *)
Fixpoint collect_mpi (cb : combine) (rows cols : nat) (rgs : list range) (parts : nat -> list V) (res : list V) (items : N) (order : list nat) : outcome (list V) :=
  match order with
  | [] => Ok res
  | w :: order' =>
      let* rg := rd rgs w in
      let* res' := collect_one cb cols res rg (parts w) in
      let items' := ((items + N.of_nat (r_len rg * c_len rg)) mod 2 ^ 32)%N in
      if decide (items' = N.of_nat (rows * cols)) then Ok res' else collect_mpi cb rows cols rgs parts res' items' order'
  end.
End collect.
