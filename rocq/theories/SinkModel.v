(** Model of the collection of sparse results of vectorized tasks: src/runtime/local/vectorized/VectorizedDataSink.h, and of the
    execution of a task with a sparse output: Tasks.cpp 162-225 (CompiledPipelineTask<CSRMatrix>::execute).
    Simplifications: one output; [add] is atomic (it takes the lock of the sink, or the sink is local to the task); the heap of the
    priority queue is a list from which the element with the smallest start is taken (equal starts do not arise); the release of the
    collected parts is not modelled; sizes are natural numbers. *)
From stdpp Require Import base numbers list.
From Coq Require Import Lia.
From Verif Require Import CppBase Mem CSRModel PipelineModel.

Section sink.
Context {V : Type} `{Val V}.
Notation csr := (csrbuf V * csrh)%type.

(** VectorizedDataSink.h 36-45 *)
Record sink := mkSink {
  sk_combine : combine;
  sk_rows : nat;
  sk_cols : nat;
  sk_nnz : nat;
  sk_rownnz : list nat;
  sk_results : list (nat * csr)
}.
(** VectorizedDataSink.h 48-49 *)
Definition sink_new (cb : combine) (n m : nat) : sink := mkSink cb n m 0 (replicate n 0) [].

(** VectorizedDataSink.h 51-76: add. *)
Definition sink_add (s : sink) (mat : csr) (start : nat) : outcome sink :=
  let '(b, h) := mat in
  let* rn := match sk_combine s with
             | CCols => for_up 0 (h_rows h) (fun row rn =>
                          let* e := roff b h (row + 1) in let* o := roff b h row in
                          let* x := rd rn row in wr rn row (x + (e - o))) (sk_rownnz s)
             | CRows => Ok (sk_rownnz s)
             end in
  let* nnz := csr_nnz b h in
  Ok (mkSink (sk_combine s) (sk_rows s) (sk_cols s) (sk_nnz s + nnz) rn (sk_results s ++ [(start, mat)])).

(** std::priority_queue with std::greater: top and pop. *)
Fixpoint pq_pop {A} (l : list (nat * A)) : option ((nat * A) * list (nat * A)) :=
  match l with
  | [] => None
  | x :: l' => match pq_pop l' with
               | None => Some (x, [])
               | Some (y, r) => if decide (fst x <= fst y) then Some (x, l') else Some (y, x :: r)
               end
  end.
(** while(!_results.empty()) { top; pop; body } *)
Fixpoint pq_loop {A St} (fuel : nat) (l : list (nat * A)) (f : nat * A -> St -> outcome St) (st : St) : outcome St :=
  match fuel with
  | 0 => Ok st
  | S fuel' => match pq_pop l with None => Ok st | Some (x, l') => let* st' := f x st in pq_loop fuel' l' f st' end
  end.

(** VectorizedDataSink.h 88-103: one part, row-wise. *)
Definition consume_row_part (p : nat * csr) (res : csrbuf V) : outcome (csrbuf V) :=
  let '(rowStart, (b, h)) := p in
  let* ro := for_up 0 (h_rows h) (fun row ro =>
               let* o := rd ro rowStart in let* x := roff b h (row + 1) in wr ro (rowStart + row + 1) (o + x)) (broff res) in
  let* nnz := csr_nnz b h in
  let* o := rd ro rowStart in
  let* cs := copy_range (bcols res) o (bcols b) 0 nnz in
  let* vs := copy_range (bvals res) o (bvals b) 0 nnz in
  Ok (mkBuf vs cs ro).
(** VectorizedDataSink.h 106-111: row offsets, column-wise; rowNnz becomes the next position of each row. *)
Definition consume_col_offsets (n : nat) (st : list nat * list nat) : outcome (list nat * list nat) :=
  for_up 0 n (fun row st =>
    let '(ro, rn) := st in
    let* o := rd ro row in let* x := rd rn row in
    let* ro := wr ro (row + 1) (o + x) in
    let* o := rd ro row in
    let* rn := wr rn row o in Ok (ro, rn)) st.
(** VectorizedDataSink.h 122-131: one row of one part, column-wise. *)
Definition consume_col_row (colStart : nat) (b : csrbuf V) (h : csrh) (row : nat) (st : list nat * list V * list nat) : outcome (list nat * list V * list nat) :=
  let '(cs, vs, rn) := st in
  let* offset := roff b h row in
  let* e := roff b h (row + 1) in
  let len := e - offset in
  let* p := rd rn row in
  let* vs := copy_range vs p (bvals b) offset len in
  let* cs := for_up 0 len (fun i cs => let* c := rd (bcols b) (offset + i) in wr cs (p + i) (colStart + c)) cs in
  let* rn := wr rn row (p + len) in
  Ok (cs, vs, rn).
(** VectorizedDataSink.h 113-133: one part, column-wise. *)
Definition consume_col_part (p : nat * csr) (st : list nat * list V * list nat) : outcome (list nat * list V * list nat) :=
  let '(colStart, (b, h)) := p in for_up 0 (h_rows h) (consume_col_row colStart b h) st.

(** VectorizedDataSink.h 78-141: consume. [alloc] gives the contents of the newly allocated arrays of the result. *)
Definition sink_consume (alloc : nat -> nat -> csrbuf V) (s : sink) : outcome csr :=
  if decide (sk_results s = []) then Throw else
  let res := alloc (sk_rows s) (sk_nnz s) in
  let h := mkH 0 (sk_rows s) (sk_cols s) (sk_rows s) false (sk_nnz s) 0 in
  let* ro := wr (broff res) 0 0 in
  match sk_combine s with
  | CRows => let* b := pq_loop (length (sk_results s)) (sk_results s) consume_row_part (mkBuf (bvals res) (bcols res) ro) in Ok (b, h)
  | CCols =>
      let* (ro, rn) := consume_col_offsets (sk_rows s) (ro, sk_rownnz s) in
      let* (cs, vs, rn) := pq_loop (length (sk_results s)) (sk_results s) consume_col_part (bcols res, bvals res, rn) in
      Ok (mkBuf vs cs ro, h)
  end.

(** Adding the parts one after the other, in the order in which they arrive. *)
Fixpoint sink_adds (s : sink) (parts : list (nat * csr)) : outcome sink :=
  match parts with [] => Ok s | (start, mat) :: parts' => let* s' := sink_add s mat start in sink_adds s' parts' end.

(** Tasks.cpp 195-220: the loop over the batches of one task. *)
Fixpoint stask_loop (body : list (list (list V)) -> outcome csr) (ins : list (pinput V)) (bs : nat) (rl : nat) (fuel r ru : nat) (s : sink) : outcome sink :=
  if decide (r < ru) then
    match fuel with
    | 0 => UB
    | S fuel' =>
        let* linputs := func_inputs r (Nat.min (r + bs) ru) ins in
        let* lres := body linputs in
        let* s' := sink_add s lres (r - rl) in
        stask_loop body ins bs rl fuel' (r + bs) ru s'
    end
  else Ok s.
(** Tasks.cpp 162-225: execute. [w]: the number of columns (ROWS) or rows (COLS) of the whole result. *)
Definition stask (alloc : nat -> nat -> csrbuf V) (body : list (list (list V)) -> outcome csr) (cb : combine) (w : nat) (ins : list (pinput V)) (bs : nat)
    (task : nat * nat) : outcome csr :=
  let s0 := match cb with CRows => sink_new cb (snd task - fst task) w | CCols => sink_new cb w (snd task - fst task) end in
  let* s := stask_loop body ins bs (fst task) (snd task - fst task) (fst task) (snd task) s0 in
  sink_consume alloc s.
(** The tasks [ts], in the order in which they deliver their results to the result sink. *)
Fixpoint stasks (alloc : nat -> nat -> csrbuf V) (body : list (list (list V)) -> outcome csr) (cb : combine) (w : nat) (ins : list (pinput V)) (bs : nat)
    (ts : list (nat * nat)) (s : sink) : outcome sink :=
  match ts with
  | [] => Ok s
  | t :: ts' => let* mat := stask alloc body cb w ins bs t in let* s' := sink_add s mat (fst t) in stasks alloc body cb w ins bs ts' s'
  end.
Definition srun (alloc : nat -> nat -> csrbuf V) (body : list (list (list V)) -> outcome csr) (cb : combine) (n w : nat) (ins : list (pinput V)) (bs : nat)
    (ts : list (nat * nat)) : outcome csr :=
  let* s := stasks alloc body cb w ins bs ts (match cb with CRows => sink_new cb n w | CCols => sink_new cb w n end) in
  sink_consume alloc s.
End sink.
Arguments sink V : clear implicits.
