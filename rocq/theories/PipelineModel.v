(** Model of the execution of one task of a vectorized pipeline on dense matrices: src/runtime/local/vectorized/Tasks.h
    (createFuncInputs) and Tasks.cpp (CompiledPipelineTask<DenseMatrix>::execute, accumulateOutputs), and of EwBinaryMat.h applied
    in place, as used by the aggregating combines.
    Simplifications: one output (the outputs of a task are handled one after the other and independently); an input is the list of its
    rows; the compiled function is a parameter [body]; device execution is not modelled. A task does not change the shared result
    directly: it produces the list of its element assignments, so that the assignments of several tasks can be interleaved. *)
From stdpp Require Import base numbers list.
From Coq Require Import Lia.
From Verif Require Import CppBase Mem DenseModel.

(** An input with its VectorSplit (true: ROWS, false: NONE). *)
Record pinput (V : Type) := mkPI { pi_split : bool; pi_rows : list (list V) }.
Arguments mkPI {V}. Arguments pi_split {V}. Arguments pi_rows {V}.
Inductive combine := CRows | CCols.

Section pipe.
Context {V : Type}.
(** Tasks.h 86-88: isBroadcast. *)
Definition is_broadcast (i : pinput V) : bool := negb (pi_split i) || bool_decide (length (pi_rows i) = 1).
(** Tasks.h 90-113: createFuncInputs, one input. sliceRow validates its range (DenseMatrix.cpp 31-60). *)
Definition func_input (r r2 : nat) (i : pinput V) : outcome (list (list V)) :=
  if is_broadcast i then Ok (pi_rows i)
  else if bad_range (Z.of_nat r) (Z.of_nat r2) (length (pi_rows i)) then Throw
  else Ok (take (r2 - r) (drop r (pi_rows i))).
Fixpoint func_inputs (r r2 : nat) (ins : list (pinput V)) : outcome (list (list (list V))) :=
  match ins with
  | [] => Ok []
  | i :: ins' => let* x := func_input r r2 i in let* xs := func_inputs r r2 ins' in Ok (x :: xs)
  end.

(** Tasks.cpp 92-123: accumulateOutputs for ROWS and COLS; the result is an n x m matrix (_offset is 0: MTWrapper_dense.cpp 72).
    The std::copy calls are listed as assignments (position, value). *)
Definition batch_writes (cb : combine) (n m : nat) (r r2 : nat) (lres : dmat V) : outcome (list (nat * V)) :=
  let* h := match cb with
            | CRows => dm_sliceRow (dm_new n m) (Z.of_nat r) (Z.of_nat r2)
            | CCols => dm_sliceCol (dm_new n m) (Z.of_nat r) (Z.of_nat r2)
            end in
  for2 (d_rows h) (d_cols h) (fun i j ws =>
    let* v := rd (m_buf lres) (m_off lres + i * m_skip lres + j) in Ok (ws ++ [(dm_start h + i * d_skip h + j, v)])) [].

(** Tasks.cpp 29-49: the loop over the batches of one task. The number of iterations is bounded by [fuel]; with a batch size of at
    least 1 the task's number of rows is enough. *)
Fixpoint task_loop (body : list (list (list V)) -> outcome (dmat V)) (cb : combine) (n m : nat) (ins : list (pinput V)) (bs : nat)
    (fuel r ru : nat) : outcome (list (nat * V)) :=
  if decide (r < ru) then
    match fuel with
    | 0 => UB
    | S fuel' =>
        let r2 := Nat.min (r + bs) ru in
        let* linputs := func_inputs r r2 ins in
        let* lres := body linputs in
        let* ws := batch_writes cb n m r r2 lres in
        let* rest := task_loop body cb n m ins bs fuel' (r + bs) ru in
        Ok (ws ++ rest)
    end
  else Ok [].
Definition task_writes (body : list (list (list V)) -> outcome (dmat V)) (cb : combine) (n m : nat) (ins : list (pinput V)) (bs : nat)
    (task : nat * nat) : outcome (list (nat * V)) :=
  task_loop body cb n m ins bs (snd task - fst task) (fst task) (snd task).
(** The assignments of each of several tasks. *)
Fixpoint all_writes (body : list (list (list V)) -> outcome (dmat V)) (cb : combine) (n m : nat) (ins : list (pinput V)) (bs : nat)
    (ts : list (nat * nat)) : outcome (list (list (nat * V))) :=
  match ts with
  | [] => Ok []
  | t :: ts' => let* ws := task_writes body cb n m ins bs t in let* wss := all_writes body cb n m ins bs ts' in Ok (ws :: wss)
  end.
(** Executing assignments on the shared result. *)
Fixpoint write_all (b : list V) (ws : list (nat * V)) : outcome (list V) :=
  match ws with [] => Ok b | (p, v) :: ws' => let* b' := wr b p v in write_all b' ws' end.

(** EwBinaryMat.h 73-81 with res = lhs: both operands of the same size. (The broadcasting cases, 82-99, do not arise here; other
    shapes throw.) *)
Definition ew_inplace (op : V -> V -> V) (res rhs : dmat V) : outcome (dmat V) :=
  if decide (m_rows res = m_rows rhs /\ m_cols res = m_cols rhs) then
    let* b := for2 (m_rows res) (m_cols res) (fun r c b =>
                let* x := rd b (m_off res + r * m_skip res + c) in
                let* y := rd (m_buf rhs) (m_off rhs + r * m_skip rhs + c) in
                wr b (m_off res + r * m_skip res + c) (op x y)) (m_buf res) in
    Ok (mkDM b (m_off res) (m_rows res) (m_cols res) (m_skip res))
  else Throw.
(** Tasks.cpp 124-153: accumulateOutputs for ADD, MIN, MAX: [acc] is localAggRes (None: nullptr). *)
Definition acc_agg (op : V -> V -> V) (acc : option (dmat V)) (lres : dmat V) : outcome (dmat V) :=
  match acc with None => Ok lres | Some a => ew_inplace op a lres end.
(** Tasks.cpp 29-49 for an aggregating combine. *)
Fixpoint agg_loop (body : list (list (list V)) -> outcome (dmat V)) (op : V -> V -> V) (ins : list (pinput V)) (bs : nat)
    (fuel r ru : nat) (acc : option (dmat V)) : outcome (option (dmat V)) :=
  if decide (r < ru) then
    match fuel with
    | 0 => UB
    | S fuel' =>
        let* linputs := func_inputs r (Nat.min (r + bs) ru) ins in
        let* lres := body linputs in
        let* acc' := acc_agg op acc lres in
        agg_loop body op ins bs fuel' (r + bs) ru (Some acc')
    end
  else Ok acc.
(** Tasks.cpp 51-82: the locked update of the shared result (None: nullptr). A task without rows has no local result: EwBinaryMat
    would dereference a null pointer. *)
Definition task_agg (body : list (list (list V)) -> outcome (dmat V)) (op : V -> V -> V) (ins : list (pinput V)) (bs : nat)
    (res : option (dmat V)) (task : nat * nat) : outcome (option (dmat V)) :=
  let* loc := agg_loop body op ins bs (snd task - fst task) (fst task) (snd task) None in
  match res with
  | None => Ok loc
  | Some a => match loc with Some l => let* a' := ew_inplace op a l in Ok (Some a') | None => UB end
  end.
(** The tasks update the result one after the other (the lock is held during the update), in the order [ts]. *)
Fixpoint run_agg (body : list (list (list V)) -> outcome (dmat V)) (op : V -> V -> V) (ins : list (pinput V)) (bs : nat)
    (res : option (dmat V)) (ts : list (nat * nat)) : outcome (option (dmat V)) :=
  match ts with [] => Ok res | t :: ts' => let* res' := task_agg body op ins bs res t in run_agg body op ins bs res' ts' end.
End pipe.
