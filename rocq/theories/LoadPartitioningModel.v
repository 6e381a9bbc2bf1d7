(** Model of src/runtime/local/vectorized/LoadPartitioning.h (class LoadPartitioning)
    and of the task-creation loops in MTWrapper_dense.cpp / MTWrapper_sparse.cpp. *)
From Coq Require Import NArith ZArith List Lia.
Import ListNotations.
Local Open Scope N_scope.

(** uint64_t arithmetic wraps modulo 2^64. *)
Definition two64 : N := 18446744073709551616.
Definition wrap64 (x : N) : N := x mod two64.
(** unsigned subtraction [a - b] on uint64_t (both operands < 2^64). *)
Definition usub64 (a b : N) : N := if b <=? a then a - b else two64 + a - b.

(** LoadPartitioningDefs.h:23-38, enum class SelfSchedulingScheme. *)
Inductive scheme :=
| INVALID | STATIC | SS | GSS | TSS | FAC2 | TFSS | FISS | VISS | PLS | PSS | MSTATIC | MFSC | AUTO.

(** The formulas of LoadPartitioning.h that go through [double] (division, [ceil], [pow], [log], [log2]) and are
    then converted back to an integer. They are left abstract: each field may return any number. Every theorem about
    chunks is proved for all of them, hence for whatever the floating-point unit and libm (and, where the C++
    conversion is undefined behaviour because the value is NaN or out of range, whatever the machine) produce.
    The arguments are the integer variables the formula reads. *)
Record float_formulas := {
  ff_stages : N -> N -> N;              (* lines 40-51,55: getStages(tasks, workers) *)
  ff_mfsc : N -> N -> N;                (* lines 56-57: totalTasks, workers *)
  ff_auto : N -> N -> N;                (* lines 63-64: totalTasks, workers *)
  ff_tssChunk : N -> N -> N;            (* line 74: totalTasks, totalWorkers *)
  ff_tssDelta : N -> N -> N;            (* lines 75-76: totalTasks, tssChunk *)
  ff_gss : N -> N -> N;                 (* line 93: remainingTasks, totalWorkers *)
  ff_fac2 : N -> N -> N;                (* line 102: actualStep, totalTasks / totalWorkers *)
  ff_tfss : N -> N -> N;                (* line 106: remainingTasks, totalWorkers *)
  ff_initChunk : N -> N -> N -> N;      (* lines 112,122: totalTasks, fissStages, totalWorkers *)
  ff_fissInc : N -> N -> N -> N;        (* lines 114-116: totalTasks, fissStages, totalWorkers *)
  ff_vissFac : N -> N;                  (* line 123: schedulingStepnew *)
  ff_plsDynamic : N -> N -> bool;       (* line 129: remainingTasks > totalTasks - totalTasks * SWR *)
  ff_plsStatic : N -> N -> N;           (* line 130: totalTasks, totalWorkers *)
  ff_pss : N -> N -> N;                 (* line 140: remainingTasks, totalWorkers *)
  ff_mstatic : N -> N                   (* line 150: totalTasks / totalWorkers, divided by 4.0, ceil *)
}.

(** LoadPartitioning.h:27-38, the data members. *)
Record lp := mkLP {
  lp_scheme : scheme;
  lp_total : N;
  lp_chunkParam : N;
  lp_scheduled : N;
  lp_remaining : N;
  lp_workers : N;
  lp_step : N;
  lp_tssChunk : N;
  lp_tssDelta : N;
  lp_mfscChunk : N;
  lp_fissStages : N
}.

Section WithFloat.
Variable ff : float_formulas.

(** LoadPartitioning.h:54-77, the constructor. Line 65 assigns the local parameter [method], not the member
    [schedulingMethod], so the stored scheme is unchanged. Line 66-68 makes the automatic chunk at least 1. *)
Definition lp_init (method : scheme) (tasks chunk workers : N) (autoChunk : bool) : lp :=
  let tssC := ff_tssChunk ff tasks workers in
  let auto := ff_auto ff tasks workers in
  {| lp_scheme := method;
     lp_total := tasks;
     lp_chunkParam := if autoChunk then (if auto <? 1 then 1 else auto) else chunk;
     lp_scheduled := 0;
     lp_remaining := tasks;
     lp_workers := workers;
     lp_step := 0;
     lp_tssChunk := tssC;
     lp_tssDelta := ff_tssDelta ff tasks tssC;
     lp_mfscChunk := ff_mfsc ff tasks workers;
     lp_fissStages := ff_stages ff tasks workers |}.

(** LoadPartitioning.h:79 *)
Definition hasNextChunk (s : lp) : bool := lp_scheduled s <? lp_total s.

(** Integer division of the C++; division by zero is undefined behaviour, hence [None]. *)
Definition cdiv (a b : N) : option N := if b =? 0 then None else Some (a / b).

Definition omap {A B} (f : A -> B) (o : option A) : option B :=
  match o with Some a => Some (f a) | None => None end.

(** LoadPartitioning.h:82-153, the switch computing the raw chunk size. *)
Definition rawChunk (s : lp) : option N :=
  match lp_scheme s with
  | STATIC => cdiv (lp_total s) (lp_workers s)                                           (* 85 *)
  | SS => Some 1                                                                         (* 89 *)
  | GSS => Some (ff_gss ff (lp_remaining s) (lp_workers s))                              (* 93 *)
  | TSS => Some (usub64 (lp_tssChunk s mod two64) (wrap64 (lp_tssDelta s * lp_step s)))  (* 97 *)
  | FAC2 => match cdiv (lp_step s) (lp_workers s), cdiv (lp_total s) (lp_workers s) with (* 101-102 *)
            | Some st, Some q => Some (ff_fac2 ff st q)
            | _, _ => None
            end
  | TFSS => Some (ff_tfss ff (lp_remaining s) (lp_workers s))                            (* 106 *)
  | FISS => Some (wrap64 (ff_initChunk ff (lp_total s) (lp_fissStages s) (lp_workers s)
                          + wrap64 (lp_step s * ff_fissInc ff (lp_total s) (lp_fissStages s) (lp_workers s)))) (* 111-116 *)
  | VISS => omap (fun st => wrap64 (ff_initChunk ff (lp_total s) (lp_fissStages s) (lp_workers s)
                                    * ff_vissFac ff st))
                 (cdiv (lp_step s) (lp_workers s))                                       (* 121-123 *)
  | PLS => if ff_plsDynamic ff (lp_remaining s) (lp_total s)
           then Some (ff_plsStatic ff (lp_total s) (lp_workers s))                       (* 129-130 *)
           else Some (ff_gss ff (lp_remaining s) (lp_workers s))                         (* 132 *)
  | PSS => Some (ff_pss ff (lp_remaining s) (lp_workers s))                              (* 139-140 *)
  | MFSC => Some (lp_mfscChunk s)                                                        (* 145 *)
  | MSTATIC | INVALID | AUTO => omap (ff_mstatic ff) (cdiv (lp_total s) (lp_workers s))  (* 148-151 *)
  end.

(** LoadPartitioning.h:81-160. Returns the chunk and the new state; [None] = undefined behaviour. *)
Definition getNextChunk (s : lp) : option (N * lp) :=
  match rawChunk s with
  | None => None
  | Some raw =>
      let c1 := N.max raw (lp_chunkParam s) in                                           (* 154 *)
      let c := N.min c1 (lp_remaining s) in                                              (* 155 *)
      Some (c, {| lp_scheme := lp_scheme s; lp_total := lp_total s; lp_chunkParam := lp_chunkParam s;
                  lp_scheduled := wrap64 (lp_scheduled s + c);                           (* 157 *)
                  lp_remaining := usub64 (lp_remaining s) c;                             (* 158 *)
                  lp_workers := lp_workers s;
                  lp_step := lp_step s + 1;                                              (* 156 *)
                  lp_tssChunk := lp_tssChunk s; lp_tssDelta := lp_tssDelta s;
                  lp_mfscChunk := lp_mfscChunk s; lp_fissStages := lp_fissStages s |})
  end.

(** Result of running a loop of the C++. *)
Inductive outcome (A : Type) :=
| Done (a : A)
| UB              (* undefined behaviour, e.g. division by zero *)
| OutOfFuel.      (* the loop has not ended within the given number of iterations *)
Global Arguments Done {A} a.
Global Arguments UB {A}.
Global Arguments OutOfFuel {A}.

(** A user of the class: [while (lp.hasNextChunk()) use(lp.getNextChunk());] *)
Fixpoint allChunks (fuel : nat) (s : lp) : outcome (list N) :=
  if hasNextChunk s then
    match fuel with
    | O => OutOfFuel
    | S f => match getNextChunk s with
             | None => UB
             | Some (c, s') => match allChunks f s' with
                               | Done l => Done (c :: l)
                               | o => o
                               end
             end
    end
  else Done [].

(** A task covers the rows [start, end). *)
Definition range : Type := N * N.

(** MTWrapper_dense.cpp:59-76 (also 140-149,153-161): the loop that turns chunks in tasks.
    Returns the created tasks and the final value of startChunk (= endChunk). *)
Fixpoint createTasks (fuel : nat) (s : lp) (startChunk endChunk : N) : outcome (list range * N) :=
  if hasNextChunk s then
    match fuel with
    | O => OutOfFuel
    | S f => match getNextChunk s with
             | None => UB
             | Some (c, s') =>
                 let endChunk' := wrap64 (endChunk + c) in
                 match createTasks f s' endChunk' endChunk' with
                 | Done (l, e) => Done ((startChunk, endChunk') :: l, e)
                 | UB => UB
                 | OutOfFuel => OutOfFuel
                 end
             end
    end
  else Done ([], endChunk).

(** MTWrapper_dense.cpp:62-64 / 127-129 / sparse 72-74: [int chunkParam = minimumTaskSize; if (chunkParam <= 0) chunkParam = 1]. *)
Definition effChunkParam (minimumTaskSize : Z) : N :=
  if (minimumTaskSize <=? 0)%Z then 1 else Z.to_N minimumTaskSize.

(** MTWrapper_dense.cpp:66-67 *)
Definition isAuto (sch : scheme) : bool := match sch with AUTO => true | _ => false end.

(** MTWrapper_dense.cpp:58-77 (executeSingleQueue): contents of the single queue. *)
Definition singleQueueTasks (fuel : nat) (sch : scheme) (len : N) (minTask : Z) (threads : N) : outcome (list range) :=
  match createTasks fuel (lp_init sch len (effChunkParam minTask) threads (isAuto sch)) 0 0 with
  | Done (l, _) => Done l
  | UB => UB
  | OutOfFuel => OutOfFuel
  end.

(** Append [t] to queue number [q] of a list of queues ([qvector[q]->enqueueTask(t)]); [None] if there is no such queue. *)
Fixpoint enq {T} (qs : list (list T)) (q : nat) (t : T) : option (list (list T)) :=
  match qs, q with
  | [], _ => None
  | x :: r, O => Some ((x ++ [t]) :: r)
  | x :: r, S q' => omap (cons x) (enq r q' t)
  end.

(** MTWrapper_dense.cpp:165-194 (executeCpuQueues without prePartitionRows): round robin. *)
Fixpoint roundRobin (fuel : nat) (s : lp) (startChunk endChunk itr numQueues : N) (qs : list (list range))
  : outcome (list (list range)) :=
  if hasNextChunk s then
    match fuel with
    | O => OutOfFuel
    | S f => match getNextChunk s with
             | None => UB
             | Some (c, s') =>
                 let endChunk' := wrap64 (endChunk + c) in
                 if numQueues =? 0 then UB else
                 let target := itr mod numQueues in
                 match enq qs (N.to_nat target) (startChunk, endChunk') with
                 | None => UB
                 | Some qs' => roundRobin f s' endChunk' endChunk' (itr + 1) numQueues qs'
                 end
             end
    end
  else Done qs.

(** MTWrapper_dense.cpp:131-163 (executeCpuQueues with prePartitionRows): one partitioner per queue; the first one
    also gets the remainder. [i] queues are still to be filled. *)
Fixpoint prePartLoop (fuel : nat) (sch : scheme) (oneChunk : N) (chunkParam threads : N)
         (sizes : list N) (startChunk : N) : outcome (list (list range)) :=
  match sizes with
  | [] => Done []
  | sz :: r =>
      match createTasks fuel (lp_init sch sz chunkParam threads false) startChunk startChunk with
      | UB => UB
      | OutOfFuel => OutOfFuel
      | Done (l, e) => match prePartLoop fuel sch oneChunk chunkParam threads r e with
                       | Done ls => Done (l :: ls)
                       | o => o
                       end
      end
  end.

Definition prePartitioned (fuel : nat) (sch : scheme) (len : N) (chunkParam threads : N) (numQueues : nat)
  : outcome (list (list range)) :=
  if (numQueues =? 0)%nat then UB else
  let nq := N.of_nat numQueues in
  let oneChunk := len / nq in
  let remainder := len - oneChunk * nq in
  prePartLoop fuel sch oneChunk chunkParam threads
              ((oneChunk + remainder) :: repeat oneChunk (numQueues - 1)) 0.

(** MTWrapper_dense.cpp:122-195 (executeCpuQueues), MTWrapper_sparse.cpp:67-141. Pinning only changes the core a
    queue node is allocated on and is not modelled. *)
Definition cpuQueuesTasks (fuel : nat) (prePartitionRows : bool) (sch : scheme) (len : N) (minTask : Z)
           (threads : N) (numQueues : nat) : outcome (list (list range)) :=
  let chunkParam := effChunkParam minTask in
  if prePartitionRows
  then prePartitioned fuel sch len chunkParam threads numQueues
  else roundRobin fuel (lp_init sch len chunkParam threads (isAuto sch)) 0 0 0 (N.of_nat numQueues)
                  (repeat [] numQueues).

End WithFloat.
