(** Model of src/runtime/local/vectorized/WorkerCPU.h (WorkerCPU::run) with several task queues.
    Simplification: a queue operation (enqueueTask, dequeueTask, closeInput) is one atomic step and a dequeueTask on an
    empty open queue is simply not enabled; that the real queue behaves like this is what C04/C05 establish. *)
From stdpp Require Import base list.

Section WS.
Context {T : Type}.

(** LoadPartitioningDefs.h:21, enum VictimSelectionLogic. *)
Inductive victim := SEQ | SEQPRI | RANDOM | RANDOMPRI.

(** Per worker constants. [own]: lines 66-76, the queue the worker starts with ([startingQueue]).
    [dom q]: [_physical_ids[q] == currentDomain]. [percpu]: [_queueMode == PERCPU]. *)
Record wcfg := WCfg { own : nat; dom : nat -> bool; percpu : bool; policy : victim }.

(** Control point of a worker, with the local variables live there ([targetQueue] or [eofWorkers]). *)
Inductive pc :=
| POwn                       (* lines 78-88: own queue until EOF *)
| PSeqPri (q : nat)          (* lines 113-125: sequential, same domain only *)
| PSeq (q : nat)             (* lines 99-107 and 132-140: sequential over all queues *)
| PRandPri (e : list bool)   (* lines 171-184: random, same domain only *)
| PRand (e : list bool)      (* lines 145-158 and 191-204: random over all queues *)
| PStop                      (* line 211: run() returns *)
| PUB.                       (* access outside eofWorkers (an array of 256) *)

Record worker := Worker { wpc : pc; held : option T }.

(** The thread filling the queues (MTWrapper_dense.cpp:69-79, 131-198). *)
Inductive pop := PEnq (q : nat) (t : T) | PClose (q : nat).

Record queue := Queue { items : list T; qclosed : bool }.
Record state := State { prod : list pop; queues : list queue; workers : list worker; executed : list (nat * T) }.

(** Line 25: [std::array<bool, 256> eofWorkers]. *)
Definition no_eof : list bool := replicate 256 false.
(** [std::accumulate(eofWorkers.begin(), eofWorkers.end(), 0)] *)
Fixpoint count_true (e : list bool) : nat := match e with [] => 0 | true :: r => S (count_true r) | false :: r => count_true r end.

(** Lines 93-170: what follows the end of the own queue; [n] is [_numQueues]. *)
Definition after_own (n : nat) (c : wcfg) : pc :=
  if decide (1 < n) then
    match policy c with
    | SEQ => PSeq ((own c + 1) mod n)
    | SEQPRI => if percpu c then PSeqPri ((own c + 1) mod n) else PSeq ((own c + 1) mod n)
    | RANDOM => PRand no_eof
    | RANDOMPRI => if percpu c then PRandPri no_eof else PRand no_eof
    end
  else PStop.

(** What a worker does next: a local move, or dequeueTask on queue [q], continuing at [k] after the EOF marker and at
    the same point after executing a task. *)
Inductive action := Goto (p : pc) | DeqQ (q : nat) (k : pc).

(** Lines 162-169: queuesThisDomain. *)
Definition queues_this_domain (n : nat) (c : wcfg) : nat := count_true (dom c <$> seq 0 n).

(** One iteration of the current loop; [r] is the value of [rand()]. *)
Definition next (n : nat) (c : wcfg) (r : nat) (p : pc) : option action :=
  match p with
  | POwn => Some (DeqQ (own c) (after_own n c))
  | PSeqPri q =>
      if decide (q = own c) then Some (Goto (PSeq ((q + 1) mod n)))             (* 113, 130 *)
      else if dom c q then Some (DeqQ q (PSeqPri ((q + 1) mod n)))              (* 114-117 *)
      else Some (Goto (PSeqPri ((q + 1) mod n)))                                (* 123 *)
  | PSeq q =>
      if decide (q = own c) then Some (Goto PStop)                              (* 99, 132 *)
      else Some (DeqQ q (PSeq ((q + 1) mod n)))                                 (* 100-102, 133-135 *)
  | PRandPri e =>
      if decide (count_true e < queues_this_domain n c) then                    (* 171 *)
        let q := r mod n in
        if dom c q then
          match e !! q with
          | None => Some (Goto PUB)
          | Some true => Some (Goto (PRandPri e))
          | Some false => Some (DeqQ q (PRandPri (<[q := true]> e)))            (* 174-177 *)
          end
        else Some (Goto (PRandPri e))
      else Some (Goto (PRand e))
  | PRand e =>
      if decide (count_true e < n) then                                         (* 145, 191 *)
        let q := r mod n in
        match e !! q with
        | None => Some (Goto PUB)
        | Some true => Some (Goto (PRand e))
        | Some false => Some (DeqQ q (PRand (<[q := true]> e)))                 (* 147-152, 195-198 *)
        end
      else Some (Goto PStop)
  | PStop | PUB => None
  end.

Definition set_worker (s : state) (i : nat) (w : worker) : state :=
  State (prod s) (queues s) (<[i := w]> (workers s)) (executed s).

Inductive step (cfgs : list wcfg) : state -> state -> Prop :=
| st_enq q t p qu s :
    prod s = PEnq q t :: p -> queues s !! q = Some qu ->
    step cfgs s (State p (<[q := Queue (items qu ++ [t]) (qclosed qu)]> (queues s)) (workers s) (executed s))
| st_close q p qu s :
    prod s = PClose q :: p -> queues s !! q = Some qu ->
    step cfgs s (State p (<[q := Queue (items qu) true]> (queues s)) (workers s) (executed s))
| st_exec i p t s :
    workers s !! i = Some (Worker p (Some t)) ->
    step cfgs s (State (prod s) (queues s) (<[i := Worker p None]> (workers s)) (executed s ++ [(i, t)]))
| st_goto i c p r k s :
    workers s !! i = Some (Worker p None) -> cfgs !! i = Some c ->
    next (length (queues s)) c r p = Some (Goto k) ->
    step cfgs s (set_worker s i (Worker k None))
| st_got i c p r q k t l b s :
    workers s !! i = Some (Worker p None) -> cfgs !! i = Some c ->
    next (length (queues s)) c r p = Some (DeqQ q k) -> queues s !! q = Some (Queue (t :: l) b) ->
    step cfgs s (State (prod s) (<[q := Queue l b]> (queues s)) (<[i := Worker p (Some t)]> (workers s)) (executed s))
| st_eof i c p r q k s :
    workers s !! i = Some (Worker p None) -> cfgs !! i = Some c ->
    next (length (queues s)) c r p = Some (DeqQ q k) -> queues s !! q = Some (Queue [] true) ->
    step cfgs s (set_worker s i (Worker k None)).

Definition init (n : nat) (cfgs : list wcfg) (p : list pop) : state :=
  State p (replicate n (Queue [] false)) (replicate (length cfgs) (Worker POwn None)) [].

Inductive reachable (n : nat) (cfgs : list wcfg) (p : list pop) : state -> Prop :=
| re_init : reachable n cfgs p (init n cfgs p)
| re_step s s' : reachable n cfgs p s -> step cfgs s s' -> reachable n cfgs p s'.

(** *** Specification vocabulary *)
(** The tasks a producer program creates. *)
Definition tasks_of (p : list pop) : list T := omap (fun o => match o with PEnq _ t => Some t | _ => None end) p.
(** All queues exist, no queue gets a task after it was closed, and all [n] queues are closed (as in the engine, which
    closes all queues after enqueueing everything: MTWrapper_dense.cpp:196-198). *)
Definition well_formed (n : nat) (p : list pop) : Prop :=
  (forall q t, PEnq q t ∈ p -> q < n) /\ (forall q, PClose q ∈ p -> q < n) /\
  (forall q, q < n -> PClose q ∈ p) /\
  (forall pre post q t, p = pre ++ PClose q :: post -> PEnq q t ∉ post).
Definition all_stopped (s : state) : Prop := Forall (fun w => wpc w = PStop /\ held w = None) (workers s).
(** No queue holds a task, none will get one. *)
Definition drained (s : state) : Prop := Forall (fun qu => items qu = [] /\ qclosed qu = true) (queues s).
End WS.
Arguments worker : clear implicits.
Arguments state : clear implicits.
Arguments pop : clear implicits.
Arguments queue : clear implicits.
