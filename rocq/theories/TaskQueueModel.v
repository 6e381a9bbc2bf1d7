(** Model of src/runtime/local/vectorized/TaskQueues.h (class BlockingTaskQueue) under an interleaving semantics. *)
From stdpp Require Import base list.

Section Queue.
Context {T : Type}.

(** What a client thread does with the queue:
    [Enq t]   enqueueTask(t)                                   TaskQueues.h:54-65
    [Close]   closeInput()                                     TaskQueues.h:99-104
    [Deq]     one dequeueTask()                                TaskQueues.h:76-90
    [DeqLoop] dequeueTask() until it returns the EOF marker    WorkerCPU.h:80-90 *)
Inductive op := Enq (t : T) | Close | Deq | DeqLoop.

(** Where a thread is: [Run] = about to lock the mutex for its next operation (also after a wake-up: it re-acquires the
    mutex and re-evaluates the loop condition); [Wait] = asleep in [_cv.wait(lk)]; [NotifyOne]/[NotifyAll] = has
    released the mutex and is about to call [_cv.notify_one()] (lines 64, 88) or [_cv.notify_all()] (line 103). *)
Inductive mode := Run | Wait | NotifyOne | NotifyAll.
Record thread := Thread { prog : list op; md : mode }.

(** Observable events, oldest first; the number is the thread. *)
Inductive event :=
| EvEnq (i : nat) (t : T)
| EvDeq (i : nat) (t : T)
| EvEof (i : nat)
| EvClose (i : nat).

(** The members [_data] and [_closedInput], the threads and the history. [_capacity] is constant. *)
Record state := State { data : list T; closed : bool; threads : list thread; trace : list event }.

Definition init (progs : list (list op)) : state :=
  State [] false ((fun p => Thread p Run) <$> progs) [].

(** One critical section (from locking [_qmutex] to unlocking it or sleeping) executed by thread [i]. *)
Definition critical (cap : nat) (i : nat) (s : state) : option state :=
  match threads s !! i with
  | Some (Thread (Enq t :: p) Run) =>
      if decide (cap < length (data s) + 1)
      then Some (State (data s) (closed s) (<[i := Thread (Enq t :: p) Wait]> (threads s)) (trace s))  (* 58-59 *)
      else Some (State (data s ++ [t]) (closed s) (<[i := Thread p NotifyOne]> (threads s))
                       (trace s ++ [EvEnq i t]))                                                       (* 61-62 *)
  | Some (Thread (Close :: p) Run) =>
      Some (State (data s) true (<[i := Thread p NotifyAll]> (threads s)) (trace s ++ [EvClose i]))    (* 100-102 *)
  | Some (Thread (Deq :: p) Run) =>
      match data s with
      | [] => if closed s
              then Some (State [] true (<[i := Thread p Run]> (threads s)) (trace s ++ [EvEof i]))     (* 81-82 *)
              else Some (State [] false (<[i := Thread (Deq :: p) Wait]> (threads s)) (trace s))       (* 83 *)
      | x :: r => Some (State r (closed s) (<[i := Thread p NotifyOne]> (threads s))
                              (trace s ++ [EvDeq i x]))                                                (* 86-87 *)
      end
  | Some (Thread (DeqLoop :: p) Run) =>
      match data s with
      | [] => if closed s
              then Some (State [] true (<[i := Thread p Run]> (threads s)) (trace s ++ [EvEof i]))
              else Some (State [] false (<[i := Thread (DeqLoop :: p) Wait]> (threads s)) (trace s))
      | x :: r => Some (State r (closed s) (<[i := Thread (DeqLoop :: p) NotifyOne]> (threads s))
                              (trace s ++ [EvDeq i x]))
      end
  | _ => None
  end.

Definition wake (th : thread) : thread :=
  match md th with Wait => Thread (prog th) Run | _ => th end.

(** A step that does not rely on a spurious wake-up. [notify_one] wakes any one of the sleeping threads. *)
Inductive step (cap : nat) : state -> state -> Prop :=
| step_critical i s s' : critical cap i s = Some s' -> step cap s s'
| step_notify_one i j p q s :
    threads s !! i = Some (Thread p NotifyOne) ->
    threads s !! j = Some (Thread q Wait) ->
    step cap s (State (data s) (closed s) (<[j := Thread q Run]> (<[i := Thread p Run]> (threads s))) (trace s))
| step_notify_nobody i p s :
    threads s !! i = Some (Thread p NotifyOne) ->
    (forall j q, threads s !! j <> Some (Thread q Wait)) ->
    step cap s (State (data s) (closed s) (<[i := Thread p Run]> (threads s)) (trace s))
| step_notify_all i p s :
    threads s !! i = Some (Thread p NotifyAll) ->
    step cap s (State (data s) (closed s) (wake <$> <[i := Thread p Run]> (threads s)) (trace s)).

(** All steps, with spurious wake-ups. *)
Inductive any_step (cap : nat) : state -> state -> Prop :=
| any_regular s s' : step cap s s' -> any_step cap s s'
| any_spurious j q s :
    threads s !! j = Some (Thread q Wait) ->
    any_step cap s (State (data s) (closed s) (<[j := Thread q Run]> (threads s)) (trace s)).

Inductive reachable (cap : nat) (progs : list (list op)) : state -> Prop :=
| reach_init : reachable cap progs (init progs)
| reach_step s s' : reachable cap progs s -> any_step cap s s' -> reachable cap progs s'.

(** A sequence of regular steps with its length. *)
Inductive run (cap : nat) : nat -> state -> state -> Prop :=
| run_nil s : run cap 0 s s
| run_cons n s1 s2 s3 : step cap s1 s2 -> run cap n s2 s3 -> run cap (S n) s1 s3.

End Queue.
Arguments op : clear implicits.
Arguments thread : clear implicits.
Arguments event : clear implicits.
Arguments state : clear implicits.
