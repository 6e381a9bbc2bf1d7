(** Specification vocabulary for the task queue: only events and programs, nothing of the queue's internals. *)
From stdpp Require Import base list.
From Verif Require Import TaskQueueModel.

Section Spec.
Context {T : Type}.

(** The tasks that entered (left) the queue, in the order they did. *)
Definition entered (tr : list (event T)) : list T :=
  omap (fun e => match e with EvEnq _ t => Some t | _ => None end) tr.
Definition left_ (tr : list (event T)) : list T :=
  omap (fun e => match e with EvDeq _ t => Some t | _ => None end) tr.
(** The tasks thread [i] has put in. *)
Definition entered_by (i : nat) (tr : list (event T)) : list T :=
  omap (fun e => match e with EvEnq j t => if decide (i = j) then Some t else None | _ => None end) tr.
(** The tasks a program asks to put in. *)
Definition enqs (p : list (op T)) : list T :=
  omap (fun o => match o with Enq t => Some t | _ => None end) p.

Definition producer_op (o : op T) : Prop := match o with Enq _ | Close => True | _ => False end.
Definition consumer_op (o : op T) : Prop := match o with Deq | DeqLoop => True | _ => False end.

(** Threads either produce or consume. *)
Definition role (p : list (op T)) : Prop := Forall producer_op p \/ Forall consumer_op p.
(** How many tasks are put in altogether. *)
Definition total_tasks (progs : list (list (op T))) : nat := length (concat (enqs <$> progs)).

Definition finished_thread (th : thread T) : Prop := prog th = [] /\ md th = Run.
Definition finished (s : state T) : Prop := Forall finished_thread (threads s).
(** Some thread has not finished and no thread can do anything (without a spurious wake-up). *)
Definition deadlock (cap : nat) (s : state T) : Prop := ~ finished s /\ forall s', ~ step cap s s'.

(** [exec cap n k s s'] : from [s] to [s'] with [n] ordinary steps and [k] spurious wake-ups, in any order. *)
Inductive exec (cap : nat) : nat -> nat -> state T -> state T -> Prop :=
| exec_nil s : exec cap 0 0 s s
| exec_step n k s1 s2 s3 : step cap s1 s2 -> exec cap n k s2 s3 -> exec cap (S n) k s1 s3
| exec_spurious n k j q s1 s3 :
    threads s1 !! j = Some (Thread q Wait) ->
    exec cap n k (State (data s1) (closed s1) (<[j := Thread q Run]> (threads s1)) (trace s1)) s3 ->
    exec cap n (S k) s1 s3.

(** How the vectorized engine uses a queue (MTWrapper_dense.cpp:69-79): the main thread enqueues all tasks and closes
    the input; [n] workers take tasks until the end marker. *)
Definition engine (tasks : list T) (n : nat) : list (list (op T)) :=
  ((Enq <$> tasks) ++ [Close]) :: replicate n [DeqLoop].
End Spec.
