(** Property theorems C04 and C05 about BlockingTaskQueue. *)
From stdpp Require Import base list sets.
From Coq Require Import Lia.
From Verif Require Import TaskQueueModel TaskQueueSpec TaskQueueProofs TaskQueueLive.

(** ** C04. For any capacity, any number of threads with any programs, any schedule (with spurious wake-ups), at any
    point [pre] of the history:
    the tasks that have left are an initial segment of those that have entered (so the k-th task to leave is the k-th
    that entered: FIFO, no loss, no duplication); never more than [cap] tasks are inside; an end marker is only handed
    out after the input was closed and when everything that entered has left; and what a thread has put in, followed
    by what its program still has to put in, is what its program says. *)
Theorem C04_exactly_once_fifo : forall (T : Type) (cap : nat) (progs : list (list (op T))) (s : state T),
  reachable cap progs s ->
  (forall pre post, trace s = pre ++ post ->
      left_ pre `prefix_of` entered pre /\ length (entered pre) <= length (left_ pre) + cap) /\
  (forall pre post i, trace s = pre ++ EvEof i :: post ->
      (exists j, EvClose j ∈ pre) /\ left_ pre = entered pre) /\
  (forall i th p, threads s !! i = Some th -> progs !! i = Some p -> entered_by i (trace s) ++ enqs (prog th) = enqs p).
Proof.
  intros T cap progs s HR. pose proof (inv_reachable _ _ _ HR) as I. split_and!.
  - intros pre post H. split; [eapply inv_order|eapply inv_capall]; eauto.
  - intros pre post i H. destruct (inv_eof _ _ _ I _ _ _ H) as [? ?]. auto.
  - intros. eapply inv_prog; eauto.
Qed.
Print Assumptions C04_exactly_once_fifo.

(** ** C05 *)
(** Enough capacity, each thread produces or consumes, somebody closes the input: no deadlock. *)
Theorem C05_no_deadlock : forall (T : Type) (cap : nat) (progs : list (list (op T))) (s : state T),
  Forall role progs -> (exists p, p ∈ progs /\ Close ∈ p) -> total_tasks progs <= cap ->
  reachable cap progs s -> ~ deadlock cap s.
Proof. intros. eapply no_deadlock; eauto. Qed.
Print Assumptions C05_no_deadlock.

(** Every execution is finite but for spurious wake-ups: their number bounds how much longer it can get. *)
Theorem C05_terminates : forall (T : Type) (cap : nat) (progs : list (list (op T))),
  exists bound, forall n k s, exec cap n k (init progs) s -> n <= bound + k.
Proof. intros. exists (potential (init progs)). intros. eapply exec_bound; eauto. Qed.
Print Assumptions C05_terminates.

(** A consumer loop can only be over because it received the end marker. *)
Theorem C05_consumers_get_eof : forall (T : Type) (cap : nat) (progs : list (list (op T))) (s : state T) i p,
  reachable cap progs s -> finished s -> progs !! i = Some p -> DeqLoop ∈ p -> EvEof i ∈ trace s.
Proof.
  intros T cap progs s i p HR HF Hp Hin.
  assert (exists th, threads s !! i = Some th) as [th Hth].
  { apply lookup_lt_is_Some. rewrite (inv_len _ _ _ (inv_reachable _ _ _ HR)). eapply lookup_lt_Some; exact Hp. }
  destruct (eof_received _ _ _ _ _ _ HR Hp Hin Hth) as [H|H]; [|exact H].
  pose proof (Forall_lookup_1 _ _ _ _ HF Hth) as [E _]. rewrite E in H. by apply elem_of_nil in H.
Qed.
Print Assumptions C05_consumers_get_eof.

(** The engine's use of the queue: never stuck, and when all threads are done exactly the tasks created have been
    delivered, in order, each once, and every worker has seen the end marker. *)
Theorem C05_engine : forall (T : Type) (tasks : list T) (workers cap : nat) (s : state T),
  0 < workers -> length tasks <= cap -> reachable cap (engine tasks workers) s ->
  ~ deadlock cap s /\
  (finished s -> left_ (trace s) = tasks /\ forall i, 1 <= i <= workers -> EvEof i ∈ trace s).
Proof.
  intros T tasks n cap s Hn Hcap HR. destruct (engine_roles tasks n) as (R & C & TT). split.
  - eapply no_deadlock; eauto. lia.
  - intros HF. split; [eapply engine_delivers; eauto|]. intros i Hi. destruct i as [|i]; [lia|].
    eapply C05_consumers_get_eof; eauto; [|apply elem_of_list_singleton; reflexivity].
    unfold engine. simpl. apply lookup_replicate. split; [done|lia].
Qed.
Print Assumptions C05_engine.

(** *** Concrete executions *)
(** An executable version of [step], used for the witnesses below: [Crit i] runs the next critical section of thread
    [i], [N1 i j] lets thread [i] notify [j], [N0 i] lets [i] notify with nobody asleep, [NA i] notifies all. *)
Inductive act := Crit (i : nat) | N1 (i j : nat) | N0 (i : nat) | NA (i : nat).
Definition act_step {T} (cap : nat) (s : state T) (a : act) : option (state T) :=
  match a with
  | Crit i => critical cap i s
  | N1 i j => match threads s !! i, threads s !! j with
              | Some (Thread p NotifyOne), Some (Thread q Wait) =>
                  Some (State (data s) (closed s) (<[j := Thread q Run]> (<[i := Thread p Run]> (threads s))) (trace s))
              | _, _ => None
              end
  | N0 i => match threads s !! i with
            | Some (Thread p NotifyOne) =>
                if forallb (fun th => match md th with Wait => false | _ => true end) (threads s)
                then Some (State (data s) (closed s) (<[i := Thread p Run]> (threads s)) (trace s)) else None
            | _ => None
            end
  | NA i => match threads s !! i with
            | Some (Thread p NotifyAll) =>
                Some (State (data s) (closed s) (wake <$> <[i := Thread p Run]> (threads s)) (trace s))
            | _ => None
            end
  end.
Fixpoint acts {T} (cap : nat) (s : state T) (l : list act) : option (state T) :=
  match l with
  | [] => Some s
  | a :: r => match act_step cap s a with Some s' => acts cap s' r | None => None end
  end.

Lemma act_step_sound {T} cap (s s' : state T) a : act_step cap s a = Some s' -> step cap s s'.
Proof.
  destruct a as [i|i j|i|i]; simpl.
  - apply step_critical.
  - destruct (threads s !! i) as [[p []]|] eqn:Hi; try discriminate.
    destruct (threads s !! j) as [[q []]|] eqn:Hj; try discriminate. intros [= <-]. by apply step_notify_one.
  - destruct (threads s !! i) as [[p []]|] eqn:Hi; try discriminate. case_match eqn:F; try discriminate. intros [= <-].
    apply step_notify_nobody; [done|]. intros j q Hj. rewrite forallb_forall in F.
    apply elem_of_list_lookup_2, elem_of_list_In, F in Hj. discriminate.
  - destruct (threads s !! i) as [[p []]|] eqn:Hi; try discriminate. intros [= <-]. by apply step_notify_all.
Qed.
Lemma acts_reachable {T} cap progs l : forall s s' : state T, reachable cap progs s -> acts cap s l = Some s' -> reachable cap progs s'.
Proof.
  induction l as [|a l IH]; intros s s' R; simpl; [congruence|]. destruct (act_step cap s a) eqn:E; [|discriminate].
  apply IH. eapply reach_step; [exact R|]. apply any_regular. eapply act_step_sound; exact E.
Qed.

(** Two workers, capacity 2, tasks 7 and 8: worker 1 sleeps and is woken, everything is delivered, all finish. *)
Example C05_example_reaches_finish :
  exists s, reachable 2 (engine [7; 8] 2) s /\ finished s /\ left_ (trace s) = [7; 8].
Proof.
  eexists. split; [|split].
  - eapply (acts_reachable _ _ [Crit 1; Crit 0; N1 0 1; Crit 0; Crit 1; Crit 2; N0 0; N0 1; N0 2; Crit 0; NA 0; Crit 1; Crit 2]);
      [constructor|vm_compute; reflexivity].
  - repeat constructor.
  - reflexivity.
Qed.

(** With a capacity smaller than the number of tasks the engine's pattern can deadlock: capacity 1, two tasks, two
    workers. Both workers sleep; the producer enqueues, wakes worker 1, and sleeps on the full queue; worker 1 takes
    the task and its notification wakes worker 2 instead of the producer; both workers find the queue empty and sleep. *)
Theorem C05_small_capacity_refuted :
  exists s : state nat, reachable 1 (engine [7; 8] 2) s /\ deadlock 1 s.
Proof.
  eexists. split.
  - eapply (acts_reachable _ _ [Crit 1; Crit 2; Crit 0; N1 0 1; Crit 0; Crit 1; N1 1 2; Crit 1; Crit 2]);
      [constructor|vm_compute; reflexivity].
  - split.
    + intros F. inversion F as [|? ? [E _] ?]. discriminate.
    + intros s' H. inversion H as [i ? ? Hc|i j p q ? Hi Hj|i p ? Hi Hn|i p ? Hi]; subst; simpl in *.
      * destruct i as [|[|[|i]]]; cbn in Hc; discriminate.
      * destruct i as [|[|[|i]]]; cbn in Hi; discriminate.
      * destruct i as [|[|[|i]]]; cbn in Hi; discriminate.
      * destruct i as [|[|[|i]]]; cbn in Hi; discriminate.
Qed.
Print Assumptions C05_small_capacity_refuted.
