(** Model of the reference counting of data objects: src/runtime/local/datastructures/Structure.h (refCounter),
    DataObjectFactory.h (create, destroy) and List.h (a list holds references to its elements).
    An object is identified by its address; a matrix or frame is an object without elements. Destroying is split into the two
    steps of DataObjectFactory::destroy that other threads can observe: the locked decrement, and the deletion. All pending steps of
    all threads are kept in one bag and may be executed in any order: this includes every interleaving of any number of threads.
    Not modelled: the data buffers themselves (std::shared_ptr); concurrent modification of the element vector of one list (a data
    race in the code: only the counter is protected). The deletion of a list removes the object and schedules the decrements of its
    elements (in the code the destructor's body runs the decrements first and the memory is released afterwards). *)
From stdpp Require Import base numbers gmap list.
From Coq Require Import Lia.
From Verif Require Import CppBase.

(** Structure.h 30: refCounter; List.h 37: elements. *)
Record obj := mkObj { o_rc : nat; o_elems : list nat }.
(** Steps of DataObjectFactory::destroy that are still to be executed by some thread. *)
Inductive act := ADec (i : nat) | ADel (i : nat).
Record rstate := mkRS { r_heap : gmap nat obj; r_pend : list act }.
Definition r_init : rstate := mkRS ∅ [].

(** Structure.h 71-75: increaseRefCounter. *)
Definition rc_inc (h : gmap nat obj) (i : nat) : outcome (gmap nat obj) :=
  match h !! i with Some o => Ok (<[i := mkObj (o_rc o + 1) (o_elems o)]> h) | None => UB end.
Fixpoint rc_incs (h : gmap nat obj) (l : list nat) : outcome (gmap nat obj) :=
  match l with [] => Ok h | i :: l' => let* h' := rc_inc h i in rc_incs h' l' end.
(** DataObjectFactory.h 57-62, 64-65: the locked part of destroy. The counter is a size_t: decrementing 0 wraps, which is excluded
    here as undefined (the object would be leaked). *)
Definition rc_dec (s : rstate) (i : nat) : outcome rstate :=
  match r_heap s !! i with
  | Some o =>
      if decide (o_rc o = 0) then UB
      else let h := <[i := mkObj (o_rc o - 1) (o_elems o)]> (r_heap s) in
           if decide (o_rc o - 1 = 0) then Ok (mkRS h (ADel i :: r_pend s)) else Ok (mkRS h (r_pend s))
  | None => UB
  end.
(** DataObjectFactory.h 63: delete obj; List.h 63-68: ~List. *)
Definition rc_del (s : rstate) (i : nat) : outcome rstate :=
  match r_heap s !! i with
  | Some o => Ok (mkRS (delete i (r_heap s)) ((ADec <$> o_elems o) ++ r_pend s))
  | None => UB
  end.

Inductive revent :=
  | ECreate (i : nat) (level : nat)  (* create<DT>(...): a new object; level: nesting of its type (0: matrix/frame, n+1: list of level n) *)
  | EInc (i : nat)                   (* increaseRefCounter *)
  | EDestroy (i : nat)               (* DataObjectFactory::destroy starts *)
  | EAppend (l e : nat)              (* l->append(e) *)
  | ERemove (l k : nat)              (* l->remove(k): the caller gets the list's reference *)
  | ECopy (l i : nat)                (* create<List>(l): i is the new list *)
  | EExec (k : nat).                 (* some thread executes a pending step *)

Definition r_step (s : rstate) (e : revent) : outcome rstate :=
  match e with
  (* Structure.cpp 20-21: refCounter(1) *)
  | ECreate i _ => Ok (mkRS (<[i := mkObj 1 []]> (r_heap s)) (r_pend s))
  | EInc i => let* h := rc_inc (r_heap s) i in Ok (mkRS h (r_pend s))
  | EDestroy i => Ok (mkRS (r_heap s) (ADec i :: r_pend s))
  (* List.h 123-128 *)
  | EAppend l e =>
      let* h := rc_inc (r_heap s) e in
      match h !! l with Some o => Ok (mkRS (<[l := mkObj (o_rc o) (o_elems o ++ [e])]> h) (r_pend s)) | None => UB end
  (* List.h 137-147 *)
  | ERemove l k =>
      match r_heap s !! l with
      | Some o => if decide (k < length (o_elems o))
                  then Ok (mkRS (<[l := mkObj (o_rc o) (delete k (o_elems o))]> (r_heap s)) (r_pend s)) else Throw
      | None => UB
      end
  (* List.h 57-65 *)
  | ECopy l i =>
      match r_heap s !! l with
      | Some o => let* h := rc_incs (r_heap s) (o_elems o) in Ok (mkRS (<[i := mkObj 1 (o_elems o)]> h) (r_pend s))
      | None => UB
      end
  | EExec k =>
      match r_pend s !! k with
      | Some (ADec i) => rc_dec (mkRS (r_heap s) (delete k (r_pend s))) i
      | Some (ADel i) => rc_del (mkRS (r_heap s) (delete k (r_pend s))) i
      | None => Ok s
      end
  end.
