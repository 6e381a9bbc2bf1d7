(** Who holds references: computed from what the clients did, independently of the counters. *)
From stdpp Require Import base numbers list.
From Verif Require Import CppBase RefCountModel.

(** [held i]: references to i held by clients; [cont i]: the elements put into list i; [level i]: its type. *)
Record refspec := mkSpec { held : nat -> nat; cont : nat -> list nat; level : nat -> nat }.
Definition upd {A} (f : nat -> A) (i : nat) (x : A) : nat -> A := fun j => if decide (j = i) then x else f j.
Definition spec_init : refspec := mkSpec (fun _ => 0) (fun _ => []) (fun _ => 0).
Definition spec_step (p : refspec) (e : revent) : refspec :=
  match e with
  | ECreate i lv => mkSpec (upd (held p) i 1) (upd (cont p) i []) (upd (level p) i lv)
  | EInc i => mkSpec (upd (held p) i (held p i + 1)) (cont p) (level p)
  | EDestroy i => mkSpec (upd (held p) i (held p i - 1)) (cont p) (level p)
  | EAppend l e => mkSpec (held p) (upd (cont p) l (cont p l ++ [e])) (level p)
  | ERemove l k =>
      match cont p l !! k with
      | Some e => mkSpec (upd (held p) e (held p e + 1)) (upd (cont p) l (delete k (cont p l))) (level p)
      | None => p
      end
  | ECopy l i => mkSpec (upd (held p) i 1) (upd (cont p) i (cont p l)) (upd (level p) i (level p l))
  | EExec _ => p
  end.
(** A client only uses objects it holds a reference to, removes existing positions, and appends objects of the list's element type. *)
Definition allowed (p : refspec) (e : revent) : Prop :=
  match e with
  | ECreate _ _ | EExec _ => True
  | EInc i | EDestroy i => 0 < held p i
  | EAppend l e => 0 < held p l /\ 0 < held p e /\ level p l = level p e + 1
  | ERemove l k => 0 < held p l /\ k < length (cont p l)
  | ECopy l _ => 0 < held p l
  end.
(** The allocator returns addresses that are not in use. *)
Definition allocates_free (s : rstate) (e : revent) : Prop :=
  match e with ECreate i _ | ECopy _ i => r_heap s !! i = None | _ => True end.

(** The executions of the model, with what the clients hold. *)
Inductive reaches : rstate -> refspec -> Prop :=
  | reaches_init : reaches r_init spec_init
  | reaches_step s p e s' : reaches s p -> allowed p e -> allocates_free s e -> r_step s e = Ok s' -> reaches s' (spec_step p e).

(** An object is needed if a client holds it or a needed list contains it. *)
Inductive needed (p : refspec) : nat -> Prop :=
  | needed_held i : 0 < held p i -> needed p i
  | needed_elem l i : needed p l -> i ∈ cont p l -> needed p i.
