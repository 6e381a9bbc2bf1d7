(** What a vectorized pipeline computes. *)
From stdpp Require Import base numbers list.
From Verif Require Import PipeSigModel.

Section meaning.
  (** [V]: values, [C]: chunks; [f]: what the operations compute; [part]: the part of an input that a chunk gets; [combine]: how the results of the chunks are combined *)
  Context {V C : Type} (f : nat -> list V -> V) (part : split -> V -> C -> V) (combine : comb -> nat * nat -> list V -> V).
  (** the value of an operand; [a]: the arguments of the body, [l]: the values defined so far *)
  Definition get (a l : nat -> option V) (x : opnd) : option V := match x with Arg i => a i | Val v => l v end.
  Definition define (l : nat -> option V) (x : nat) (v : V) : nat -> option V := fun y => if decide (y = x) then Some v else l y.
  Fixpoint exec (a l : nat -> option V) (ops : list bop) : option (nat -> option V) :=
    match ops with [] => Some l | o :: ops' => match mapM (get a l) (b_args o) with Some vs => exec a (define l (b_id o) (f (b_id o) vs)) ops' | None => None end end.
  Definition args (p : psig) (env : nat -> V) (c : C) (i : nat) : option V := (fun e => part (snd e) (env (fst e)) c) <$> s_in p !! i.
  (** what the body returns for one chunk *)
  Definition run (p : psig) (env : nat -> V) (c : C) : option (list V) := exec (args p env c) (fun _ => None) (s_body p) ≫= fun l => mapM (get (args p env c) l) (s_ret p).
  (** result [k] of the pipeline, from all chunks *)
  Definition result (p : psig) (env : nat -> V) (cs : list C) (k : nat) : option V :=
    match s_comb p !! k, s_size p !! k with
    | Some cb, Some sz => combine cb sz <$> mapM (fun c => run p env c ≫= fun vs => vs !! k) cs
    | _, _ => None
    end.
  (** all results are defined *)
  Definition defined (p : psig) (env : nat -> V) (cs : list C) : Prop := forall c, c ∈ cs -> exists vs, run p env c = Some vs.

  (** An operation distributes over the chunks as its splits and its combine say; [env]: the values without chunks *)
  Definition distributes (env : nat -> V) (cs : list C) (o : wop) : Prop :=
    let chunk c := f (w_id o) ((fun e => part (snd e) (env (fst e)) c) <$> w_args o) in
    combine (w_comb o) (w_size o) (chunk <$> cs) = env (w_id o) /\ (w_comb o = CRows -> forall c, c ∈ cs -> chunk c = part Rows (env (w_id o)) c).
End meaning.

(** The results and their attributes fit together *)
Definition proper (p : psig) : Prop := length (s_comb p) = length (s_ret p) /\ length (s_size p) = length (s_ret p).
(** Each argument is used exactly once, in order *)
Definition arg_of (x : opnd) : list nat := match x with Arg i => [i] | Val _ => [] end.
Definition arg_uses (p : psig) : list nat := (s_body p ≫= fun o => b_args o ≫= arg_of) ++ (s_ret p ≫= arg_of).
Definition wired (p : psig) : Prop := arg_uses p = seq 0 (length (s_in p)).
(** Values have one definition in the two bodies *)
Definition apart (p q : psig) : Prop := forall o o', o ∈ s_body p -> o' ∈ s_body q -> b_id o <> b_id o'.
(** Every input value has one split *)
Definition one_split (p : psig) : Prop := forall v s s', (v, s) ∈ s_in p -> (v, s') ∈ s_in p -> s = s'.
(** The operations of a pipeline, in order: one definition each, and a use of another one is by rows of a result that is combined by rows *)
Definition chained (ops : list wop) : Prop :=
  NoDup (w_id <$> ops) /\
  forall l1 o l2 a s, ops = l1 ++ o :: l2 -> (a, s) ∈ w_args o -> a ∈ w_id <$> ops -> s = Rows /\ exists o', o' ∈ l1 /\ w_id o' = a /\ w_comb o' = CRows.
(** The position of the k-th result that is kept *)
Fixpoint position (used : list bool) (k : nat) : nat :=
  match used with [] => 0 | true :: used' => match k with 0 => 0 | S k' => S (position used' k') end | false :: used' => S (position used' k) end.
