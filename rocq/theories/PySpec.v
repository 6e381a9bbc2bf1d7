(** What a graph of operations means, and which graphs are generated correctly. *)
From stdpp Require Import base numbers list strings.
From Verif Require Import CppBase PyModel.

Definition pos_of {A} `{EqDecision A} (a : A) (l : list A) : option nat := fst <$> list_find (eq a) l.
Section den.
Context {V : Type} (lit : string -> V) (app : string -> list V -> V) (appm : string -> nat -> list V -> V) (upd : V -> V -> list V -> V)
  (truth : V -> bool) (range : V -> V -> option V -> list V) (bound : nat) (G : graph).
(** Values given for some nodes; other nodes as in [ρ]. *)
Definition given (l : list arg) (vs : list V) (ρ : nat -> option V) (n : nat) : option V :=
  match pos_of (N n) l with Some i => vs !! i | None => ρ n end.
(** The values of the updated nodes after a control structure: in each run of a callback, the nodes that are updated have their current values, and the
    outer nodes the values they had before. [val ρ a] is the value of the input [a] if the nodes in [ρ] have the values given there. *)
Definition after (val : (nat -> option V) -> arg -> option V) (ρ : nat -> option V) (md : node) : option (list V) :=
  vs ← mapM (val ρ) (n_args md);
  match n_kind md with
  | KFor nc outs =>
      match n_named md with
      | [a; b; s; N i] =>
          va ← val ρ a; vb ← val ρ b; vst ← (if decide (s = Lit "None") then Some None else Some <$> val ρ s);
          foldo (fun cur v => mapM (val (given (n_args md ++ [N i]) (cur ++ drop nc vs ++ [v]) ρ)) outs) (take nc vs) (range va vb vst)
      | _ => None
      end
  | KCond nc th el =>
      match n_named md with
      | [c] =>
          vc ← val ρ c;
          if truth vc then mapM (val (given (n_args md) vs ρ)) th
          else match el with None => Some (take nc vs) | Some el => mapM (val (given (n_args md) vs ρ)) el end
      | _ => None
      end
  | KWhile nc c outs =>
      whileo bound (fun cur => truth <$> val (given (n_args md) (cur ++ drop nc vs) ρ) c) (fun cur => mapM (val (given (n_args md) (cur ++ drop nc vs) ρ)) outs) (take nc vs)
  | KDoWhile nc c outs =>
      cur ← mapM (val (given (n_args md) vs ρ)) outs;
      whileo bound (fun cur => truth <$> val (given (n_args md) (cur ++ drop nc vs) ρ) c) (fun cur => mapM (val (given (n_args md) (cur ++ drop nc vs) ρ)) outs) cur
  | _ => None
  end.
(** The value of a node; [fuel] bounds the depth of the graph. *)
Fixpoint den (fuel : nat) (ρ : nat -> option V) (n : nat) {struct fuel} : option V :=
  match fuel with
  | 0 => None
  | S f =>
      match ρ n with
      | Some v => Some v
      | None =>
          let val := fun (ρ : nat -> option V) (a : arg) => match a with N m => den f ρ m | Lit t => Some (lit t) end in
          nd ← G !! n;
          match n_src nd with
          | Some m =>
              md ← G !! m;
              match n_kind md with
              | KMulti g outs => i ← pos_of n outs; vs ← mapM (val ρ) (n_args md ++ n_named md); Some (appm g i vs)
              | _ => match n_args nd with [x] => i ← pos_of x (n_args md); vs ← after val ρ md; vs !! i | _ => None end
              end
          | None =>
              match n_kind nd with
              | KOp op => app op <$> mapM (val ρ) (n_args nd ++ n_named nd)
              | KLeft => match n_args nd with b :: w :: idx => vb ← val ρ b; vw ← val ρ w; vi ← mapM (val ρ) idx; Some (upd vb vw vi) | _ => None end
              | _ => None
              end
          end
      end
  end.
Definition darg (fuel : nat) (ρ : nat -> option V) (a : arg) : option V := match a with N m => den fuel ρ m | Lit t => Some (lit t) end.
Definition nothing : nat -> option V := fun _ => None.
(** The value of the node in the Python program. *)
Definition node_value (n : nat) (v : V) : Prop := exists k, forall fuel, k <= fuel -> den fuel nothing n = Some v.
End den.

(** * Well-formed graphs *)
Section wf.
Context (G : graph).
Definition is_ctl (k : kind) : Prop := match k with KFor _ _ | KCond _ _ _ | KWhile _ _ _ | KDoWhile _ _ _ => True | _ => False end.
Definition is_val (k : kind) : Prop := match k with KOp _ | KCopy | KLeft => True | _ => False end.
(** The number of updated nodes. *)
Definition num_upd (k : kind) : nat := match k with KFor nc _ | KCond nc _ _ | KWhile nc _ _ | KDoWhile nc _ _ => nc | _ => 0 end.
(** What the callbacks return (first the one for the body, then the one for the else-branch or the condition), ... *)
Definition returns (k : kind) : list (list arg) :=
  match k with KFor _ outs => [outs] | KCond _ th None => [th] | KCond _ th (Some el) => [th; el] | KWhile _ c outs | KDoWhile _ c outs => [outs; [c]] | _ => [] end.
(** ... and which of these become the values of the updated nodes. *)
Definition updates (k : kind) : list (list arg) :=
  match k with KFor _ outs => [outs] | KCond _ th None => [th] | KCond _ th (Some el) => [th; el] | KWhile _ _ outs | KDoWhile _ _ outs => [outs] | _ => [] end.
(** The nodes a control structure binds in its callbacks: its unnamed inputs, and the counter of a for-loop. *)
Definition binds (nd : node) (c : nat) : Prop :=
  N c ∈ n_args nd \/ match n_kind nd with KFor _ _ => n_named nd !! 3 = Some (N c) | _ => False end.
(** [b] is the matrix that the assignment [l] to a part of it changes. *)
Definition base_of (l b : nat) : Prop := exists nd, G !! l = Some nd /\ n_kind nd = KLeft /\ n_args nd !! 0 = Some (N b).
(** [x] is the [i]-th node that the control structure [L] updates. *)
Definition updated_by (L x i : nat) : Prop := exists nd, G !! L = Some nd /\ is_ctl (n_kind nd) /\ i < num_upd (n_kind nd) /\ n_args nd !! i = Some (N x).
(** [i] is the counter of the for-loop [L]. *)
Definition counter_of (L i : nat) : Prop := exists nd nc outs, G !! L = Some nd /\ n_kind nd = KFor nc outs /\ n_named nd !! 3 = Some (N i).
Definition uses (m c : nat) : Prop := exists nd, G !! m = Some nd /\ N c ∈ n_args nd ++ n_named nd.

(** [home n = None]: the node is created outside of callbacks; [home n = Some (L, p)]: by callback number [p] of the control structure [L]. *)
Record wf_graph (rank : nat -> nat) (home : nat -> option (nat * nat)) : Prop := {
  (* the graph is finite and has no cycles *)
  wf_deps : forall n nd c, G !! n = Some nd -> N c ∈ n_args nd ++ n_named nd ++ concat (returns (n_kind nd)) \/ n_src nd = Some c -> c < length G /\ rank c < rank n;
  (* inputs have values; callbacks create only operations, which use what the callback creates or is given *)
  wf_top : forall n nd c, G !! n = Some nd -> home n = None -> N c ∈ n_args nd ++ n_named nd -> home c = None /\ exists cd, G !! c = Some cd /\ is_val (n_kind cd);
  wf_body : forall n nd L p, G !! n = Some nd -> home n = Some (L, p) -> (exists op, n_kind nd = KOp op) /\ n_src nd = None /\
    forall c, N c ∈ n_args nd ++ n_named nd -> home c = Some (L, p) \/ exists ld, G !! L = Some ld /\ binds ld c;
  wf_returns : forall L ld p outs c, G !! L = Some ld -> returns (n_kind ld) !! p = Some outs -> N c ∈ outs -> home c = Some (L, p) \/ binds ld c;
  (* the shape of nodes *)
  wf_op : forall n nd op m, G !! n = Some nd -> n_kind nd = KOp op -> n_src nd = Some m -> n_args nd = [] /\ n_named nd = [] /\ exists md f outs, G !! m = Some md /\ n_kind md = KMulti f outs /\ n ∈ outs;
  wf_copy : forall n nd, G !! n = Some nd -> n_kind nd = KCopy -> home n = None /\ n_named nd = [] /\ exists L x i, n_src nd = Some L /\ n_args nd = [N x] /\ updated_by L x i;
  wf_left : forall n nd, G !! n = Some nd -> n_kind nd = KLeft -> home n = None /\ n_named nd = [] /\ n_src nd = None /\ exists b w idx, n_args nd = N b :: w :: idx /\ N b ∉ w :: idx;
  wf_multi : forall n nd f outs, G !! n = Some nd -> n_kind nd = KMulti f outs -> home n = None /\ n_src nd = None /\ NoDup outs /\
    forall o, o ∈ outs -> home o = None /\ exists od op, G !! o = Some od /\ n_kind od = KOp op /\ n_src od = Some n;
  wf_ctl : forall n nd, G !! n = Some nd -> is_ctl (n_kind nd) -> home n = None /\ n_src nd = None /\
    exists upd outer, n_args nd = (N <$> upd) ++ outer /\ length upd = num_upd (n_kind nd) /\ NoDup upd /\ (forall x, x ∈ upd -> N x ∉ outer ++ n_named nd) /\
      (forall outs, outs ∈ updates (n_kind nd) -> length outs = num_upd (n_kind nd));
  wf_for : forall n nd nc outs, G !! n = Some nd -> n_kind nd = KFor nc outs -> exists a b s i, n_named nd = [a; b; s; N i] /\ N i ∉ n_args nd ++ [a; b; s];
  wf_cond : forall n nd nc th el, G !! n = Some nd -> n_kind nd = KCond nc th el -> exists c, n_named nd = [c];
  wf_while : forall n nd, G !! n = Some nd -> match n_kind nd with KWhile _ _ _ | KDoWhile _ _ _ => n_named nd = [] | _ => True end;
}.
(** A matrix that is changed in parts has no other use; a node that a control structure updates is used by nothing else but the callbacks and outputs of that structure;
    the counter of a for-loop is used by nothing else but its callback. *)
Definition exclusive (home : nat -> option (nat * nat)) : Prop :=
  (forall l b m, base_of l b -> uses m b -> m = l) /\
  (forall L x i m md, updated_by L x i -> G !! m = Some md -> uses m x -> m = L \/ (n_kind md = KCopy /\ n_src md = Some L) \/ exists p, home m = Some (L, p)) /\
  (forall L i m, counter_of L i -> uses m i -> m = L \/ exists p, home m = Some (L, p)).
(** If a callback returns one of the nodes that are updated, then in its own place or in an earlier one. *)
Definition no_swap : Prop := forall L ld outs i j x, G !! L = Some ld -> outs ∈ updates (n_kind ld) -> outs !! i = Some (N x) -> updated_by L x j -> i <= j.
(** The result of the program. *)
Definition final (home : nat -> option (nat * nat)) (root : nat) : Prop :=
  home root = None /\ (exists rd, G !! root = Some rd /\ is_val (n_kind rd)) /\ (forall l, ~ base_of l root) /\ (forall L i, ~ updated_by L root i) /\ (forall L, ~ counter_of L root).
(** The control structures outside of callbacks, in particular the loops with conditions, come to an end. *)
Definition terminates {V : Type} (lit : string -> V) (app : string -> list V -> V) (appm : string -> nat -> list V -> V) (upd : V -> V -> list V -> V)
  (truth : V -> bool) (range : V -> V -> option V -> list V) (bound : nat) : Prop :=
  forall L ld, G !! L = Some ld -> is_ctl (n_kind ld) -> exists k vs, forall fuel, k <= fuel -> after truth range bound (darg lit app appm upd truth range bound G fuel) nothing ld = Some vs.
End wf.
