(** Model of the signature and the body of a vectorized pipeline: how it is made from operations (src/compiler/lowering/VectorizeComputationsPass.cpp), how
    the bodies of two pipelines become one (src/compiler/lowering/HorizontalFusionPass.cpp) and how it is simplified
    (VectorizedPipelineOp::canonicalize in src/ir/daphneir/Canonicalize.cpp).

    Values outside of the pipeline and values inside are numbers. Simplified: an operation has one result; the casts of scalar results to 1x1
    matrices and back, the types of the arguments, the second body for GPUs and the context are left out. *)
From stdpp Require Import base numbers list.

(** DaphneVectorizableOpInterface.td 22-38 *)
Inductive split := Rows | Whole.
Inductive comb := CRows | CCols | CAdd | CMin | CMax.
Global Instance split_eq_dec : EqDecision split.
Proof. solve_decision. Defined.

(** An operand inside of the body: an argument of the body or a value defined in it *)
Inductive opnd := Arg (i : nat) | Val (v : nat).
Record bop := mkB { b_id : nat; b_args : list opnd }.
(** The pipeline: inputs with their splits, the body, what it returns, and for each result how it is combined and its size (DaphneOps.td, VectorizedPipelineOp) *)
Record psig := mkP { s_in : list (nat * split); s_body : list bop; s_ret : list opnd; s_comb : list comb; s_size : list (nat * nat) }.

(** * Making a pipeline (VectorizeComputationsPass.cpp 208-351) *)
(** a vectorizable operation: result, operands with their splits, combine, size of the result (createOpsOutputSizes) *)
Record wop := mkW { w_id : nat; w_args : list (nat * split); w_comb : comb; w_size : nat * nat }.
(** 214-216 *)
Definition part_of (ops : list wop) (a : nat) : bool := bool_decide (a ∈ w_id <$> ops).
(** 240-246: the operands that are not part of the pipeline are its inputs *)
Definition outer (ops : list wop) (o : wop) : list (nat * split) := filter (fun e => part_of ops (fst e) = false) (w_args o).
(** 299-303: they are replaced by the arguments of the body, one after the other *)
Fixpoint rewire (ops : list wop) (n : nat) (args : list (nat * split)) : list opnd :=
  match args with
  | [] => []
  | (a, _) :: args' => if part_of ops a then Val a :: rewire ops n args' else Arg n :: rewire ops (S n) args'
  end.
Fixpoint bodies (ops : list wop) (n : nat) (l : list wop) : list bop :=
  match l with [] => [] | o :: l' => mkB (w_id o) (rewire ops n (w_args o)) :: bodies ops (n + length (outer ops o)) l' end.
Definition build (ops : list wop) : psig :=
  mkP (ops ≫= outer ops) (bodies ops 0 ops) ((fun o => Val (w_id o)) <$> ops) (w_comb <$> ops) (w_size <$> ops).

(** * Two bodies become one (HorizontalFusionPass.cpp 70-88: moveOperationsToBlock; 159-190) *)
(** each operand that is an argument becomes a new argument *)
Fixpoint renum (n : nat) (l : list opnd) : nat * list opnd :=
  match l with
  | [] => (n, [])
  | Arg _ :: l' => let (n', r) := renum (S n) l' in (n', Arg n :: r)
  | Val v :: l' => let (n', r) := renum n l' in (n', Val v :: r)
  end.
Fixpoint move (n : nat) (ops : list bop) : nat * list bop :=
  match ops with
  | [] => (n, [])
  | o :: ops' => let (n1, a) := renum n (b_args o) in let (n2, r) := move n1 ops' in (n2, mkB (b_id o) a :: r)
  end.
Definition move_all (n : nat) (p : psig) : nat * (list bop * list opnd) :=
  let (n1, b) := move n (s_body p) in let (n2, r) := renum n1 (s_ret p) in (n2, (b, r)).
Definition merge (p q : psig) : psig :=
  let (n, br1) := move_all 0 p in let (_, br2) := move_all n q in
  mkP (s_in p ++ s_in q) (fst br1 ++ fst br2) (snd br1 ++ snd br2) (s_comb p ++ s_comb q) (s_size p ++ s_size q).

(** * Simplification (Canonicalize.cpp 50-126) *)
(** 69-71: argument [i] is replaced by argument [j] and removed *)
Definition sub_arg (i j : nat) (x : opnd) : opnd :=
  match x with Arg k => if decide (k = i) then Arg j else if decide (i < k) then Arg (k - 1) else Arg k | Val v => Val v end.
Definition sub_body (i j : nat) (b : list bop) : list bop := (fun o => mkB (b_id o) (sub_arg i j <$> b_args o)) <$> b.
(** inputMap (58): where a value was found first *)
Fixpoint look (m : list (nat * nat)) (v : nat) : option nat :=
  match m with [] => None | (w, j) :: m' => if decide (w = v) then Some j else look m' v end.
(** 60-79: the loop over the inputs; [kept]: those before position i, [rest]: those from i on. The split of the earlier input is looked up in the splits that the
    operation had before ([orig]), at a position among those that are left. *)
Fixpoint dedup (orig : list split) (m : list (nat * nat)) (kept rest : list (nat * split)) (b : list bop) (r : list opnd) : list (nat * split) * (list bop * list opnd) :=
  match rest with
  | [] => (kept, (b, r))
  | (v, s) :: rest' =>
      match look m v with
      | None => dedup orig ((v, length kept) :: m) (kept ++ [(v, s)]) rest' b r
      | Some j =>
          if decide (orig !! j = Some s) then dedup orig m kept rest' (sub_body (length kept) j b) (sub_arg (length kept) j <$> r)
          else dedup orig m (kept ++ [(v, s)]) rest' b r
      end
  end.
(** 82-104: results without uses are removed *)
Fixpoint keep {A : Type} (used : list bool) (l : list A) : list A :=
  match used, l with u :: used', x :: l' => if u then x :: keep used' l' else keep used' l' | _, _ => [] end.
(** 50-126; nothing if neither an input nor a result was removed (107-109) *)
Definition canon (used : list bool) (p : psig) : option psig :=
  let '(ins, (b, r)) := dedup (snd <$> s_in p) [] [] (s_in p) (s_body p) (s_ret p) in
  if decide (length (keep used (s_comb p)) = length (s_comb p) /\ length ins = length (s_in p)) then None
  else Some (mkP ins b (keep used r) (keep used (s_comb p)) (keep used (s_size p))).
