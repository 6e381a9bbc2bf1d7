(** Model of the pass that fuses row-wise operations into vectorized pipelines (src/compiler/lowering/VectorizeComputationsPass.cpp,
    src/compiler/utils/VectorizationUtils.cpp).

    Simplifications: one block; every operation has one result, whose name is the name of the operation; the operations that compute the
    sizes of the pipeline's results and the casts of scalar results are not modelled; a pipeline is the list of its operations in the order
    of its body. Operations with regions (control structures) only show the values used inside these regions. *)
From stdpp Require Import base numbers list.
From Verif Require Import CppBase.

(** An operation: its name, its operands; for each operand, if it is split by rows (getVectorSplits); if its result is combined by rows
    (getVectorCombines); if it is a vectorizable matrix computation; the values used inside its regions; if it has side effects. *)
Record vop := mkOp { o_id : nat; o_args : list nat; o_rows : list bool; o_comb : bool; o_vec : bool; o_nested : list nat; o_eff : bool }.
(** A block: operations ([x]) and vectorized pipelines *)
Definition names (it : list vop) : list nat := o_id <$> it.
Notation block := (list (list vop)) (only parsing).

(** The item that defines a value *)
Fixpoint pos_from (k : nat) (blk : block) (v : nat) : option nat :=
  match blk with [] => None | it :: blk' => if decide (v ∈ names it) then Some k else pos_from (S k) blk' v end.
Definition pos (blk : block) (v : nat) : option nat := pos_from 0 blk v.
Definition op_of (blk : block) (v : nat) : option vop := snd <$> list_find (fun o => o_id o = v) (concat blk).
(** The operands of an operation or pipeline *)
Definition operands (it : list vop) : list nat := filter (fun a => a ∉ names it) (it ≫= o_args).

(** * VectorizationUtils.cpp 21-50 *)
(** valueDependsOnResultOf; [t]: the position of the operation *)
Fixpoint value_dep (fuel : nat) (blk : block) (v t : nat) : bool :=
  match fuel with
  | 0 => false
  | S fuel =>
      match pos blk v with
      | None => false
      | Some i =>
          if decide (i = t) then true else if decide (i < t) then false
          else match blk !! i with Some it => existsb (fun a => value_dep fuel blk a t) (operands it) | None => false end
      end
  end.
(** operationDependsOnResultOf *)
Definition op_dep (blk : block) (it : list vop) (p : nat) : bool :=
  match pos blk p with Some t => existsb (fun a => value_dep (S (length blk)) blk a t) (operands it) | None => false end.

(** * isDirectlyFusible, VectorizeComputationsPass.cpp 41-56 *)
Definition fusible (blk : block) (b : nat) (pipe : list nat) : bool :=
  forallb (fun p =>
    match op_of blk p with
    | Some o => forallb (fun a => bool_decide (a ∈ pipe) || bool_decide (a = b) || negb (match pos blk b with Some t => value_dep (S (length blk)) blk a t | None => false end)) (o_args o)
    | None => true
    end) pipe.

(** * The operations that can be fused into the pipeline of [v], 133-178 *)
(** 146-160: the value is not used inside a control structure before [v] *)
Definition qualified (blk : block) (a v : nat) : bool :=
  forallb (fun it => negb (existsb (fun o => bool_decide (a ∈ o_nested o)) it)) (match pos blk v with Some i => take i blk | None => blk end).
Definition cands (blk : block) (v : vop) : list nat :=
  zip (o_args v) (o_rows v) ≫= fun e =>
    match op_of blk (fst e) with
    | Some d => if o_vec d && qualified blk (fst e) (o_id v) && snd e && o_comb d then [fst e] else []
    | None => []
    end.

(** * greedyPipelineFusion, 67-95 *)
(** The map from operations to pipelines, and the pipelines *)
Notation fstate := (list (nat * nat) * list (list nat))%type (only parsing).
Definition lookup_map (m : list (nat * nat)) (v : nat) : option nat := snd <$> (snd <$> list_find (fun e => fst e = v) m).
Definition greedy (blk : block) (ix : nat) (st : outcome fstate) (c : nat) : outcome fstate :=
  let* st := st in
  let cur := default [] (snd st !! ix) in
  match lookup_map (fst st) c with
  | Some ex =>
      if decide (ex = ix) then UB          (* the vector is inserted into itself *)
      else
        (* 79-83: the loop over the operations of the current pipeline has no effect *)
        let old := default [] (snd st !! ex) in
        Ok (((fun o => (o, ix)) <$> old) ++ fst st, <[ex := []]> (<[ix := cur ++ old]> (snd st)))
  | None => if fusible blk c cur then Ok ((c, ix) :: fst st, <[ix := cur ++ [c]]> (snd st)) else Ok st
  end.
(** 182-205: one iteration of the loop *)
Definition collect (blk : block) (st : outcome fstate) (v : vop) : outcome fstate :=
  let* st := st in
  match lookup_map (fst st) (o_id v) with
  | Some ix => foldl (greedy blk ix) (Ok st) (cands blk v)
  | None => foldl (greedy blk (length (snd st))) (Ok (fst st, snd st ++ [[o_id v]])) (cands blk v)
  end.
Definition pipelines (blk : block) : outcome fstate := foldl (collect blk) (Ok ([], [])) (reverse (filter (fun o => o_vec o = true) (concat blk))).

(** * movePipelineInterleavedOperations, VectorizationUtils.cpp 52-85 *)
(** The loop 62-77: [rp] is the pipeline from its back to its front, [k] the number of operations currSkip has passed *)
Fixpoint classify (blk : block) (rp : list nat) (k : nat) (rg : block) : block * block :=
  match rg with
  | [] => ([], [])
  | it :: rg' =>
      if match rp !! k with Some p => bool_decide (p ∈ names it) | None => false end then classify blk rp (S k) rg'
      else
        let r := classify blk rp k rg' in
        if existsb (op_dep blk it) (take k rp) then (fst r, it :: snd r) else (it :: fst r, snd r)
  end.
(** The operations of the pipeline leave the block (VectorizeComputationsPass.cpp 318) *)
Definition keep (pipe : list nat) (blk : block) : block := filter (fun it => Forall (fun v => v ∉ pipe) (names it)) blk.
(** VectorizeComputationsPass.cpp 209-383 for one pipeline *)
Definition create (blk : block) (pipe : list nat) : outcome block :=
  match pipe with
  | [] => Ok blk
  | front :: _ =>
      match pos blk (default 0 (last pipe)), pos blk front with
      | Some s, Some e =>
          if decide (s <= e) then
            let r := classify blk (reverse pipe) 0 (take (e - s) (drop s blk)) in
            Ok (keep pipe (take s blk) ++ keep pipe (fst r) ++ [omap (op_of blk) (reverse pipe)] ++ keep pipe (snd r) ++ keep pipe (drop (S e) blk))
          else UB          (* the loop does not reach its end *)
      | _, _ => UB
      end
  end.
(** runOnOperation *)
Definition vectorize (ops : list vop) : outcome block :=
  let blk := (fun o => [o]) <$> ops in
  let* st := pipelines blk in
  foldl (fun b p => let* b := b in create b p) (Ok blk) (snd st).
