(** Model of horizontal fusion (src/compiler/lowering/HorizontalFusionPass.cpp): two pipelines that scan the same matrix become one.

    A block is the one of FusionModel.v: plain operations [x] and pipelines, which are the lists of their operations. The pass runs directly after the
    pipelines were made, so all vectorizable operations are in pipelines. Operands of a pipeline beyond those with a split (o_args longer than o_rows)
    are the sizes of its results. A new pipeline takes over the names of the values it replaces (replaceAllUsesWith, 188-190), and for the pairs to fuse
    later it is known by the name of the first one of the two. Not modelled: several blocks (pipelines of different blocks are not fused, 124-125),
    the wiring of operands inside the pipeline (see PipeSigModel.v). *)
From stdpp Require Import base numbers list.
From Verif Require Import CppBase FusionModel.

Definition head_id (it : list vop) : nat := match it with o :: _ => o_id o | [] => 0 end.
Definition is_pipe (it : list vop) : bool := match it with o :: _ => o_vec o | [] => false end.
(** the operands of a pipeline with a split; [true]: by rows, [false]: none *)
Definition inputs (it : list vop) : list (nat * bool) := it ≫= fun o => filter (fun e => fst e ∉ names it) (zip (o_args o) (o_rows o)).

(** 112-148: all pairs of pipelines of which the second one does not depend on the first one, once for each input of the first one that is
    split by rows and is an input of the second one with the same split *)
Definition common (p q : list vop) : list (nat * bool) := filter (fun e => snd e = true /\ e ∈ inputs q) (inputs p).
Fixpoint pairs_of (blk : list (list vop)) (ps : list (list vop)) : list (nat * nat) :=
  match ps with
  | [] => []
  | p :: ps' => (ps' ≫= fun q => if op_dep blk q (head_id p) then [] else (fun _ => (head_id p, head_id q)) <$> common p q) ++ pairs_of blk ps'
  end.

(** VectorizationUtils.cpp 52-85 for two pipelines with the operations [rg] between them, HorizontalFusionPass.cpp 168-186. The new pipeline [n] is put in
    front of the operation [q] that followed the first pipeline. The operations that depend on the first pipeline are moved behind [q], the others are
    moved in front of it, where [q] itself stays in its place. *)
Definition place (dep : list vop -> bool) (n : list vop) (rg : list (list vop)) : list (list vop) :=
  let before := filter (fun it => dep it = false) rg in
  let after := filter (fun it => dep it = true) rg in
  match rg with
  | [] => [n]
  | q :: _ => if dep q then before ++ [n] ++ after else tail before ++ [n] ++ q :: after
  end.
(** 162-208: the two pipelines become one. It is undefined if the second one comes first (the loop over the operations between them leaves the block) and if
    the new pipeline needs its own results (the program is not valid any more). *)
Definition fuse (blk : list (list vop)) (h1 h2 : nat) : outcome (list (list vop)) :=
  match pos blk h1, pos blk h2 with
  | Some s, Some e =>
      match blk !! s, blk !! e with
      | Some p, Some q =>
          if decide (e <= s) then UB
          else if existsb (fun a => bool_decide (a ∈ names p)) (operands q) then UB
          else Ok (take s blk ++ place (fun it => op_dep blk it h1) (p ++ q) (take (e - S s) (drop (S s) blk)) ++ drop (S e) blk)
      | _, _ => UB
      end
  | _, _ => UB
  end.
(** 192-202: the other pairs, with the new pipeline instead of the two *)
Definition renew (h1 h2 : nat) (l : list (nat * nat)) : list (nat * nat) :=
  let new h := if decide (h = h2) then h1 else h in
  filter (fun e => fst e <> snd e) ((fun e => (new (fst e), new (snd e))) <$> l).
(** 162: the loop; the list of pairs gets shorter in each iteration *)
Fixpoint fuse_all (fuel : nat) (blk : list (list vop)) (l : list (nat * nat)) : outcome (list (list vop)) :=
  match l, fuel with
  | [], _ => Ok blk
  | _, 0 => UB
  | (h1, h2) :: l, S fuel => let* blk := fuse blk h1 h2 in fuse_all fuel blk (renew h1 h2 l)
  end.
Definition hfuse (blk : list (list vop)) : outcome (list (list vop)) :=
  let l := pairs_of blk (filter (fun it => is_pipe it = true) blk) in fuse_all (length l) blk l.
