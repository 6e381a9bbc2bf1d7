(** Model of the random kernels (src/runtime/local/kernels/Sample.h and RandMatrix.h).
    The pseudo random numbers are arbitrary: either a function giving the i-th number, or, where a loop draws until a condition holds, the
    list of the numbers drawn. If such a list ends before the loop does, the model ends with Throw; the kernels throw nothing after the
    checks of their arguments, so this outcome means that the loop goes on drawing. fmod and the comparison after it are done in double
    in the code; the model uses exact integers, which is the same below 2^53. The result pointer is null on entry and new arrays have
    arbitrary contents ([junk]). *)
From stdpp Require Import base numbers list.
From Verif Require Import CppBase Mem CSRModel.

(** The selection loop of Knuth (Sample.h 122-127, RandMatrix.h 144-159 and 323-340): [rnd i] is the number drawn in iteration [i]; the
    counter is the number of selected positions; [body i cnt] is what happens to a selected position. *)
Definition knuth {St} (range size : nat) (rnd : nat -> nat) (body : nat -> nat -> St -> outcome St) (s : St) : outcome (St * nat) :=
  for_up 0 range (fun i (s : St * nat) =>
    if decide (snd s < size) then
      let rRange := range - i in let rSize := size - snd s in
      if decide (rnd i `mod` rRange < rSize) then let* t := body i (snd s) (fst s) in Ok (t, snd s + 1) else Ok s
    else Ok s) (s, 0).

(** Sample.h 61-130, value type int64_t or size_t. [shuffle] stands for std::shuffle with the remaining random numbers. *)
Definition sample_int (range size : Z) (withReplacement : bool) (rnd : nat -> nat) (shuffle : list Z -> list Z) (junk : list Z) : outcome (list Z) :=
  if decide (size <= 0)%Z then Throw else
  if decide (range <= 0)%Z then Throw else
  if decide (withReplacement = false /\ range < size)%Z then Throw else
  if withReplacement then for_up 0 (Z.to_nat size) (fun c res => wr res c (Z.of_nat (rnd c))) junk
  else
    let* s := knuth (Z.to_nat range) (Z.to_nat size) rnd (fun i cnt res => wr res cnt (Z.of_nat i)) junk in
    Ok (shuffle (fst s)).

Section sample_float.
Context {V : Type} (eqb : V -> V -> bool).
(** contained.find(x) != contained.end(): the set holds the values generated so far. *)
Definition contains (x : V) (l : list V) : bool := existsb (eqb x) l.
(** Sample.h 101-113: one number, drawn until it is new. *)
Fixpoint draw_new (ds contained : list V) : outcome (V * list V) :=
  match ds with [] => Throw | d :: ds' => if contains d contained then draw_new ds' contained else Ok (d, ds') end.
(** Sample.h 61-113, floating-point value types, without replacement; [size] has passed the checks. *)
Definition sample_float (size : nat) (ds junk : list V) : outcome (list V) :=
  let* s := for_up 0 size (fun c (s : list V * list V * list V) => let '(res, ds, contained) := s in
    let* (v, ds) := draw_new ds contained in
    let* res := wr res c v in
    Ok (res, ds, v :: contained)) (junk, ds, []) in
  Ok (fst (fst s)).
End sample_float.

Section rand.
Context {V : Type} `{Val V}.

(** RandMatrix.h 124-126, 153-155: draw until the value is not zero. *)
Fixpoint draw_nz (ds : list V) : outcome (V * list V) :=
  match ds with [] => Throw | d :: ds' => if viszero d then draw_nz ds' else Ok (d, ds') end.

(** RandMatrix.h 82-161: dense matrices. [many] is the test sparsity >= 0.5; [limit] is the number of positions to be changed, which the
    code rounds from the sparsity (112-116). The new matrix has rowSkip = numCols. *)
Definition rand_dense (many : bool) (limit n m : nat) (rndIdx : nat -> nat) (ds junk : list V) : outcome (list V * list V) :=
  let* s := for2 n m (fun r c (s : list V * list V) => let '(res, ds) := s in
    if many then let* (v, ds) := draw_nz ds in let* res := wr res (r * m + c) v in Ok (res, ds)
    else let* res := wr res (r * m + c) vzero in Ok (res, ds)) (junk, ds) in
  let* s := knuth (m * n) limit rndIdx (fun i _ (s : list V * list V) => let '(res, ds) := s in
    let row := i / m in let col := i `mod` m in
    if many then let* res := wr res (row * m + col) vzero in Ok (res, ds)
    else let* (v, ds) := draw_nz ds in let* res := wr res (row * m + col) v in Ok (res, ds)) s in
  Ok (fst s).

(** RandMatrix.h 208-219: rows are drawn; the entry of a drawn row in rowOffsets+1 is incremented unless the row is full. *)
Fixpoint assign_up (m nnz : nat) (ds : list nat) (ro : list nat) (assigned : nat) : outcome (list nat * list nat) :=
  if decide (assigned < nnz) then
    match ds with
    | [] => Throw
    | r :: ds' => let* k := rd ro (r + 1) in
      if decide (k < m) then let* ro := wr ro (r + 1) (k + 1) in assign_up m nnz ds' ro (assigned + 1) else assign_up m nnz ds' ro assigned
    end
  else Ok (ro, ds).
(** RandMatrix.h 220-232: the same downwards from full rows. *)
Fixpoint assign_down (nnz : nat) (ds : list nat) (ro : list nat) (assigned : nat) : outcome (list nat * list nat) :=
  if decide (nnz < assigned) then
    match ds with
    | [] => Throw
    | r :: ds' => let* k := rd ro (r + 1) in
      if decide (0 < k) then let* ro := wr ro (r + 1) (k - 1) in assign_down nnz ds' ro (assigned - 1) else assign_down nnz ds' ro assigned
    end
  else Ok (ro, ds).
(** std::set<size_t>::emplace, and filling the set up to a size (RandMatrix.h 238-240, 247-249). *)
Fixpoint set_add (c : nat) (s : list nat) : list nat :=
  match s with [] => [c] | x :: s' => if decide (c < x) then c :: s else if decide (c = x) then s else x :: set_add c s' end.
Fixpoint fill_set (target : nat) (ds : list nat) (s : list nat) : outcome (list nat * list nat) :=
  if decide (length s < target) then match ds with [] => Throw | d :: ds' => fill_set target ds' (set_add d s) end else Ok (s, ds).
(** *colIdxsRes++ = c for all c in a list *)
Definition put_cols (l : list nat) (s : list nat * nat) : outcome (list nat * nat) :=
  for_up 0 (length l) (fun i (s : list nat * nat) => let* c := rd l i in let* cs := wr (fst s) (snd s) c in Ok (cs, snd s + 1)) s.
(** RandMatrix.h 233-254: the column indexes. [few] is the test sparsity <= 0.5. *)
Definition rand_cols (few : bool) (n m : nat) (ro : list nat) (s : list nat * nat * list nat) : outcome (list nat * nat * list nat) :=
  for_up 0 n (fun r (s : list nat * nat * list nat) => let '(cs, pos, ds) := s in
    let* k := rd ro (r + 1) in
    if few then let* (st, ds) := fill_set k ds [] in let* (cs, pos) := put_cols st (cs, pos) in Ok (cs, pos, ds)
    else let* (st, ds) := fill_set (m - k) ds [] in
      let* (cs, pos) := for_up 0 m (fun c (s : list nat * nat) =>
        if decide (c ∈ st) then Ok s else let* cs := wr (fst s) (snd s) c in Ok (cs, snd s + 1)) (cs, pos) in
      Ok (cs, pos, ds)) s.
(** RandMatrix.h 167-261: sparse matrices. [nnz] is rounded from the sparsity (175); [vals] gives the values, [rds] and [cds] the rows and
    columns drawn; [b]: the contents of the new arrays. *)
Definition rand_csr (few : bool) (nnz n m : nat) (vals : nat -> V) (rds cds : list nat) (b : csrbuf V) : outcome (csrbuf V * csrh) :=
  let* vs := for_up 0 nnz (fun i vs => wr vs i (vals i)) (bvals b) in
  let* ro := for_up 0 n (fun r ro => wr ro (r + 1) (if few then 0 else m)) (broff b) in
  let* (ro, _) := (if few then assign_up m nnz rds ro 0 else assign_down nnz rds ro (n * m)) in
  let* (cs, _, _) := rand_cols few n m ro (bcols b, 0, cds) in
  let* ro := wr ro 0 0 in
  let* ro := for_up 1 (n + 1) (fun i ro => let* x := rd ro i in let* y := rd ro (i - 1) in wr ro i (x + y)) ro in
  Ok (mkBuf vs cs ro, mkH 0 n m n false nnz 0).
End rand.
