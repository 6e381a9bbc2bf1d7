(** * Early returns: bringing a function of DaphneDSL into a form with one return

    Model of [rectifyEarlyReturns] and its helpers
    (src/parser/daphnedsl/DaphneDSLVisitor.cpp 2031-2251) and of the call site
    in [visitFunctionStatement] (2303-2310).

    The intermediate representation: a block is a list of operations.  A value
    is a number; in the code it is a pointer to the operation (or to the block)
    that defines it, so that two different operations never define the same
    number (hypothesis [NoDup (defs f)] of the theorems).

    What is simplified: an operation other than [scf.if], [scf.yield] and
    [daphne.return] is a function of its operands and of the state (which
    stands for everything it reads or writes outside, e.g. the output), and it
    always ends.  An operation with regions of its own which hold no return
    (a loop, for instance) is such an operation too: the values of the function
    which are used inside its regions are its [nested] operands.  Returns
    inside loops are not modelled: the code rejects them with an error.
    Result types are reduced to the number of results. *)

From Coq Require Import Arith Lia.
From stdpp Require Import base numbers list list_numbers.
From Verif Require Import CppBase.

(** The operations.  DaphneDSLVisitor.cpp 563-646 ([visitIfStatement]) builds
    [scf.if] with two blocks, each with a [scf.yield] at its end; without an
    else-part and without results there is no else-block (here: the empty
    block).  A return is put where the script has it, so that it may be
    followed by other operations, among them the yield. *)
Inductive op :=
  | Op (rs : list nat) (f : nat) (xs ns : list nat) (* rs = f(xs), ns used inside *)
  | If (rs : list nat) (c : nat) (t e : list op)
  | Yield (xs : list nat)
  | Ret (xs : list nat).

(** ** The names a block defines and uses *)

Fixpoint odefs (o : op) : list nat :=
  match o with
  | Op rs _ _ _ => rs
  | If rs _ t e => rs ++ concat (map odefs t) ++ concat (map odefs e)
  | _ => []
  end.
Definition defs (l : list op) : list nat := concat (map odefs l).

Fixpoint ouses (o : op) : list nat :=
  match o with
  | Op _ _ xs ns => xs ++ ns
  | If _ c t e => c :: concat (map ouses t) ++ concat (map ouses e)
  | Yield xs | Ret xs => xs
  end.
Definition uses (l : list op) : list nat := concat (map ouses l).

(** A number above all the names of the function, the parameters (which are
    [0 .. P - 1]) included: the values made by one run of [rectifyEarlyReturn]
    are new ones. *)
Definition bound (P : nat) (l : list op) : nat :=
  Nat.max P (S (list_max (defs l ++ uses l))).

Definition is_ret (o : op) : bool := match o with Ret _ => true | _ => false end.
Definition is_yield (o : op) : bool := match o with Yield _ => true | _ => false end.
Definition has_ret (l : list op) : bool := existsb is_ret l.
Definition has_yield (l : list op) : bool := existsb is_yield l.

(** ** removeTrailingOperationsAfterReturnOp (DaphneDSLVisitor.cpp 2031-2040) *)
Fixpoint trim (l : list op) : list op :=
  match l with
  | [] => []
  | Ret xs :: _ => [Ret xs]
  | o :: l' => o :: trim l'
  end.

(** ** Operation::clone, as called at DaphneDSLVisitor.cpp 2074: without a
    mapping from outside.  The clone defines new values ([K] more than the old
    ones); inside its regions the uses of values defined there go to the new
    values, all other uses stay as they are. *)
Fixpoint ren (d u : nat → nat) (o : op) : op :=
  match o with
  | Op rs f xs ns => Op (map d rs) f (map u xs) (map u ns)
  | If rs c t e => If (map d rs) (u c) (map (ren d u) t) (map (ren d u) e)
  | Yield xs => Yield (map u xs)
  | Ret xs => Ret (map u xs)
  end.

Definition inner (K : nat) (D : list nat) (x : nat) : nat :=
  if decide (x ∈ D) then K + x else x.

Definition clone (K : nat) (o : op) : op :=
  match o with
  | Op rs f xs ns => Op (map (Nat.add K) rs) f xs ns
  | If rs c t e =>
      let D := defs t ++ defs e in
      If (map (Nat.add K) rs) c
         (map (ren (Nat.add K) (inner K D)) t) (map (ren (Nat.add K) (inner K D)) e)
  | o => o
  end.

(** ** rectifyIfCaseWithoutReturnOp (DaphneDSLVisitor.cpp 2049-2104) *)

(** A context: the ifs around the block, innermost first, each with its results
    and with the operations after it in its block. *)
Notation ctx := (list (list nat * list op)) (only parsing).

(** Lines 2051-2055: append a yield if the block does not end in one. *)
Definition ensure_yield (b : list op) : list op :=
  match last b with Some (Yield _) => b | _ => b ++ [Yield []] end.

(** Up to and with the first yield: from there on line 2068 goes to the
    operations after the enclosing if. *)
Fixpoint upto (l : list op) : list op :=
  match l with
  | [] => []
  | Yield xs :: _ => [Yield xs]
  | o :: l' => o :: upto l'
  end.

(** Lines 2058-2080 for the operations after the enclosing ifs: they are
    cloned.  Lines 2063-2066: an error if there is no enclosing if. *)
Fixpoint gather_up (K : nat) (ks : ctx) : outcome (list op) :=
  match ks with
  | [] => Throw
  | (_, post) :: ks' =>
      let* g := (if has_yield post then gather_up K ks' else Ok []) in
      Ok (map (clone K) (upto post) ++ g)
  end.

(** Lines 2058-2080: the operations after the if in its own block are moved. *)
Definition gather (K : nat) (post : list op) (ks : ctx) : outcome (list op) :=
  let* g := (if has_yield post then gather_up K ks else Ok []) in
  Ok (upto post ++ g).

(** Line 2092: [replaceUsesWithIf], only for the operands of operations which
    are directly in the block. *)
Definition sub (s : nat → nat) (o : op) : op :=
  match o with
  | Op rs f xs ns => Op rs f (map s xs) ns
  | If rs c t e => If rs (s c) t e
  | Yield xs => Yield (map s xs)
  | Ret xs => Ret (map s xs)
  end.

(** Line 2088: the results of the if, one by one, to the yielded values. *)
Fixpoint assoc (rs ys : list nat) (s : nat → nat) (x : nat) : nat :=
  match rs, ys with
  | r :: rs', y :: ys' => if decide (x = r) then y else assoc rs' ys' s x
  | _, _ => s x
  end.

(** Lines 2082-2103: the yields are taken out one by one; the results of the
    corresponding if ([currIfOp], which goes one if up at each yield) are
    replaced in the block.  The replacements are carried along in [s] instead
    of being done at once on the rest of the block.  A yield without an
    enclosing if left would be a null pointer access. *)
Fixpoint elim (rss : list (list nat)) (s : nat → nat) (l : list op) : outcome (list op) :=
  match l with
  | [] => Ok []
  | Yield xs :: l' =>
      match rss with
      | [] => UB
      | rs :: rss' => elim rss' (assoc rs (map s xs) s) l'
      end
  | o :: l' => let* r := elim rss s l' in Ok (sub s o :: r)
  end.

(** ** rectifyEarlyReturn (DaphneDSLVisitor.cpp 2113-2166) *)

(** Lines 2116-2138 and 2139-2161: one of the two new branches. *)
Definition new_case (K : nat) (rs : list nat) (b post : list op) (ks : ctx) : outcome (list op) :=
  let* l := (if has_ret b then Ok (trim b)
             else let* g := gather K post ks in
                  elim (rs :: map fst ks) (λ x, x) (ensure_yield b ++ g)) in
  match last l with
  | Some (Ret xs) => Ok (removelast l ++ [Yield xs])
  | _ => Throw
  end.

(** The number of results of the new if comes from the yield of its first
    branch. *)
Definition width (l : list op) : nat :=
  match last l with Some (Yield xs) => length xs | _ => 0 end.

(** Lines 2162-2166: the operations from the if on, replaced by the new if and a
    return.  [post] is still there if it was not moved.  If the results of the
    erased if are still used, LLVM stops with an assertion or, without
    assertions, goes on with dangling uses: here they stay as names which
    nothing defines. *)
Definition close (K : nat) (rs : list nat) (c : nat) (t e post : list op) (ks : ctx)
    : outcome (list op) :=
  let* t' := new_case K rs t post ks in
  let* e' := new_case K rs e post ks in
  let rs' := seq (2 * K) (width t') in
  Ok (If rs' c t' e' :: Ret rs' :: (if has_ret t && has_ret e then post else [])).

(** ** rectifyEarlyReturns (DaphneDSLVisitor.cpp 2209-2251) *)

(** The level of the most nested return: 0 if there is none, 1 for the block
    itself (lines 2213-2229). *)
Fixpoint odepth (o : op) : nat :=
  match o with
  | Ret _ => 1
  | If _ _ t e =>
      match Nat.max (list_max (map odepth t)) (list_max (map odepth e)) with
      | 0 => 0
      | d => S d
      end
  | _ => 0
  end.
Definition depth (l : list op) : nat := list_max (map odepth l).

(** The first return at level [2 + d] in the order of the walk: the if around it
    is rectified (line 2243).  [None]: there is none. *)
Fixpoint rect (K d : nat) {struct d} : ctx → list op → option (outcome (list op)) :=
  fix go ks l :=
    match l with
    | [] => None
    | o :: post =>
        let here :=
          match o with
          | If rs c t e =>
              match d with
              | 0 => if has_ret t || has_ret e then Some (close K rs c t e post ks) else None
              | S d' =>
                  match rect K d' ((rs, post) :: ks) t with
                  | Some r => Some (let* t' := r in Ok (If rs c t' e :: post))
                  | None =>
                      match rect K d' ((rs, post) :: ks) e with
                      | Some r => Some (let* e' := r in Ok (If rs c t e' :: post))
                      | None => None
                      end
                  end
              end
          | _ => None
          end in
        match here with
        | Some r => Some r
        | None =>
            match go ks post with
            | Some r => Some (let* l' := r in Ok (o :: l'))
            | None => None
            end
        end
    end.

(** The loop (lines 2212-2250), with a bound [n] on the number of its
    iterations; [None]: it needs more.  [P] is the number of parameters. *)
Fixpoint rectify (P n : nat) (f : list op) : option (outcome (list op)) :=
  match n with
  | 0 => None
  | S n' =>
      match depth f with
      | 0 => Some (Ok f)
      | 1 => Some (Ok (trim f))
      | S (S d) =>
          match rect (bound P f) d [] f with
          | Some (Ok f1) => rectify P n' f1
          | Some Throw => Some Throw
          | _ => Some UB
          end
      end
  end.

(** visitFunctionStatement, lines 2305-2310: a return at the end if there is no
    terminator. *)
Definition finish (f : list op) : list op :=
  match last f with
  | Some (Ret _) | Some (Yield _) => f
  | _ => f ++ [Ret []]
  end.
