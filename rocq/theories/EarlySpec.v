(** * Early returns: what a function means, and when the verifier accepts it *)

From Coq Require Import Arith Lia.
From stdpp Require Import base numbers list list_numbers.
From Verif Require Import CppBase EarlyModel.

(** ** The meaning of a function

    A return anywhere ends the function; an if runs one of its branches and its
    results are what the branch yields; each value keeps its name until the end
    of the function.  A value that has not been computed is [None]; to use it in
    an operation, in a condition or in a return is an error ([Stuck]). *)
Section meaning.
  Context {V S : Type}.
  (** what an operation does: from its operands and the state, its results and
      the new state *)
  Context (sem : nat → list V → list V → S → (nat → V) * S).
  Context (truth : V → bool).

  Notation env := (nat → option V) (only parsing).

  Inductive exit :=
    | End                            (* went on behind the last operation *)
    | YieldE (ws : list (option V))  (* the values of a branch *)
    | RetE (ws : list V).            (* the function returns *)

  Inductive res := Stuck | Done (x : exit) (r : env) (s : S).

  Definition upd (r : env) (x : nat) (w : option V) : env :=
    λ y, if decide (y = x) then w else r y.

  Fixpoint bind (r : env) (xs : list nat) (ws : list (option V)) : option env :=
    match xs, ws with
    | [], [] => Some r
    | x :: xs', w :: ws' => bind (upd r x w) xs' ws'
    | _, _ => None
    end.

  Definition binds (r : env) (xs : list nat) (ws : list (option V)) (s : S) : res :=
    match bind r xs ws with Some r' => Done End r' s | None => Stuck end.

  Definition branch_end (rs : list nat) (a : res) : res :=
    match a with
    | Stuck => Stuck
    | Done End r s => binds r rs [] s
    | Done (YieldE ws) r s => binds r rs ws s
    | Done (RetE ws) r s => Done (RetE ws) r s
    end.

  Fixpoint exec (o : op) (r : env) (s : S) : res :=
    match o with
    | Op rs f xs ns =>
        match mapM r xs, mapM r ns with
        | Some vs, Some us =>
            let '(w, s') := sem f vs us s in
            binds r rs (map (λ i, Some (w i)) (seq 0 (length rs))) s'
        | _, _ => Stuck
        end
    | If rs c t e =>
        let run :=
          fix run (l : list op) (r : env) (s : S) : res :=
            match l with
            | [] => Done End r s
            | o :: l' => match exec o r s with Done End r' s' => run l' r' s' | a => a end
            end in
        match r c with
        | None => Stuck
        | Some v => branch_end rs (if truth v then run t r s else run e r s)
        end
    | Yield xs => Done (YieldE (map r xs)) r s
    | Ret xs => match mapM r xs with Some ws => Done (RetE ws) r s | None => Stuck end
    end.

  Fixpoint block (l : list op) (r : env) (s : S) : res :=
    match l with
    | [] => Done End r s
    | o :: l' => match exec o r s with Done End r' s' => block l' r' s' | a => a end
    end.

  (** What a caller sees of a function: the values it returns (none if it runs
      to its end) and the final state.  [None]: an error. *)
  Definition call (f : list op) (r : env) (s : S) : option (list V * S) :=
    match block f r s with
    | Done (RetE ws) _ s' => Some (ws, s')
    | Done End _ s' => Some ([], s')
    | _ => None
    end.
End meaning.

Global Arguments exit : clear implicits.
Global Arguments res : clear implicits.

(** ** What the front end hands over

    All values are defined once; a yield is the last operation of its block, and
    the block of the function has none. *)
Fixpoint oyl (o : op) : Prop :=
  match o with
  | If _ _ t e =>
      ((fix yl l := match l with
                    | [] => True
                    | o :: l' => oyl o ∧ (is_yield o = true → l' = []) ∧ yl l'
                    end) t)
      ∧ ((fix yl l := match l with
                      | [] => True
                      | o :: l' => oyl o ∧ (is_yield o = true → l' = []) ∧ yl l'
                      end) e)
  | _ => True
  end.
Fixpoint yields_last (l : list op) : Prop :=
  match l with
  | [] => True
  | o :: l' => oyl o ∧ (is_yield o = true → l' = []) ∧ yields_last l'
  end.

(** Every use is of a value which is defined before it in the same block or in a
    block around it; [dom] are the values known at the start. *)
Fixpoint oscoped (dom : list nat) (o : op) : bool :=
  let all xs := forallb (λ x, bool_decide (x ∈ dom)) xs in
  match o with
  | Op _ _ xs ns => all xs && all ns
  | If _ c t e =>
      let blk := fix blk dom l := match l with
                   | [] => true
                   | o :: l' =>
                       oscoped dom o
                       && blk (match o with Op rs _ _ _ | If rs _ _ _ => rs ++ dom | _ => dom end) l'
                   end in
      all [c] && blk dom t && blk dom e
  | Yield xs | Ret xs => all xs
  end.
Fixpoint scoped (dom : list nat) (l : list op) : bool :=
  match l with
  | [] => true
  | o :: l' =>
      oscoped dom o
      && scoped (match o with Op rs _ _ _ | If rs _ _ _ => rs ++ dom | _ => dom end) l'
  end.

(** All returns have [m] values; the branches of an if yield as many values as
    the if has results. *)
Fixpoint oarity (m : nat) (o : op) : bool :=
  match o with
  | If rs _ t e =>
      let ok b :=
        forallb (oarity m) b
        && forallb (λ o, match o with Yield xs => Nat.eqb (length xs) (length rs) | _ => true end) b
        && (has_yield b || has_ret b || Nat.eqb (length rs) 0) in
      ok t && ok e
  | Ret xs => Nat.eqb (length xs) m
  | _ => true
  end.
Definition arity (m : nat) (f : list op) : bool := forallb (oarity m) f.

(** A function with the parameters [0 .. P - 1] as [visitBlockStatement] leaves
    it. *)
Definition source (P : nat) (f : list op) : Prop :=
  NoDup (seq 0 P ++ defs f) ∧ yields_last f ∧ has_yield f = false ∧ scoped (seq 0 P) f = true.

(** ** What the verifier accepts after the parsing (MLIR: dominance of
    definitions over uses, terminators, number of results of [scf.if],
    [daphne.return] only in the block of the function).

    [k = Some n]: a block which yields [n] values; [k = None]: the block of a
    function. *)
Fixpoint overified (dom : list nat) (o : op) : bool :=
  let all xs := forallb (λ x, bool_decide (x ∈ dom)) xs in
  match o with
  | Op _ _ xs ns => all xs && all ns
  | If rs c t e =>
      let blk := fix blk dom l := match l with
                   | [] => bool_decide (rs = [])
                   | Yield xs :: l' =>
                       forallb (λ x, bool_decide (x ∈ dom)) xs
                       && bool_decide (length xs = length rs) && bool_decide (length l' = 0)
                   | Ret _ :: _ => false
                   | o :: l' =>
                       overified dom o
                       && blk (match o with Op rs _ _ _ | If rs _ _ _ => rs ++ dom | _ => dom end) l'
                   end in
      all [c] && blk dom t && blk dom e
  | _ => false
  end.
Fixpoint verified (dom : list nat) (l : list op) : bool :=
  match l with
  | [] => false
  | [Ret xs] => forallb (λ x, bool_decide (x ∈ dom)) xs
  | o :: l' =>
      overified dom o
      && verified (match o with Op rs _ _ _ | If rs _ _ _ => rs ++ dom | _ => dom end) l'
  end.

(** The form the pass aims at: a single return, at the end. *)
Definition one_return (f : list op) : Prop :=
  ∃ l xs, f = l ++ [Ret xs] ∧ depth l = 0.
