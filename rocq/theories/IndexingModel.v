(** Model of indexing in DaphneDSL: which operations X[rows, cols], X[[rows, cols]] and assignments to X[rows, cols] are
    translated to, with the kernels of InsertModel.v and ExtractModel.v. *)
From stdpp Require Import base numbers list.
From Coq Require Import ZArith Lia.
From Verif Require Import CppBase Mem CSRModel CastModel InsertModel ExtractModel.
Local Open Scope nat_scope.

(** A scalar used as a position: an integer or a floating-point number, as a fraction. *)
Record pos := mkPos { p_num : Z; p_den : positive }.
(** src/parser/ParserUtils.h, line 144 (castSI64If): a floating-point number is truncated towards zero (static_cast);
    undefined if the result does not fit.  NaN and infinities are not modelled. *)
Definition to_si64 (p : pos) : outcome Z :=
  let z := Z.quot (p_num p) (Z.pos (p_den p)) in
  if decide (- 2 ^ 63 <= z < 2 ^ 63)%Z then Ok z else UB.
(** EwAddOp with a result of type ui64, cast to si64 (DaphneDSLVisitor.cpp, lines 121-124). *)
Definition plus1 (z : Z) : Z := ((z + 1 + 2 ^ 63) mod 2 ^ 64 - 2 ^ 63)%Z.

(** What is written for the rows or the columns.  A range without bounds is the same as nothing (visitRange, lines 1919-1927). *)
Inductive axis :=
| Omit
| At (p : pos)
| Range (lo up : option pos)
| Positions (sel : dmat Z)
| Label.

Section indexing.
  Context {V : Type} `{Val V} (junk : nat -> list V).

  (** DaphneDSLVisitor.cpp, lines 134-139, 175-180: the bounds of a range, the defaults being 0 and the number of rows (columns). *)
  Definition bounds (n : nat) (lo up : option pos) : outcome (Z * Z) :=
    let* l := match lo with Some p => to_si64 p | None => Ok 0%Z end in
    let* u := match up with Some p => to_si64 p | None => Ok (Z.of_nat n) end in
    Ok (l, u).
  (** The bounds for a scalar position (lines 118-124, 163-168). *)
  Definition bounds_at (p : pos) : outcome (Z * Z) := let* z := to_si64 p in Ok (z, plus1 z).

  (** DaphneDSLVisitor.cpp, lines 104-147 (applyRightIndexing) for rows; Label: lines 112-117 with allowLabel = false. *)
  Definition right_rows (ax : axis) (a : dmat V) : outcome (dmat V) :=
    match ax with
    | Omit | Range None None => Ok a
    | At p => let* b := bounds_at p in slice_row a (fst b) (snd b)
    | Range lo up => let* b := bounds (m_rows a) lo up in slice_row a (fst b) (snd b)
    | Positions sel => extract_row (junk (m_rows sel * m_cols a)) a sel
    | Label => Throw
    end.
  (** ... and for columns. *)
  Definition right_cols (ax : axis) (a : dmat V) : outcome (dmat V) :=
    match ax with
    | Omit | Range None None => Ok a
    | At p => let* b := bounds_at p in slice_col a (fst b) (snd b)
    | Range lo up => let* b := bounds (m_cols a) lo up in slice_col a (fst b) (snd b)
    | Positions sel => extract_col (junk (m_rows a * m_rows sel)) a sel
    | Label => Throw
    end.
  (** DaphneDSLVisitor.cpp, lines 1325-1345 (visitRightIdxExtractExpr): X[rows, cols] of a matrix. *)
  Definition right_index (rows cols : axis) (a : dmat V) : outcome (dmat V) :=
    let* a := right_rows rows a in right_cols cols a.
  (** DaphneDSLVisitor.cpp, lines 1304-1323 (visitRightIdxFilterExpr): X[[rows, cols]]. *)
  Definition filter_index (rows cols : option (dmat Z)) (a : dmat V) : outcome (dmat V) :=
    let* a := match rows with Some s => filter_row junk a s | None => Ok a end in
    match cols with Some s => filter_col junk a s | None => Ok a end.

  (** DaphneDSLVisitor.cpp, lines 149-184 (applyLeftIndexing) for rows and columns. *)
  Definition left_rows (ax : axis) (a ins : dmat V) : outcome (dmat V) :=
    match ax with
    | At p => let* b := bounds_at p in insert_row junk a ins (fst b) (snd b)
    | Range lo up => let* b := bounds (m_rows a) lo up in insert_row junk a ins (fst b) (snd b)
    | _ => Throw
    end.
  Definition left_cols (ax : axis) (a ins : dmat V) : outcome (dmat V) :=
    match ax with
    | At p => let* b := bounds_at p in insert_col junk a ins (fst b) (snd b)
    | Range lo up => let* b := bounds (m_cols a) lo up in insert_col junk a ins (fst b) (snd b)
    | _ => Throw
    end.
  Definition given (ax : axis) : bool := match ax with Omit | Range None None => false | _ => true end.

  (** Values of variables: matrices and scalars. *)
  Inductive value := Mat (a : dmat V) | Sca (v : V).
  (** Variables with their values and whether they are read-only. *)
  Definition vars := nat -> option (value * bool).
  Definition put (s : vars) (x : nat) (v : value) : vars := fun y => if decide (y = x) then Some (v, false) else s y.
  (** DaphneDSLVisitor.cpp, lines 61-102 (handleAssignmentPart); [idx] is what is in brackets after the variable.  An operation with a scalar
      in place of a matrix is refused by the compiler. *)
  Definition assign (s : vars) (x : nat) (idx : option (axis * axis)) (v : value) : outcome vars :=
    match s x with
    | Some (_, true) => Throw
    | ov =>
        match idx with
        | None => Ok (put s x v)
        | Some (rows, cols) =>
            match ov with
            | None => Throw
            | Some (obj, _) =>
                if given rows || given cols then
                  match obj, v with
                  | Mat a, Mat i =>
                      let* b :=
                        (if given rows && given cols then
                           let* seg := right_rows rows a in
                           let* seg := left_cols cols seg i in
                           left_rows rows a seg
                         else if given rows then left_rows rows a i
                         else left_cols cols a i) in
                      Ok (put s x (Mat b))
                  | _, _ => Throw
                  end
                else Ok (put s x v)
            end
        end
    end.
  (** DaphneDSLVisitor.cpp, lines 528-561 (visitAssignStatement).  The i-th value is assigned to the i-th name with the i-th of the brackets
      that occur on the left-hand side (ctx->indexing(i)), wherever they stand. *)
  Fixpoint assign_parts (s : vars) (xs : list nat) (idxs : list (axis * axis)) (vs : list value) : outcome vars :=
    match xs, vs with
    | x :: xs, v :: vs => let* s := assign s x (head idxs) v in assign_parts s xs (tail idxs) vs
    | [], [] => Ok s
    | _, _ => Throw
    end.
  Definition assign_statement (s : vars) (parts : list (nat * option (axis * axis))) (vs : list value) : outcome vars :=
    assign_parts s (map fst parts) (omap snd parts) vs.
End indexing.
Arguments Mat {V}.
Arguments Sca {V}.
