(** Kernels that encode and generate data (src/runtime/local/kernels): OneHot.h, CTable.h, Seq.h, Replace.h, Bin.h.
    The result pointer is null on entry, as in compiled programs. Fresh, uninitialised memory holds arbitrary values
    [junk]. Dense matrices are [dmat] of Mem.v: an array, the position of the first element, the shape and rowSkip. *)
From stdpp Require Import base numbers list list_numbers.
From Coq Require Import Lia QArith.Qround QArith.QArith QArith.Qabs Floats.SpecFloat.
From Verif Require Import CppBase Mem.
Local Open Scope nat_scope.

(** DataObjectFactory::create<DenseMatrix<VT>>(rows, cols, false): uninitialised memory. *)
Definition fresh {V} (junk : nat -> V) (n : nat) : list V := map junk (seq 0 n).

(** ** OneHot.h *)
(** Lines 72-83: the number of columns of the result; entries below -1 are rejected. *)
Fixpoint one_hot_cols (info : list Z) (n : nat) : outcome nat :=
  match info with
  | [] => Ok n
  | d :: info' =>
      if decide (d = -1)%Z then one_hot_cols info' (n + 1)
      else if decide (0 < d)%Z then one_hot_cols info' (n + Z.to_nat d)
      else if decide (d <> 0)%Z then Throw
      else one_hot_cols info' n
  end.

Section onehot.
  Context {V : Type} (vzero vone : V).
  (** static_cast<size_t>(value), line 110. Conversions C++ leaves undefined (negative floating-point numbers) are not modelled. *)
  Context (cast : V -> nat).

  (** Lines 102-119, one iteration: cell (r, cArg); the state is the result array and cRes. [p]: valuesRes. *)
  Definition one_hot_cell (a : dmat V) (info : list Z) (p r c : nat) (s : list V * nat) : outcome (list V * nat) :=
    let '(b, k) := s in
    let* d := rd info c in
    if decide (d = -1)%Z then
      let* v := dm_at a r c in let* b := wr b (p + k) v in Ok (b, k + 1)
    else if decide (d <> 0)%Z then
      let n := Z.to_nat d in
      let* b := copy_range b (p + k) (replicate n vzero) 0 n in                       (* memset, line 109 *)
      let* v := dm_at a r c in
      if decide (cast v < n) then
        let* b := wr b (p + k + cast v) vone in Ok (b, k + n)
      else Throw
    else Ok (b, k).
  (** Lines 59-124 (DenseMatrix <- DenseMatrix). Result: number of columns and values of the result. *)
  Definition one_hot (junk : nat -> V) (a : dmat V) (info_rows : nat) (info : list Z) : outcome (nat * list V) :=
    if decide (info_rows <> 1) then Throw                                             (* 61-63 *)
    else if decide (m_cols a <> length info) then Throw                               (* 67-70 *)
    else
      let* m := one_hot_cols info 0 in
      if decide (m = 0) then Throw                                                    (* 85-87 *)
      else
        let* b := for_up 0 (m_rows a) (fun r b =>
          let* s := for_up 0 (m_cols a) (one_hot_cell a info (r * m) r) (b, 0) in Ok (fst s))
          (fresh junk (m_rows a * m)) in
        Ok (m, b).

  (** Lines 130-157 (strings). firstIndexMap as the list of distinct strings in the order of insertion: the value of a key
      is the size of the map when it was inserted (the right operand of = is evaluated first). [of_nat]: VTRes(index). *)
  Context {K : Type} `{!EqDecision K} (of_nat : nat -> V).
  Fixpoint index_of (k : K) (l : list K) : option nat :=
    match l with
    | [] => None
    | x :: l' => if decide (x = k) then Some 0 else option_map S (index_of k l')
    end.
  (** Lines 144-150: one iteration. Both arrays are indexed with rowSkipArg * r + cArg (145). *)
  Definition recode_cell (a : dmat K) (c r : nat) (s : list V * list K) : outcome (list V * list K) :=
    let '(b, seen) := s in
    let i := m_skip a * r + c in
    let* k := rd (m_buf a) (m_off a + i) in
    let seen := match index_of k seen with Some _ => seen | None => seen ++ [k] end in
    match index_of k seen with
    | Some n => let* b := wr b i (of_nat n) in Ok (b, seen)
    | None => UB
    end.
  Definition one_hot_string (junk : nat -> V) (junk' : nat -> V) (a : dmat K) (info_rows : nat) (info : list Z) : outcome (nat * list V) :=
    let* b := for_up 0 (m_cols a) (fun c b =>
      let* s := for_up 0 (m_rows a) (recode_cell a c) (b, []) in Ok (fst s))
      (fresh junk' (m_rows a * m_cols a)) in
    one_hot junk (mkDM b 0 (m_rows a) (m_cols a) (m_cols a)) info_rows info.
End onehot.

(** ** CTable.h, lines 55-106 (DenseMatrix <- DenseMatrix, DenseMatrix); coordinates are integers. *)
Section ctable.
  Context {W : Type} (wzero : W) (wadd : W -> W -> W).

  (** vals[i] of a column: the code does not use rowSkip (90, 91, 99, 100). *)
  Definition coord (a : dmat Z) (i : nat) : outcome Z := rd (m_buf a) (m_off a + i).
  (** *std::max_element(vals, &vals[n]), lines 76 and 78: of an empty range, the end is dereferenced. *)
  Definition max_coord (a : dmat Z) (n : nat) : outcome Z :=
    if decide (n = 0) then UB
    else let* v := coord a 0 in for_up 1 n (fun i m => let* x := coord a i in Ok (if decide (m < x)%Z then x else m)) v.
  (** resVals[static_cast<size_t>(r * resRowSkip + c)] += weight, lines 92 and 102: a negative position wraps to one far outside. *)
  Definition bump (b : list W) (i : Z) (w : W) : outcome (list W) :=
    if decide (0 <= i)%Z then let* v := rd b (Z.to_nat i) in wr b (Z.to_nat i) (wadd v w) else UB.
  (** A negative number of rows or columns is too large as a size_t: the allocation fails with an exception. *)
  Definition ctable (lhs rhs : dmat Z) (w : W) (rows cols : Z) : outcome (nat * nat * list W) :=
    if decide (m_cols lhs <> 1 \/ m_cols rhs <> 1) then Throw                         (* 67-68 *)
    else if decide (m_rows lhs <> m_rows rhs) then Throw                              (* 69-70 *)
    else
      let n := m_rows lhs in
      let* R := if decide (rows < 0)%Z then let* x := max_coord lhs n in Ok (x + 1)%Z else Ok rows in
      let* C := if decide (cols < 0)%Z then let* x := max_coord rhs n in Ok (x + 1)%Z else Ok cols in
      if decide (R < 0 \/ C < 0)%Z then Throw
      else
        let b := replicate (Z.to_nat R * Z.to_nat C) wzero in                         (* 79: zeroed *)
        let* b :=
          if decide (rows < 0 /\ cols < 0)%Z then                                     (* 85-93 *)
            for_up 0 n (fun i b => let* r := coord lhs i in let* c := coord rhs i in bump b (r * C + c)%Z w) b
          else                                                                        (* 98-103 *)
            for_up 0 n (fun i b => let* r := coord lhs i in let* c := coord rhs i in
              if decide (r < R /\ c < C)%Z then bump b (r * C + c)%Z w else Ok b) b in
        Ok (Z.to_nat R, Z.to_nat C, b).
End ctable.

(** ** Seq.h, lines 49-98. The arithmetic of the value type is a parameter; [a_steps x y]: the conversion of
    ceil(x / y) to size_t, where / is the division of the value type (68); [a_eps]: VT eps = 1.0e-13 (88). *)
Record arith (A : Type) := mkArith {
  a_nan : A -> bool; a_iszero : A -> bool; a_ltb : A -> A -> bool; a_zero : A; a_eps : A;
  a_add : A -> A -> outcome A; a_sub : A -> A -> outcome A; a_abs : A -> outcome A; a_steps : A -> A -> outcome nat }.
Arguments mkArith {A}. Arguments a_nan {A}. Arguments a_iszero {A}. Arguments a_ltb {A}. Arguments a_zero {A}. Arguments a_eps {A}.
Arguments a_add {A}. Arguments a_sub {A}. Arguments a_abs {A}. Arguments a_steps {A}.

Definition seq_kernel {A} (O : arith A) (junk : nat -> A) (start stop inc : A) : outcome (list A) :=
  if a_nan O inc || a_nan O start || a_nan O stop then Throw                          (* 51-56 *)
  else if a_iszero O inc then Throw                                                   (* 57-58 *)
  else if (a_ltb O start stop && a_ltb O inc (a_zero O)) || (a_ltb O stop start && a_ltb O (a_zero O) inc) then Ok []  (* 60-64 *)
  else
    let* d := a_sub O stop start in
    let* d := a_abs O d in                                                            (* 66 *)
    let* i := a_abs O inc in
    let* k := a_steps O d i in
    let n := k + 1 in                                                                 (* 67-68 *)
    let* s := for_up 0 n (fun i s =>
      let* b := wr (fst s) i (snd s) in let* acc := a_add O (snd s) inc in Ok (b, acc)) (fresh junk n, start) in  (* 79-84 *)
    let b := fst s in
    let* last := rd b (n - 1) in                                                      (* 86 *)
    if a_ltb O stop start then                                                        (* 92-93 *)
      let* x := a_sub O stop last in Ok (if a_ltb O (a_eps O) x then take (n - 1) b else b)
    else if a_ltb O start stop then                                                   (* 94-96 *)
      let* x := a_sub O last stop in Ok (if a_ltb O (a_eps O) x then take (n - 1) b else b)
    else Ok b.

(** Signed integers between [lo] and [hi]: overflow is undefined behaviour; 1.0e-13 converts to 0; the quotient is an
    integer already (its conversion to double is exact below 2^53, larger results are not modelled separately). *)
Definition in_int (lo hi : Z) (x : Z) : outcome Z := if decide (lo <= x <= hi)%Z then Ok x else UB.
Definition int_arith (lo hi : Z) : arith Z :=
  mkArith (fun _ => false) (fun x => (x =? 0)%Z) Z.ltb 0%Z 0%Z
    (fun x y => in_int lo hi (x + y)%Z) (fun x y => in_int lo hi (x - y)%Z) (fun x => in_int lo hi (Z.abs x))
    (fun x y => Ok (Z.to_nat (Z.quot x y))).
(** Exact arithmetic on rational numbers: what floating-point numbers approximate. *)
Definition Qltb (x y : Q) : bool := negb (Qle_bool y x).
Definition q_eps : Q := 1 # (10 ^ 13).
Definition q_arith : arith Q :=
  mkArith (fun _ => false) (fun x => Qeq_bool x 0) Qltb 0%Q q_eps
    (fun x y => Ok (x + y)%Q) (fun x y => Ok (x - y)%Q) (fun x => Ok (Qabs x)) (fun x y => Ok (Z.to_nat (Qceiling (x / y)))).
(** IEEE 754 doubles. *)
Definition f_ceil (x : spec_float) : outcome nat :=
  match x with
  | S754_zero _ => Ok 0
  | S754_finite s m e =>
      let z := (if s then Zneg m else Zpos m) in
      Ok (Z.to_nat (if (0 <=? e)%Z then z * 2 ^ e else - ((- z) / 2 ^ (- e)))%Z)
  | _ => UB
  end.
Definition f_eps : spec_float := S754_finite false 7922816251426434 (-96).            (* the double nearest to 1.0e-13 *)
Definition f64_arith : arith spec_float :=
  mkArith (fun x => match x with S754_nan => true | _ => false end) (fun x => match x with S754_zero _ => true | _ => false end)
    SFltb (S754_zero false) f_eps
    (fun x y => Ok (SFadd 53 1024 x y)) (fun x y => Ok (SFsub 53 1024 x y)) (fun x => Ok (SFabs x))
    (fun x y => f_ceil (SFdiv 53 1024 x y)).

(** ** Replace.h. [eqb]: the == of the value type (NaN is not equal to itself). *)
Section replace.
  Context {V : Type} (eqb : V -> V -> bool) (vzero : V).
  Definition isnan (v : V) : bool := negb (eqb v v).                                  (* v != v *)
  (** Lines 81-82 and 170-171. *)
  Definition nothing_to_do (pat rep : V) : bool := (isnan rep && isnan pat) || eqb pat rep.
  (** Lines 108-132 and 191-213: is this value replaced? *)
  Definition hit (pat v : V) : bool := if isnan pat then isnan v else eqb v pat.

  (** Lines 55-134 (DenseMatrix <- DenseMatrix). [None]: the function returns without creating a result (67-70). *)
  Definition replace_dense (junk : nat -> V) (a : dmat V) (pat rep : V) : outcome (option (list V)) :=
    let n := m_rows a in let m := m_cols a in
    if decide (n * m = 0) then Ok None
    else if nothing_to_do pat rep then
      let* b := for2 n m (fun r c b => let* v := dm_at a r c in wr b (r * m + c) v) (fresh junk (n * m)) in Ok (Some b)
    else
      let* b := for2 n m (fun r c b => let* v := dm_at a r c in
                  if hit pat v then wr b (r * m + c) rep else wr b (r * m + c) v) (fresh junk (n * m)) in Ok (Some b).

  (** A CSR matrix: the values and column indexes of the underlying matrix, its row offsets from the first row of the
      view on, and the shape. CSRMatrix.h: getValues() and getColIdxs() start at the underlying arrays' start,
      getValues(r) at position rowOffsets[r], getNumNonZeros() is rowOffsets[numRows] - rowOffsets[0]. *)
  Record csr := mkC { c_vals : list V; c_cols : list nat; c_offs : list nat; c_rows : nat; c_ncols : nat }.
  (** Lines 140-215 (CSRMatrix <- CSRMatrix). *)
  Definition replace_csr (junk : nat -> V) (junkn junko : nat -> nat) (a : csr) (pat rep : V) : outcome (option csr) :=
    if eqb pat vzero then Throw                                                       (* 145-148 *)
    else
      let n := c_rows a in
      let* e := rd (c_offs a) n in let* o := rd (c_offs a) 0 in
      let nnz := e - o in                                                             (* 151 *)
      if decide (nnz = 0) then Ok None                                                (* 152-155 *)
      else
        let* offs := copy_range (fresh junko (n + 1)) 0 (c_offs a) 0 (n + 1) in       (* 179-181 and 186-188 *)
        let* cols := copy_range (fresh junkn nnz) 0 (c_cols a) 0 nnz in
        let* vals := copy_range (fresh junk nnz) 0 (c_vals a) 0 nnz in
        if nothing_to_do pat rep then Ok (Some (mkC vals cols offs n (c_ncols a)))
        else
          let* vals := for_up 0 n (fun r b =>
            let* p := rd (c_offs a) r in let* q := rd offs r in
            let* p' := rd (c_offs a) (r + 1) in
            for_up 0 (p' - p) (fun c b => let* v := rd (c_vals a) (p + c) in
              if hit pat v then wr b (q + c) rep else Ok b) b) vals in
          Ok (Some (mkC vals cols offs n (c_ncols a))).
End replace.
Arguments csr : clear implicits. Arguments mkC {V}. Arguments c_vals {V}. Arguments c_cols {V}. Arguments c_offs {V}. Arguments c_rows {V}. Arguments c_ncols {V}.

(** ** Bin.h, lines 84-128, in exact arithmetic. The value type of the result is an integer type between [rlo] and [rhi];
    converting a number outside of it is undefined behaviour. NaN and infinities are not modelled. *)
Definition bin_value (rlo rhi : Z) (numBins : Z) (mn size : Q) (v : Q) : outcome Z :=
  if Qle_bool v mn then Ok 0%Z                                                        (* 113-114 *)
  else
    let* b := in_int rlo rhi (Qceiling ((v - mn) / size) - 1)%Z in                    (* 116 *)
    Ok (if decide (b < 0)%Z then 0%Z else if decide (numBins <= b)%Z then (numBins - 1)%Z else b).  (* 117-120 *)
Definition bin_kernel (rlo rhi : Z) (junk : nat -> Z) (a : dmat Q) (numBins : Z) (mn mx : Q) : outcome (list Z) :=
  if decide (numBins <= 0)%Z then Throw                                               (* 52-53 *)
  else if Qltb mx mn then Throw                                                       (* 54-55 *)
  else if Qeq_bool mn mx && bool_decide (1 < numBins)%Z then Throw                    (* 56-58 *)
  else
    let size := ((mx - mn) / inject_Z numBins)%Q in                                   (* 89 *)
    let n := m_rows a in let m := m_cols a in
    if Qeq_bool mn mx && bool_decide (numBins = 1)%Z then                             (* 102-107 *)
      for2 n m (fun r c b => wr b (r * m + c) 0%Z) (fresh junk (n * m))
    else
      for2 n m (fun r c b => let* v := dm_at a r c in let* x := bin_value rlo rhi numBins mn size v in wr b (r * m + c) x)
        (fresh junk (n * m)).
