(** Model of the aggregation kernels: src/runtime/local/kernels/AggOpCode.h, AggAll.h, AggRow.h, AggCol.h, AggCum.h.
    Simplifications: the value types of argument and result are the same (so the casts are the identity); the result pointer is null on
    entry; [junk] is the arbitrary contents of a new array. The arithmetic is a parameter: what the theorems need of it is stated with
    them. *)
From stdpp Require Import base numbers list.
From Coq Require Import Lia.
From Verif Require Import CppBase Mem CSRModel.

(** AggOpCode.h 25-35. *)
Inductive aggop := SUM | PROD | MIN | MAX | IDXMIN | IDXMAX | MEAN | STDDEV | VAR.
Global Instance aggop_eq_dec : EqDecision aggop.
Proof. solve_decision. Defined.

(** The arithmetic of a value type: 1, +, -, *, <, the largest and the smallest value (std::numeric_limits), the conversion from size_t,
    the division by a size_t, and sqrt. *)
Record arith (V : Type) := mkArith {
  aone : V; aadd : V -> V -> V; asub : V -> V -> V; amul : V -> V -> V; alt : V -> V -> bool;
  atop : V; abot : V; aofnat : nat -> V; adiv : V -> nat -> V; asqrt : V -> V
}.
Arguments mkArith {_} _ _ _ _ _ _ _ _ _ _.
Arguments aone {_}. Arguments aadd {_}. Arguments asub {_}. Arguments amul {_}. Arguments alt {_}. Arguments atop {_}. Arguments abot {_}.
Arguments aofnat {_}. Arguments adiv {_}. Arguments asqrt {_}.

Section agg.
Context {V : Type} `{Val V} (A : arith V).

(** std::min(a, b) and std::max(a, b), as used in EwBinarySca.h 163-164. *)
Definition amin (a b : V) : V := if alt A b a then b else a.
Definition amax (a b : V) : V := if alt A a b then b else a.

(** AggOpCode.h 38-52. *)
Definition isPure (o : aggop) : outcome bool :=
  match o with SUM | PROD | MIN | MAX => Ok true | MEAN | STDDEV | VAR => Ok false | _ => Throw end.
(** AggOpCode.h 54-70, with EwBinarySca.h 143-145 and 163-164. *)
Definition binop (o : aggop) : outcome (V -> V -> V) :=
  match o with SUM => Ok (aadd A) | PROD => Ok (amul A) | MIN => Ok amin | MAX => Ok amax | _ => Throw end.
(** AggOpCode.h 72-90. *)
Definition neutral (o : aggop) : outcome V :=
  match o with SUM => Ok vzero | PROD => Ok (aone A) | MIN => Ok (atop A) | MAX => Ok (abot A) | _ => Throw end.
(** AggOpCode.h 92-106. *)
Definition isSparseSafe (o : aggop) : outcome bool :=
  match o with SUM => Ok true | PROD | MIN | MAX | MEAN | STDDEV | VAR => Ok false | _ => Throw end.
(** The switch statements of the kernels (e.g. AggAll.h 136-147): MEAN, STDDEV and VAR start with the sum. *)
Definition switchop (o : aggop) : outcome (V -> V -> V) :=
  match o with SUM | MEAN | STDDEV | VAR => Ok (aadd A) | PROD => Ok (amul A) | MIN => Ok amin | MAX => Ok amax | _ => Throw end.

(** AggAll.h 64-96: aggAllArray() on the [n] values at position [s] of [b]; four partial results. *)
Definition agg_array (op : V -> V -> V) (b : list V) (s n : nat) (extra : bool) (ne : V) : outcome V :=
  let* agg :=
    (if decide (n = 0) then Ok ne
     else
       let* st := for_up 0 (n / 4) (fun k st => let '(a0, a1, a2, a3) := st in
         let i := 4 * k in
         let* v0 := rd b (s + i) in
         let* v1 := rd b (s + (i + 1)) in
         let* v2 := rd b (s + (i + 2)) in
         let* v3 := rd b (s + (i + 3)) in
         Ok (op a0 v0, op a1 v1, op a2 v2, op a3 v3)) (ne, ne, ne, ne) in
       let '(a0, a1, a2, a3) := st in
       for_up 0 (n mod 4) (fun i agg => let* v := rd b (s + (n / 4 * 4 + i)) in Ok (op agg v)) (op (op a0 a1) (op a2 a3))) in
  Ok (if extra then op agg vzero else agg).

(** AggAll.h 124-193: AggAll on a DenseMatrix. *)
Definition aggAll_dense (o : aggop) (a : dmat V) : outcome V :=
  let n := m_rows a in let m := m_cols a in
  let* pure := isPure o in
  let* ne := (if pure then neutral o else Ok vzero) in
  let* op := switchop o in
  let* agg := (if decide (m = m_skip a \/ n = 1) then agg_array op (m_buf a) (m_off a) (n * m) false ne
               else for_up 0 n (fun r agg => let* x := agg_array op (m_buf a) (m_off a + r * m_skip a) m false ne in Ok (op agg x)) ne) in
  if pure then Ok agg else
  let mean := adiv A agg (m * n) in
  if decide (o = MEAN) then Ok mean else
  let* sd := for2 n m (fun r c sd => let* v := dm_at a r c in let val := asub A v mean in Ok (aadd A sd (amul A val val))) vzero in
  let var := adiv A sd (m * n) in
  if decide (o = VAR) then Ok var else Ok (asqrt A var).

(** AggAll.h 208-255: AggAll on a CSRMatrix. *)
Definition aggAll_csr (o : aggop) (b : csrbuf V) (h : csrh) : outcome V :=
  let n := h_rows h in let m := h_cols h in
  let* pure := isPure o in
  let* safe := isSparseSafe o in
  let* nnz := csr_nnz b h in
  let extra := negb safe && bool_decide (nnz < n * m) in
  let* s := roff b h 0 in
  if pure then
    let* ne := neutral o in let* op := switchop o in agg_array op (bvals b) s nnz extra ne
  else
    let* agg := agg_array (aadd A) (bvals b) s nnz extra vzero in
    let mean := adiv A agg (n * m) in
    if decide (o = MEAN) then Ok mean else
    let* sd := for_up 0 nnz (fun i sd => let* v := rd (bvals b) (s + i) in let val := asub A v mean in Ok (aadd A sd (amul A val val))) vzero in
    let sd := aadd A sd (amul A (amul A (aofnat A (n * m - nnz)) mean) mean) in
    let var := adiv A sd (n * m) in
    if decide (o = VAR) then Ok var else Ok (asqrt A var).

(** AggRow.h 60-161: AggRow on a DenseMatrix; the result is a new n x 1 matrix. *)
Definition aggRow_dense (o : aggop) (junk : list V) (a : dmat V) : outcome (dmat V) :=
  let n := m_rows a in let m := m_cols a in
  let ret (res : list V) : outcome (dmat V) := Ok (mkDM res 0 n 1 1) in
  match o with
  | IDXMIN | IDXMAX =>
    let better v w := match o with IDXMIN => alt A v w | _ => alt A w v end in
    let* res := for_up 0 n (fun r res =>
      let* v0 := dm_at a r 0 in
      let* (_, best) := for_up 1 m (fun c st => let '(bv, bi) := st in
        let* v := dm_at a r c in Ok (if better v bv then (v, c) else (bv, bi))) (v0, 0) in
      wr res r (aofnat A best)) junk in
    ret res
  | _ =>
    let* pure := isPure o in
    let* op := (if pure then binop o else binop SUM) in
    let* res := for_up 0 n (fun r res =>
      let* v0 := dm_at a r 0 in
      let* agg := for_up 1 m (fun c agg => let* v := dm_at a r c in Ok (op agg v)) v0 in
      wr res r agg) junk in
    if pure then ret res else
    let* res := for_up 0 n (fun r res => let* x := rd res r in wr res r (adiv A x m)) res in
    if decide (o = MEAN) then ret res else
    let* tmp := for2 n m (fun r c tmp =>
      let* v := dm_at a r c in let* mean := rd res r in let val := asub A v mean in
      let* t := rd tmp r in wr tmp r (aadd A t (amul A val val))) (replicate n vzero) in
    let* (tmp, res) := for_up 0 n (fun r st => let '(tmp, res) := st in
      let* t := rd tmp r in let t := adiv A t m in let* tmp := wr tmp r t in
      let* res := wr res r (if decide (o = STDDEV) then asqrt A t else t) in Ok (tmp, res)) (tmp, res) in
    ret res
  end.

(** AggRow.h 178-238: AggRow on a CSRMatrix. *)
Definition aggRow_csr (o : aggop) (junk : list V) (b : csrbuf V) (h : csrh) : outcome (dmat V) :=
  let n := h_rows h in let m := h_cols h in
  let ret (res : list V) : outcome (dmat V) := Ok (mkDM res 0 n 1 1) in
  let* pure := isPure o in
  if pure then
    let* safe := isSparseSafe o in
    let* ne := neutral o in
    let* op := switchop o in
    let* res := for_up 0 n (fun r res =>
      let* nnz := csr_row_nnz b h r in
      let extra := negb safe && bool_decide (nnz < m) in
      let* s := roff b h r in
      let* x := agg_array op (bvals b) s nnz extra ne in
      wr res r x) junk in
    ret res
  else
    let* (_, _, res) := for_up 0 n (fun r st => let '(ctr, tmp, res) := st in
      let* nnz := csr_row_nnz b h r in
      let* s := roff b h r in
      let* x := agg_array (aadd A) (bvals b) s nnz false vzero in
      let* s0 := roff b h 0 in
      let mean := adiv A x m in
      let* res := wr res r mean in
      if decide (o = MEAN) then Ok (ctr, tmp, res) else
      let* tmp := for_up ctr (ctr + nnz) (fun i tmp =>
        let* v := rd (bvals b) (s0 + i) in let val := asub A v mean in
        let* t := rd tmp r in wr tmp r (aadd A t (amul A val val))) tmp in
      let ctr := ctr + nnz in
      let* t := rd tmp r in
      let t := aadd A t (amul A (amul A (aofnat A (m - nnz)) mean) mean) in
      let t := adiv A t m in
      let* tmp := wr tmp r t in
      let* res := wr res r (if decide (o = STDDEV) then asqrt A t else t) in
      Ok (ctr, tmp, res)) (0, replicate n vzero, junk) in
    ret res.

(** AggCol.h 58-178: AggCol on a DenseMatrix; the result is a new 1 x m matrix. *)
Definition aggCol_dense (o : aggop) (junk junk2 : list V) (a : dmat V) : outcome (dmat V) :=
  let n := m_rows a in let m := m_cols a in
  let ret (res : list V) : outcome (dmat V) := Ok (mkDM res 0 1 m m) in
  match o with
  | IDXMIN | IDXMAX =>
    let better v w := match o with IDXMIN => alt A v w | _ => alt A w v end in
    let* tmp := copy_range junk2 0 (m_buf a) (m_off a) m in
    let* res := for_up 0 m (fun c res => wr res c vzero) junk in
    let* (_, res) := for_up 1 n (fun r st => for_up 0 m (fun c st => let '(tmp, res) := st in
      let* v := dm_at a r c in let* t := rd tmp c in
      if better v t then
        let* tmp := wr tmp c v in let* res := wr res c (aofnat A r) in Ok (tmp, res)
      else Ok (tmp, res)) st) (tmp, res) in
    ret res
  | _ =>
    let* pure := isPure o in
    let* op := (if pure then binop o else binop SUM) in
    let* res := for_up 0 m (fun c res => let* v := dm_at a 0 c in wr res c v) junk in
    let* res := for_up 1 n (fun r res => for_up 0 m (fun c res => let* x := rd res c in let* v := dm_at a r c in wr res c (op x v)) res) res in
    if pure then ret res else
    let* res := for_up 0 m (fun c res => let* x := rd res c in wr res c (adiv A x n)) res in
    if decide (o = MEAN) then ret res else
    let* tmp := for2 n m (fun r c tmp =>
      let* v := dm_at a r c in let* mean := rd res c in let val := asub A v mean in
      let* t := rd tmp c in wr tmp c (aadd A t (amul A val val))) (replicate m vzero) in
    let* tmp := for_up 0 m (fun c tmp => let* t := rd tmp c in let t := adiv A t n in
      wr tmp c (if decide (o = STDDEV) then asqrt A t else t)) tmp in
    let* res := copy_range res 0 tmp 0 m in
    ret res
  end.

(** AggCol.h 184-277: AggCol on a CSRMatrix. *)
Definition aggCol_csr (o : aggop) (b : csrbuf V) (h : csrh) : outcome (dmat V) :=
  let n := h_rows h in let m := h_cols h in
  let ret (res : list V) : outcome (dmat V) := Ok (mkDM res 0 1 m m) in
  let* pure := isPure o in
  let* op := (if pure then binop o else binop SUM) in
  let* s := roff b h 0 in
  let* nnz := csr_nnz b h in
  let* safe := isSparseSafe o in
  let res := replicate m vzero in
  let step := (fun i res => let* c := rd (bcols b) (s + i) in let* x := rd res c in let* v := rd (bvals b) (s + i) in wr res c (op x v)) in
  let* res :=
    (if (safe : bool) then for_up 0 nnz step res
     else
       let* nnz0 := csr_row_nnz b h 0 in
       let* (res, hist) := for_up 0 nnz0 (fun i st => let '(res, hist) := st in
         let* c := rd (bcols b) (s + i) in let* v := rd (bvals b) (s + i) in let* res := wr res c v in
         let* k := rd hist c in let* hist := wr hist c (k + 1) in Ok (res, hist)) (res, replicate m 0) in
       if decide (1 < n) then
         let* (res, hist) := for_up nnz0 nnz (fun i st => let '(res, hist) := st in
           let* c := rd (bcols b) (s + i) in let* res := step i res in
           let* k := rd hist c in let* hist := wr hist c (k + 1) in Ok (res, hist)) (res, hist) in
         for_up 0 m (fun c res => let* k := rd hist c in
           if decide (k < n) then let* x := rd res c in wr res c (op x vzero) else Ok res) res
       else Ok res) in
  if pure then ret res else
  let* res := for_up 0 m (fun c res => let* x := rd res c in wr res c (adiv A x n)) res in
  if decide (o = MEAN) then ret res else
  let* (tmp, cnt) := for_up 0 nnz (fun i st => let '(tmp, cnt) := st in
    let* c := rd (bcols b) (s + i) in let* v := rd (bvals b) (s + i) in let* mean := rd res c in let val := asub A v mean in
    let* t := rd tmp c in let* tmp := wr tmp c (aadd A t (amul A val val)) in
    let* k := rd cnt c in let* cnt := wr cnt c (k + 1) in Ok (tmp, cnt)) (replicate m vzero, replicate m 0) in
  let* tmp := for_up 0 m (fun c tmp =>
    let* t := rd tmp c in let* mean := rd res c in let* k := rd cnt c in
    let t := aadd A t (amul A (amul A mean mean) (aofnat A (n - k))) in
    let t := adiv A t n in
    wr tmp c (if decide (o = STDDEV) then asqrt A t else t)) tmp in
  let* res := copy_range res 0 tmp 0 m in
  ret res.

(** AggCum.h 49-84: AggCum on a DenseMatrix. *)
Definition aggCum_dense (o : aggop) (junk : list V) (a : dmat V) : outcome (dmat V) :=
  let n := m_rows a in let m := m_cols a in
  let* pure := isPure o in
  if negb pure then Throw else
  let* op := binop o in
  let* res := for_up 0 m (fun c res => let* v := dm_at a 0 c in wr res c v) junk in
  let* res := for_up 1 n (fun r res => for_up 0 m (fun c res =>
    let* x := rd res ((r - 1) * m + c) in let* v := dm_at a r c in wr res (r * m + c) (op x v)) res) res in
  Ok (mkDM res 0 n m m).
End agg.
