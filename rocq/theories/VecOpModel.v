(** Model of the vectorizable operations (src/ir/daphneir/DaphneVectorizableOpInterface.cpp) and of the way a vectorized pipeline cuts its inputs and puts its
    results together (src/runtime/local/vectorized/Tasks.h, Tasks.cpp, MTWrapper.h), for dense matrices.
    Simplifications: one result per operation; the operands transa and transb of a matrix product and transLeft of syrk, which are constants and are given to
    every chunk as they are, are part of the operation; a scalar result is the 1 x 1 matrix it is cast to inside the pipeline
    (VectorizeComputationsPass.cpp 310-322); the results of the chunks are combined one chunk after the other (the order, and the partial results of the
    tasks, are the subject of C07 and C08); all elements have one type. *)
From stdpp Require Import base numbers list list_numbers.
From Verif Require Import CppBase PipeSigModel.

(** The elements: what the aggregations, products and selections use; [e_pos]: the column an element denotes, if any *)
Record elems (T : Type) := mkE { e_zero : T; e_top : T; e_bot : T; e_add : T -> T -> T; e_min : T -> T -> T; e_max : T -> T -> T; e_mul : T -> T -> T; e_pos : T -> option nat }.
Arguments mkE {_} _ _ _ _ _ _ _ _. Arguments e_zero {_}. Arguments e_top {_}. Arguments e_bot {_}. Arguments e_add {_}. Arguments e_min {_}. Arguments e_max {_}. Arguments e_mul {_}. Arguments e_pos {_}.

(** A matrix: the number of columns and the rows. A value: a scalar, a matrix, or an exception or undefined behaviour. *)
Record mat (T : Type) := mkM { ncol : nat; rows : list (list T) }.
Arguments mkM {_} _ _. Arguments ncol {_}. Arguments rows {_}.
Definition nrow {T} (m : mat T) : nat := length (rows m).
Inductive val (T : Type) := Sc (x : T) | Mat (m : mat T) | Err.
Arguments Sc {_} _. Arguments Mat {_} _. Arguments Err {_}.

(** The aggregations and the operations *)
Inductive agg := Sum | Min | Max.
Inductive vop (T : Type) :=
| EwBin (g : T -> T -> T) | Outer (g : T -> T -> T) | EwUn (g : T -> T)
| RowAgg (k : agg) | ColAgg (k : agg) | AllAgg (k : agg)
| MatMul (ta tb : bool) | ExtractCol | Transpose | ColBind | Syrk (transLeft : bool) | Gemv.
Arguments EwBin {_} _. Arguments Outer {_} _. Arguments EwUn {_} _. Arguments RowAgg {_} _. Arguments ColAgg {_} _. Arguments AllAgg {_} _.
Arguments MatMul {_} _ _. Arguments ExtractCol {_}. Arguments Transpose {_}. Arguments ColBind {_}. Arguments Syrk {_} _. Arguments Gemv {_}.

Section model.
Context {T : Type} (E : elems T).
Notation mat := (mat T). Notation val := (val T). Notation vop := (vop T).

(** * What the operations compute (the kernels) *)
Definition agg_op (k : agg) : T -> T -> T := match k with Sum => e_add E | Min => e_min E | Max => e_max E end.
Definition agg_id (k : agg) : T := match k with Sum => e_zero E | Min => e_top E | Max => e_bot E end.
(** AggAll.h, AggRow.h, AggCol.h for the sum, the minimum and the maximum (the kernels themselves are the subject of C29) *)
Definition agg_list (k : agg) (l : list T) : T := foldr (agg_op k) (agg_id k) l.
Definition column (m : mat) (j : nat) : list T := (fun r : list T => nth j r (e_zero E)) <$> rows m.
Definition transpose (m : mat) : mat := mkM (nrow m) (column m <$> seq 0 (ncol m)).
Definition dot (x y : list T) : T := foldr (e_add E) (e_zero E) (zip_with (e_mul E) x y).
(** EwBinaryMat.h 55-104: equal shapes, a row vector or a column vector on the right; the result has the shape of the left operand *)
Definition ew_bin (g : T -> T -> T) (x y : mat) : val :=
  if (nrow x =? nrow y) && (ncol x =? ncol y) then Mat (mkM (ncol x) (zip_with (zip_with g) (rows x) (rows y)))
  else if (ncol x =? ncol y) && ((nrow y =? 1) || (nrow x =? 1)) then Mat (mkM (ncol x) ((fun r : list T => zip_with g r (nth 0 (rows y) [])) <$> rows x))
  else if (nrow x =? nrow y) && ((ncol y =? 1) || (ncol x =? 1)) then Mat (mkM (ncol x) (zip_with (fun r s : list T => (fun a => g a (nth 0 s (e_zero E))) <$> r) (rows x) (rows y)))
  else Err.
(** OuterBinary.h 53-82 *)
Definition outer_bin (g : T -> T -> T) (x y : mat) : val :=
  if (ncol x =? 1) && (nrow y =? 1) then Mat (mkM (ncol y) ((fun r : list T => (fun b => g (nth 0 r (e_zero E)) b) <$> nth 0 (rows y) []) <$> rows x)) else Err.
(** MatMul.cpp, with transposed operands on request (the kernels are the subject of C30 and C60) *)
Definition mat_mul (ta tb : bool) (x y : mat) : val :=
  let x := if ta then transpose x else x in let y := if tb then transpose y else y in
  if ncol x =? nrow y then Mat (mkM (ncol y) ((fun r : list T => (fun j => dot r (column y j)) <$> seq 0 (ncol y)) <$> rows x)) else Err.
(** ExtractCol.h 52-110 (positions given as a column; the kernel is the subject of C43) *)
Definition extract_col (x y : mat) : val :=
  if ncol y =? 1 then
    match mapM (M := option) (fun s : list T => p ← e_pos E (nth 0 s (e_zero E)); if p <? ncol x then Some p else None) (rows y) with
    | Some ps => Mat (mkM (nrow y) ((fun r : list T => (fun p => nth p r (e_zero E)) <$> (ps : list nat)) <$> rows x))
    | None => Err
    end
  else Err.
(** ColBind.h 58-91 *)
Definition col_bind (x y : mat) : val := if nrow x =? nrow y then Mat (mkM (ncol x + ncol y) (zip_with app (rows x) (rows y))) else Err.
(** Syrk.h 52-73: t(X) @ X or X @ t(X) *)
Definition syrk (transLeft : bool) (x : mat) : val := if transLeft then mat_mul true false x x else mat_mul false true x x.
(** Gemv.h 52-66: t(M) @ v. The kernel does not compare the number of rows; it reads past the end if there are too few in v. *)
Definition gemv (x y : mat) : val := if (nrow x <=? nrow y) && (ncol y =? 1) then Mat (mkM 1 ((fun j => [dot (column x j) (column y 0)]) <$> seq 0 (ncol x))) else Err.
Definition sem (o : vop) (vs : list val) : val :=
  match o, vs with
  | EwBin g, [Mat x; Mat y] => ew_bin g x y
  | EwBin g, [Mat x; Sc b] => Mat (mkM (ncol x) ((fun r : list T => (fun a => g a b) <$> r) <$> rows x)) (* EwBinaryObjSca.h *)
  | Outer g, [Mat x; Mat y] => outer_bin g x y
  | EwUn g, [Mat x] => Mat (mkM (ncol x) ((fun r : list T => g <$> r) <$> rows x)) (* EwUnaryMat.h *)
  | RowAgg k, [Mat x] => Mat (mkM 1 ((fun r : list T => [agg_list k r]) <$> rows x))
  | ColAgg k, [Mat x] => Mat (mkM (ncol x) [(fun j => agg_list k (column x j)) <$> seq 0 (ncol x)])
  | AllAgg k, [Mat x] => Mat (mkM 1 [[agg_list k (concat (rows x))]])
  | MatMul ta tb, [Mat x; Mat y] => mat_mul ta tb x y
  | ExtractCol, [Mat x; Mat y] => extract_col x y
  | Transpose, [Mat x] => Mat (transpose x)
  | ColBind, [Mat x; Mat y] => col_bind x y
  | Syrk t, [Mat x] => syrk t x
  | Gemv, [Mat x; Mat y] => gemv x y
  | _, _ => Err
  end.

(** * What the operations declare *)
Definition is_mat (v : val) : bool := match v with Mat _ => true | _ => false end.
(** DaphneVectorizableOpInterface.cpp 33-41 (elementwise binary: by the types of the operands), 56-58, 72-74, 89-91, 105-107, 125-132, 298-300, 358-360, 376, 386-388, 407-409, 427-429 *)
Definition splits (o : vop) (vs : list val) : list split :=
  match o with
  | EwBin _ => (fun v => if is_mat v then Rows else Whole) <$> vs
  | Outer _ => [Rows; Whole]
  | EwUn _ | RowAgg _ | ColAgg _ | AllAgg _ | Transpose => [Rows]
  | MatMul _ _ => [Rows; Whole]
  | ExtractCol => [Rows; Whole]
  | ColBind => [Rows; Rows]
  | Syrk _ => [Rows]
  | Gemv => [Rows; Rows]
  end.
(** 42-44, 59-61, 75-77, 92-94, 133, 314-318, 346-350, 361, 377, 389, 410, 430 *)
Definition agg_comb (k : agg) : comb := match k with Sum => CAdd | Min => CMin | Max => CMax end.
Definition comb_of (o : vop) : comb :=
  match o with
  | EwBin _ | Outer _ | EwUn _ | RowAgg _ | MatMul _ _ | ExtractCol | ColBind => CRows
  | ColAgg k | AllAgg k => agg_comb k
  | Transpose => CCols
  | Syrk _ | Gemv => CAdd
  end.
(** The sizes of the results, which are computed before the pipeline runs: 45-53, 62-69, 78-86, 95-102, 108-115, 134-157, 301-305, 362-370, 378-384, 390-401, 411-425, 431-437.
    The number of rows of a scalar does not exist; here (0, 0). *)
Definition out_size (o : vop) (vs : list val) : nat * nat :=
  match o, vs with
  | EwBin _, Mat x :: _ => (nrow x, ncol x)
  | Outer _, [Mat x; Mat y] => (nrow x, ncol y)
  | EwUn _, [Mat x] => (nrow x, ncol x)
  | RowAgg _, [Mat x] => (nrow x, 1)
  | ColAgg _, [Mat x] => (1, ncol x)
  | AllAgg _, _ => (1, 1)
  | MatMul ta tb, [Mat x; Mat y] => (if ta then ncol x else nrow x, if tb then nrow y else ncol y)
  | ExtractCol, [Mat x; Mat y] => (nrow x, nrow y)
  | Transpose, [Mat x] => (ncol x, nrow x)
  | ColBind, [Mat x; Mat y] => (nrow x, ncol x + ncol y)
  | Syrk t, [Mat x] => if t then (ncol x, ncol x) else (nrow x, nrow x)
  | Gemv, [Mat x; Mat y] => (ncol x, 1)
  | _, _ => (0, 0)
  end.

(** * Running a pipeline *)
(** DenseMatrix.cpp 31-48 (the bounds of a slice of [k] rows or columns), DenseMatrix.h 301 *)
Definition slice_ok (k s e : nat) : bool := (s <=? e) && (e <=? k) && ((s <? k) || (s =? 0)).
Definition slice (s e : nat) (m : mat) : mat := mkM (ncol m) (take (e - s) (drop s (rows m))).
(** Tasks.h 84-112: what a chunk, given by its first row and the row behind its last one, gets of an input. A matrix with one row is given as it is. *)
Definition part (s : split) (v : val) (c : nat * nat) : val :=
  match s, v with
  | Whole, _ => v
  | Rows, Mat m => if nrow m =? 1 then v else if slice_ok (nrow m) (fst c) (snd c) then Mat (slice (fst c) (snd c) m) else Err
  | Rows, _ => Err
  end.
(** Tasks.cpp 98-124: copying the result of a chunk to its rows or columns of the result, whose elements are not initialized. Only the size of the slice counts;
    it is undefined behaviour if the result of the chunk is smaller. *)
Notation grid := (list (list (option T))).
Definition copy_rows (nc : nat) (acc : grid) (s e : nat) (m : mat) : option grid :=
  if slice_ok (length acc) s e && (e - s <=? nrow m) && (nc <=? ncol m)
  then Some (take s acc ++ ((fun r : list T => Some <$> take nc r) <$> take (e - s) (rows m)) ++ drop e acc) else None.
Definition copy_cols (nc : nat) (acc : grid) (s e : nat) (m : mat) : option grid :=
  if slice_ok nc s e && (length acc <=? nrow m) && (e - s <=? ncol m)
  then Some (zip_with (fun a r => take s a ++ (Some <$> take (e - s) r) ++ drop e a) acc (rows m)) else None.
Definition copy (cols : bool) (nc : nat) (acc : option grid) (x : (nat * nat) * val) : option grid :=
  match acc, snd x with
  | Some acc, Mat m => (if cols then copy_cols else copy_rows) nc acc (fst (fst x)) (snd (fst x)) m
  | _, _ => None
  end.
Definition placed (cols : bool) (cs : list (nat * nat)) (size : nat * nat) (vs : list val) : val :=
  match foldl (copy cols (snd size)) (Some (replicate (fst size) (replicate (snd size) None))) (zip cs vs) ≫= mapM (mapM id) with
  | Some l => Mat (mkM (snd size) l)
  | None => Err
  end.
(** MTWrapper.h 117-143 (the result starts with the neutral element everywhere), Tasks.cpp 52-82, 126-160 (ewBinaryMat of the result and that of the chunk) *)
Definition accumulated (k : agg) (size : nat * nat) (vs : list val) : val :=
  foldl (fun acc v => match acc, v with Mat a, Mat b => ew_bin (agg_op k) a b | _, _ => Err end) (Mat (mkM (snd size) (replicate (fst size) (replicate (snd size) (agg_id k))))) vs.
Definition combine (cs : list (nat * nat)) (cb : comb) (size : nat * nat) (vs : list val) : val :=
  match cb with
  | CRows => placed false cs size vs
  | CCols => placed true cs size vs
  | CAdd => accumulated Sum size vs
  | CMin => accumulated Min size vs
  | CMax => accumulated Max size vs
  end.
(** MTWrapper.h 61-74: the number of rows to process. *)
Definition height (v : val) : nat := match v with Mat m => nrow m | _ => 0 end.
Definition pipe_len (ins : list (nat * split)) (env : nat -> val) : nat :=
  foldl (fun len e => match snd e with Rows => Nat.max len (height (env (fst e))) | Whole => len end) 0 ins.
(** MTWrapper_dense.cpp 29-33, 85-89, 214-218: the memory per row [mem], which the size of the batches is computed from; a division by zero is undefined behaviour *)
Definition row_mem (mem len : nat) : outcome nat := if len =? 0 then UB else Ok (mem / len).

(** Tasks.cpp 29-31: the batches of a task with the rows from [s] to [e]; [fuel] is the number of rows *)
Fixpoint batches (fuel b s e : nat) : list (nat * nat) :=
  match fuel with 0 => [] | S fuel => if s <? e then (s, Nat.min (s + b) e) :: batches fuel b (s + b) e else [] end.
(** An operation of the program: the value it defines, what it does, its operands; with the values of the operands it declares: *)
Record node := mkN { n_id : nat; n_op : vop; n_args : list nat }.
Definition declared (env : nat -> val) (o : node) : wop :=
  let vs := env <$> n_args o in mkW (n_id o) (zip (n_args o) (splits (n_op o) vs)) (comb_of (n_op o)) (out_size (n_op o) vs).
(** What the operations of a program compute, by the value they define *)
Fixpoint meaning (l : list node) (i : nat) (vs : list val) : val :=
  match l with [] => Err | o :: l' => if i =? n_id o then sem (n_op o) vs else meaning l' i vs end.
End model.
Definition all_batches (b : nat) (tasks : list (nat * nat)) : list (nat * nat) := tasks ≫= fun t => batches (snd t - fst t) b (fst t) (snd t).
Arguments node : clear implicits.
Arguments mkN {_} _ _ _. Arguments n_id {_}. Arguments n_op {_}. Arguments n_args {_}.
