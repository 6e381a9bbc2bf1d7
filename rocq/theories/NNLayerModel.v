(** Model of neural network layers: adding a bias, batch normalization (inference, training, gradients) and softmax.  Numbers are those of a field:
    rounding is not modelled. *)
From stdpp Require Import base numbers list.
From Verif Require Import CppBase Mem.

(** src/runtime/local/kernels/BiasAdd.h 46-50, BatchNorm2DTrainForward.h 94-119: getValues()[k]: the row skip is not used *)
Definition vals {F} (a : dmat F) (k : nat) : outcome F := rd (m_buf a) (m_off a + k).
(** src/runtime/local/kernels/BatchNorm2DTestForward.h 87-95, BatchNorm2DTrainForward.h 81, BatchNorm2DBackward.h 79: off is an int (auto off = 0): positions from 2^31 on become negative *)
Definition int_idx (off : nat) : outcome nat := if decide (Z.of_nat off < 2147483648)%Z then Ok off else UB.

Section Layers.
  Context {F : Type} (f0 f1 : F) (fadd fmul fsub fdiv : F -> F -> F) (fopp fsqrt : F -> F) (of_nat : nat -> F).
  (** src/runtime/local/kernels/BiasAdd.h 41, BatchNorm2DTrainForward.h 76, BatchNorm2DBackward.h 72: the number of columns of a channel: an integer division by zero is undefined behaviour *)
  Definition chan_size (chw c : nat) : outcome nat := if decide (c = 0) then UB else Ok (chw / c).

  (** src/runtime/local/kernels/BiasAdd.h 35-51.  The result is created with zeros.  Simplification: the counters (uint32_t) are numbers. *)
  Definition bias_add (inp bias : dmat F) : outcome (list F) :=
    let n := m_rows inp in
    let chw := m_cols inp in
    let* hw := chan_size chw (m_rows bias) in
    for_up 0 n (fun i b =>
      for2 (m_rows bias) hw (fun c j b =>
        let* x := vals inp (i * chw + c * hw + j) in
        let* v := vals bias c in
        wr b (i * chw + c * hw + j) (fadd x v)) b) (replicate (n * chw) f0).

  (** src/runtime/local/kernels/BatchNorm2DTestForward.h 74-100 *)
  Definition bn_test (inp gamma beta mean var : dmat F) (eps : F) : outcome (list F) :=
    let n := m_rows inp in
    let size := m_cols inp in
    for2 n size (fun i j b =>
      let* off := int_idx (i * size + j) in
      let* x := vals inp off in
      let* mu := vals mean i in
      let* v := vals var i in
      let x_hat := fdiv (fsub x mu) (fsqrt (fadd v eps)) in
      let* g := vals gamma i in
      let* be := vals beta i in
      wr b off (fadd (fmul g x_hat) be)) (replicate (n * size) f0).

  (** src/runtime/local/kernels/BatchNorm2DTrainForward.h 59-119; std::pow(d, 2) is d * d *)
  Record train := mkT { t_res : list F; t_mean : list F; t_inv : list F; t_ema_mean : list F; t_ema_var : list F }.
  Definition bn_train (inp gamma beta ema_mean ema_var : dmat F) (eps mu : F) : outcome train :=
    let n := m_rows inp in
    let chw := m_cols inp in
    let C := m_rows gamma in
    let* hw := chan_size chw C in
    let z := replicate (C * C) f0 in
    for_up 0 C (fun c t =>
      let* mean := for2 n hw (fun i j s =>
        let* off := int_idx (i * chw + c * hw + j) in
        let* x := vals inp off in
        Ok (fadd s (fdiv x (of_nat (n * hw))))) f0 in
      let* var := for2 n hw (fun i j s =>
        let* off := int_idx (i * chw + c * hw + j) in
        let* x := vals inp off in
        Ok (fadd s (fdiv (fmul (fsub x mean) (fsub x mean)) (of_nat (n * hw))))) f0 in
      let* tm := wr (t_mean t) c mean in
      let* ti := wr (t_inv t) c (fdiv f1 (fsqrt (fadd var eps))) in
      let* em := vals ema_mean c in
      let* tem := wr (t_ema_mean t) c (fadd (fmul (fsub f1 mu) em) (fmul mu mean)) in
      let* ev := vals ema_var c in
      let* tev := wr (t_ema_var t) c (fadd (fmul (fsub f1 mu) ev) (fmul mu var)) in
      let* res := for2 n hw (fun i j b =>
        let* off := int_idx (i * chw + c * hw + j) in
        let* x := vals inp off in
        let x_hat := fdiv (fsub x mean) (fsqrt (fadd var eps)) in
        let* g := vals gamma c in
        let* be := vals beta c in
        wr b off (fadd (fmul g x_hat) be)) (t_res t) in
      Ok (mkT res tm ti tem tev)) (mkT (replicate (n * chw) f0) z z z z).

  (** src/runtime/local/kernels/BatchNorm2DBackward.h 60-122; std::pow(v, 3) is v * v * v *)
  Record back := mkB { b_x : list F; b_gamma : list F; b_beta : list F }.
  Definition bn_back (mean invvar inp dout gamma : dmat F) : outcome back :=
    let n := m_rows inp in
    let chw := m_cols inp in
    let C := m_rows gamma in
    let* hw := chan_size chw C in
    let m := of_nat (n * hw) in
    let half := fdiv f1 (fadd f1 f1) in
    let c2m := fdiv (fadd f1 f1) m in
    for_up 0 C (fun c t =>
      let* s := for2 n hw (fun i j s =>
        let* off := int_idx (i * chw + c * hw + j) in
        let* d := vals dout off in
        let* x := vals inp off in
        let* mu := vals mean c in
        let* iv := vals invvar c in
        let* g := vals gamma c in
        let dx_hat := fmul d g in
        Ok (fadd (fst (fst s)) d, fadd (snd (fst s)) (fmul (fmul d (fsub x mu)) iv),
            fsub (snd s) (fmul (fmul (fmul dx_hat (fsub x mu)) half) (fmul (fmul iv iv) iv)))) (f0, f0, f0) in
      let dvar := snd s in
      let* db := wr (b_beta t) c (fst (fst s)) in
      let* dg := wr (b_gamma t) c (snd (fst s)) in
      let* dmean := for2 n hw (fun i j s =>
        let* off := int_idx (i * chw + c * hw + j) in
        let* d := vals dout off in
        let* x := vals inp off in
        let* mu := vals mean c in
        let* iv := vals invvar c in
        let* g := vals gamma c in
        let dx_hat := fmul d g in
        Ok (fadd s (fadd (fmul dx_hat (fopp iv)) (fmul (fmul dvar (fopp c2m)) (fsub x mu))))) f0 in
      let* dx := for2 n hw (fun i j b =>
        let* off := int_idx (i * chw + c * hw + j) in
        let* d := vals dout off in
        let* x := vals inp off in
        let* mu := vals mean c in
        let* iv := vals invvar c in
        let* g := vals gamma c in
        let dx_hat := fmul d g in
        wr b off (fadd (fadd (fmul dx_hat iv) (fmul (fmul dvar c2m) (fsub x mu))) (fdiv dmean m))) (b_x t) in
      Ok (mkB dx dg db)) (mkB (replicate (n * chw) f0) (replicate (C * 1) f0) (replicate (C * 1) f0)).

  (** src/runtime/local/kernels/Softmax.h.  Arguments are of a type with an order and subtraction, so that exp can be any function from it to the field. *)
  Section Softmax.
    Context {A : Type} (a0 : A) (asub : A -> A -> A) (ale : A -> A -> Prop) `{!RelDecision ale} (e : A -> F).
    (** src/runtime/local/kernels/Softmax.h 40, 80-82: std::max: the second one if the first one is less *)
    Definition amax (a b : A) : A := if decide (ale b a) then a else b.
    (** src/runtime/local/kernels/Softmax.h 38-40 *)
    Definition row_max (xs : list A) : outcome A := match xs with [] => UB | x :: xs => Ok (foldl amax x xs) end.
    (** src/runtime/local/kernels/Softmax.h 36-56: one row; the rows are independent (the pointers are moved by the row skips) *)
    Definition softmax_row (xs : list A) : outcome (list F) :=
      let* m := row_max xs in
      let es := map (fun x => e (asub x m)) xs in
      let sum := foldl fadd f0 es in
      let inv := fdiv f1 sum in
      Ok (map (fun v => fmul v inv) es).
    (** src/runtime/local/kernels/Softmax.h 73-100: one row with [n] columns of a sparse matrix, given by the column indexes and values of its entries *)
    Definition sparse_max (n : nat) (row : list (nat * A)) : A :=
      let m := match row with [] => a0 | (_, v) :: _ => v end in
      let m := if decide (length row < n) then amax m a0 else m in
      foldl (fun m cv => amax m (snd cv)) m (drop 1 row).
    Definition softmax_sparse_row (n : nat) (row : list (nat * A)) : outcome (list F) :=
      let m := sparse_max n row in
      let z := e (asub a0 m) in
      let* s := forn (length row) 0 (fun i s =>
        let* cv := rd row i in
        let v := e (asub (snd cv) m) in
        let* b := wr (fst s) (fst cv) v in
        Ok (b, fadd (snd s) (fsub v z))) (replicate n z, fmul z (of_nat n)) in
      let inv := fdiv f1 (snd s) in
      Ok (map (fun v => fmul v inv) (fst s)).
  End Softmax.
End Layers.
