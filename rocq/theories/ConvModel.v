(** Model of the convolution and pooling kernels of the neural network operators:
    src/runtime/local/kernels/Padding.h, Conv2DForward.h, Pooling.h and Pooling.cpp.

    Simplifications, for the whole file:
    - A matrix is the list of its cells in row-major order ([getValues()] of a matrix whose row skip is its number of
      columns); an access outside of it is [UB].
    - The type of cells and its operations are parameters: [zero], [add], [mul], [mx] (std::max), [recip n] (one divided
      by [n]) and [big] (std::numeric_limits::max()). Nothing is assumed of them, so that the operations may round.
    - Sizes and offsets are unbounded natural numbers (the code uses 32-bit counters). The one subtraction in getPQ that
      can wrap around, and the division by a stride of zero, are [UB]: in the first case the real code goes on with a
      size of billions of cells.
    - Counters that run along with the loops ([oix], [off], [off2], [j]) are written as closed formulas of the loop
      variables.
    - The result object is created by the kernel (it is passed in as a null pointer). *)
From stdpp Require Import base numbers list.
From Verif Require Import CppBase.

(** Padding.h 6-9. *)
Definition get_pq (img filter pad stride : nat) : outcome nat :=
  if decide (stride = 0 \/ img + 2 * pad < filter) then UB
  else Ok ((img + 2 * pad - filter) / stride + 1).

(** [std::min(a, b - c)] on unsigned numbers: when [c] exceeds [b], the difference wraps around to a number that is
    larger than [a]. Conv2DForward.h 123-125, Pooling.cpp 78, 90, 104. *)
Definition min_wsub (a b c : nat) : nat := if decide (b < c) then a else a `min` (b - c).

Section cells.
  Context {V : Type} (zero : V) (add mul mx : V -> V -> V) (recip : nat -> V) (big : V).

  (** Padding.h 11-22. *)
  Definition padding (padded input : list V) (pad_h pad_w img_w img_h off : nat) : outcome (list V) :=
    let padded_w := img_w + 2 * pad_w in
    let* padded := for_up 0 (img_h * img_w) (fun i padded => wr padded i zero) padded in
    let start := pad_h * padded_w + pad_w in
    for_up 0 img_h (fun i padded =>
      for_up 0 img_w (fun k padded =>
        let* x := rd input (off + (i * img_w + k)) in
        wr padded (start + i * padded_w + k) x) padded) padded.

  (** The value-initialized objects that [DataObjectFactory::create(.., .., true)] returns. *)
  Definition zeros (n : nat) : list V := replicate n zero.

  (** Conv2DForward.h 80-139. Returns the number of rows and columns of the output images with the result. *)
  Definition conv2d_forward (data filter bias : list V) (n_filters batch C img_h img_w filter_h filter_w stride_h stride_w
      pad_h pad_w : nat) : outcome (nat * nat * list V) :=
    let HW := img_h * img_w in
    let CHW := C * HW in
    let* P := get_pq img_h filter_h pad_h stride_h in
    let* Q := get_pq img_w filter_w pad_w stride_w in
    let PQ := P * Q in
    let CPQ := n_filters * PQ in
    let f_CHW := C * filter_h * filter_w in
    let padded_h := img_h + 2 * pad_h in
    let padded_w := img_w + 2 * pad_w in
    let* st :=
      for_up 0 batch (fun i st =>
        for_up 0 n_filters (fun c_new st =>
          let* st :=
            for_up 0 C (fun c '(padded, res) =>
              let off_i := i * CHW + c * HW in
              let* padded := padding padded data pad_h pad_w img_w img_h off_i in
              for_up 0 P (fun p st =>
                for_up 0 (min_wsub filter_h padded_h (p * stride_h)) (fun h st =>
                  for_up 0 Q (fun q st =>
                    for_up 0 (min_wsub filter_w padded_w (q * stride_w)) (fun w '(padded, res) =>
                      let off_o := i * CPQ + c_new * PQ + p * Q + q in
                      let off_i_padded := (p * stride_h + h) * padded_w + q * stride_w + w in
                      let off_f := c_new * f_CHW + c * filter_h * filter_w + h * filter_w + w in
                      let* r := rd res off_o in
                      let* x := rd padded off_i_padded in
                      let* y := rd filter off_f in
                      let* res := wr res off_o (add r (mul x y)) in
                      Ok (padded, res)) st) st) st) (padded, res)) st in
          for_up 0 PQ (fun l '(padded, res) =>
            let* r := rd res (i * CPQ + c_new * PQ + l) in
            let* b := rd bias c_new in
            let* res := wr res (i * CPQ + c_new * PQ + l) (add r b) in
            Ok (padded, res)) st) st)
        (zeros (padded_h * padded_w), zeros (batch * CPQ)) in
    Ok (P, Q, st.2).

  (** The two pooling operations: [run] and [getNeutralElement], Pooling.h 33-60. *)
  Inductive pool_op := AVG | MAX.
  Definition run (op : pool_op) (init : V) (inp : list V) (start len : nat) (plen : V) : outcome V :=
    match op with
    | AVG =>
        let* ret := for_up start (start + len) (fun i ret => let* x := rd inp i in Ok (add ret x)) zero in
        Ok (add (mul ret plen) init)
    | MAX => for_up start (start + len) (fun i ret => let* x := rd inp i in Ok (mx ret x)) init
    end.
  Definition neutral (op : pool_op) : V := match op with AVG => zero | MAX => big end.

  (** Pooling.cpp 28-108. Returns the number of rows and columns of the output images with the result. *)
  Definition pool_forward (op : pool_op) (data : list V) (batch C img_h img_w pool_h pool_w stride_h stride_w pad_h pad_w : nat) :
      outcome (nat * nat * list V) :=
    let HW := img_h * img_w in
    let CHW := C * HW in
    let* P := get_pq img_h pool_h pad_h stride_w in
    let* Q := get_pq img_w pool_w pad_w stride_h in
    let CPQ := C * P * Q in
    let plen := recip (pool_w * pool_h) in
    let padded_h := img_h + 2 * pad_h in
    let padded_w := img_w + 2 * pad_w in
    let res := zeros (batch * CPQ) in
    if decide (P = 1 /\ Q = 1 /\ img_w = 1) then
      (* Pooling.cpp 58-67 *)
      let lenh := pool_h `min` img_h in
      let* res :=
        for_up 0 batch (fun i res =>
          for_up 0 C (fun c res =>
            let off := i * CHW + c * img_h in
            let* v := run op (neutral op) data off lenh plen in
            wr res (i * C + c) v) res) res in
      Ok (P, Q, res)
    else if decide (stride_w = 1 /\ stride_h = 1 /\ pad_h = 0 /\ pad_w = 0) then
      (* Pooling.cpp 68-79 *)
      let* res :=
        for_up 0 batch (fun i res =>
          for_up 0 C (fun c res =>
            let off := i * CHW + c * HW in
            for_up 0 P (fun p res =>
              let oix := i * CPQ + c * P * Q + p * Q in
              for_up p ((p + pool_h) `min` img_h) (fun h res =>
                for_up 0 Q (fun q res =>
                  let off2 := off + h * img_w in
                  let* r := rd res (oix + q) in
                  let* v := run op r data (off2 + q) (min_wsub pool_w img_w q) plen in
                  wr res (oix + q) v) res) res) res) res) res in
      Ok (P, Q, res)
    else if decide (pad_h = 0 /\ pad_w = 0) then
      (* Pooling.cpp 80-92 *)
      let* res :=
        for_up 0 batch (fun i res =>
          for_up 0 C (fun c res =>
            let off := i * CHW + c * HW in
            for_up 0 P (fun p res =>
              let oix := i * CPQ + c * P * Q + p * Q in
              for_up (p * stride_h) ((p * stride_h + pool_h) `min` img_h) (fun h res =>
                for_up 0 Q (fun q res =>
                  let off2 := off + h * img_w in
                  let* r := rd res (oix + q) in
                  let* v := run op r data (off2 + q * stride_w) (min_wsub pool_w img_w (q * stride_w)) plen in
                  wr res (oix + q) v) res) res) res) res) res in
      Ok (P, Q, res)
    else
      (* Pooling.cpp 93-106 *)
      let* st :=
        for_up 0 batch (fun i st =>
          for_up 0 C (fun c '(padded, res) =>
            let off := i * CHW + c * HW in
            let* padded := padding padded data pad_h pad_w img_w img_h off in
            let* res :=
              for_up 0 P (fun p res =>
                let oix := i * CPQ + c * P * Q + p * Q in
                for_up (p * stride_h) ((p * stride_h + pool_h) `min` padded_h) (fun h res =>
                  for_up 0 Q (fun q res =>
                    let off2 := h * padded_w in
                    let* r := rd res (oix + q) in
                    let* v := run op r padded (off2 + q * stride_w) (min_wsub pool_w padded_w (q * stride_w)) plen in
                    wr res (oix + q) v) res) res) res in
            Ok (padded, res)) st)
          (zeros (padded_h * padded_w), res) in
      Ok (P, Q, st.2).
End cells.
