(** Model of the gradient kernels of convolution and pooling: src/runtime/local/kernels/AvgPoolBackward.h,
    MaxPoolBackward.h, Conv2DBackwardFilter.h, Conv2DBackwardData.h, and CleanPaddingAndSave in Padding.h.
    The simplifications of ConvModel.v apply here too. [gt a b] is the comparison [a > b] of cells. *)
From stdpp Require Import base numbers list.
From Verif Require Import CppBase ConvModel.

Section cells.
  Context {V : Type} (zero : V) (add mul : V -> V -> V) (gt : V -> V -> bool) (recip : nat -> V).

  (** Padding.h 24-34. *)
  Definition clean_and_save (res padded : list V) (pad_h pad_w img_w img_h off : nat) : outcome (list V) :=
    let start := pad_h * (img_w + 2 * pad_w) + pad_w in
    for_up 0 img_h (fun i res =>
      for_up 0 img_w (fun j res =>
        let off_padded := start + i * (img_w + 2 * pad_w) + j in
        let* x := rd padded off_padded in
        wr res (off + (i * img_w + j)) x) res) res.
  (** The loops that set the first [n] cells of a buffer to zero: AvgPoolBackward.h 81-82, MaxPoolBackward.h 83-84,
      Conv2DBackwardFilter.h 79-80, Conv2DBackwardData.h 75-76. *)
  Definition clear (n : nat) (buf : list V) : outcome (list V) := for_up 0 n (fun i buf => wr buf i zero) buf.

  (** AvgPoolBackward.h 37-87. *)
  Definition avgpool_backward (dout : list V) (batch C img_h img_w pool_h pool_w stride_h stride_w pad_h pad_w : nat) :
      outcome (list V) :=
    let HW := img_h * img_w in
    let CHW := C * HW in
    let* P := get_pq img_h pool_h pad_h stride_w in
    let* Q := get_pq img_w pool_w pad_w stride_h in
    let CPQ := C * P * Q in
    let plen := recip (pool_w * pool_h) in
    let padded_h := img_h + 2 * pad_h in
    let padded_w := img_w + 2 * pad_w in
    let* st :=
      for_up 0 batch (fun i st =>
        for_up 0 C (fun c '(buf, res) =>
          let off_input := i * CHW + c * HW in
          let* buf :=
            for_up 0 P (fun p buf =>
              for_up 0 pool_h (fun h buf =>
                for_up 0 Q (fun q buf =>
                  for_up 0 pool_w (fun w buf =>
                    let off_padded := (p * stride_h + h) * padded_w + q * stride_w + w in
                    let off_output := i * CPQ + c * P * Q + p * Q + q in
                    let* x := rd buf off_padded in
                    let* d := rd dout off_output in
                    wr buf off_padded (add x (mul plen d))) buf) buf) buf) buf in
          let* res := clean_and_save res buf pad_h pad_w img_w img_h off_input in
          let* buf := clear (padded_h * padded_w) buf in
          Ok (buf, res)) st)
        (zeros zero (padded_h * padded_w), zeros zero (batch * CHW)) in
    Ok st.2.

  (** MaxPoolBackward.h 36-89. *)
  Definition maxpool_backward (input dout : list V) (batch C img_h img_w pool_h pool_w stride_h stride_w pad_h pad_w : nat) :
      outcome (list V) :=
    let HW := img_h * img_w in
    let CHW := C * HW in
    let* P := get_pq img_h pool_h pad_h stride_w in
    let* Q := get_pq img_w pool_w pad_w stride_h in
    let CPQ := C * P * Q in
    let padded_h := img_h + 2 * pad_h in
    let padded_w := img_w + 2 * pad_w in
    let* st :=
      for_up 0 batch (fun i st =>
        for_up 0 C (fun c '((padded, buf), res) =>
          let off_input := i * CHW + c * HW in
          let* padded := padding zero padded input pad_h pad_w img_w img_h off_input in
          let* buf :=
            for_up 0 P (fun p buf =>
              for_up 0 Q (fun q buf =>
                let* max_index :=
                  for_up 0 pool_h (fun h mi =>
                    for_up 0 pool_w (fun w mi =>
                      let off_padded := (p * stride_h + h) * padded_w + q * stride_w + w in
                      let* x := rd padded off_padded in
                      let* y := rd padded mi in
                      Ok (if gt x y then off_padded else mi)) mi) (p * stride_h * padded_w + q * stride_w) in
                let off_output := i * CPQ + c * P * Q + p * Q + q in
                let* x := rd buf max_index in
                let* d := rd dout off_output in
                wr buf max_index (add x d)) buf) buf in
          let* res := clean_and_save res buf pad_h pad_w img_w img_h off_input in
          let* buf := clear (padded_h * padded_w) buf in
          Ok ((padded, buf), res)) st)
        ((zeros zero (padded_h * padded_w), zeros zero (padded_h * padded_w)), zeros zero (batch * CHW)) in
    Ok st.2.

  (** Conv2DBackwardFilter.h 70-90. *)
  Definition gradient_matrix (matrix output : list V) (output_h output_w filter_h filter_w padded_h padded_w stride_h stride_w off : nat) :
      outcome (list V) :=
    let matrix_h := padded_h - (filter_h - 1) in
    let matrix_w := padded_w - (filter_w - 1) in
    let* matrix := clear (matrix_h * matrix_w) matrix in
    for_up 0 output_h (fun h matrix =>
      for_up 0 output_w (fun w matrix =>
        let off_matrix := h * stride_h * matrix_w + w * stride_w in
        let* x := rd output (off + (h * output_w + w)) in
        wr matrix off_matrix x) matrix) matrix.
  (** Conv2DBackwardFilter.h 92-162, for an input with as many channels as the filters have. *)
  Definition conv2d_backward_filter (input output : list V) (stride_h stride_w pad_h pad_w batch C input_h input_w n_filters
      filter_h filter_w : nat) : outcome (list V) :=
    let HW := input_h * input_w in
    let CHW := C * HW in
    let* P := get_pq input_h filter_h pad_h stride_h in
    let* Q := get_pq input_w filter_w pad_w stride_w in
    let o_CHW := n_filters * P * Q in
    let o_HW := P * Q in
    let f_HW := filter_h * filter_w in
    let f_CHW := C * f_HW in
    let padded_h := input_h + 2 * pad_h in
    let padded_w := input_w + 2 * pad_w in
    let matrix_h := padded_h - (filter_h - 1) in
    let matrix_w := padded_w - (filter_w - 1) in
    let* st :=
      for_up 0 n_filters (fun f st =>
        for_up 0 C (fun c st =>
          for_up 0 batch (fun i '((padded, gradient), res) =>
            let off_input := i * CHW + c * HW in
            let* padded := padding zero padded input pad_h pad_w input_w input_h off_input in
            let off_output := i * o_CHW + f * o_HW in
            let* gradient := gradient_matrix gradient output P Q filter_h filter_w padded_h padded_w stride_h stride_w off_output in
            let* res :=
              for_up 0 filter_h (fun p res =>
                for_up 0 filter_w (fun q res =>
                  for_up 0 matrix_h (fun h res =>
                    for_up 0 matrix_w (fun w res =>
                      let off_filter := f * f_CHW + c * f_HW + p * filter_h + q in
                      let off_matrix := h * matrix_w + w in
                      let off_padded := (p + h) * padded_w + q + w in
                      let* r := rd res off_filter in
                      let* x := rd padded off_padded in
                      let* y := rd gradient off_matrix in
                      wr res off_filter (add r (mul x y))) res) res) res) res in
            Ok ((padded, gradient), res)) st) st)
        ((zeros zero (padded_h * padded_w), zeros zero (matrix_h * matrix_w)), zeros zero (n_filters * f_CHW)) in
    Ok st.2.

  (** Conv2DBackwardData.h 70-82. *)
  Definition loss_gradient_matrix (matrix output : list V) (filter_h filter_w matrix_h matrix_w stride_h stride_w off : nat) :
      outcome (list V) :=
    let* matrix := clear (matrix_h * matrix_w) matrix in
    let init := (filter_h - 1) * matrix_w + filter_w - 1 in
    for_up 0 filter_h (fun h matrix =>
      for_up 0 filter_w (fun w matrix =>
        let* x := rd output (off + (h * filter_w + w)) in
        wr matrix (init + h * stride_h * matrix_w + w * stride_w) x) matrix) matrix.
  (** Conv2DBackwardData.h 84-88. *)
  Definition rotated_filter (rot filter : list V) (filter_h filter_w off : nat) : outcome (list V) :=
    for_up 0 (filter_h * filter_w) (fun i rot =>
      let* x := rd filter (off + filter_h * filter_w - i - 1) in
      wr rot i x) rot.
  (** Conv2DBackwardData.h 90-165, for an input with as many channels as the filters have. *)
  Definition conv2d_backward_data (filter output : list V) (stride_h stride_w pad_h pad_w batch C input_h input_w n_filters
      filter_h filter_w : nat) : outcome (list V) :=
    let HW := input_h * input_w in
    let CHW := C * HW in
    let* P := get_pq input_h filter_h pad_h stride_h in
    let* Q := get_pq input_w filter_w pad_w stride_w in
    let o_CHW := n_filters * P * Q in
    let o_HW := P * Q in
    let f_CHW := C * filter_h * filter_w in
    let padded_h := input_h + 2 * pad_h in
    let padded_w := input_w + 2 * pad_w in
    let matrix_h := filter_h + padded_h - 1 in
    let matrix_w := filter_w + padded_w - 1 in
    let* st :=
      for_up 0 batch (fun i st =>
        for_up 0 C (fun c_input st =>
          for_up 0 n_filters (fun c_output '((rot, matrix), data) =>
            let off_f := c_output * f_CHW + c_input * filter_h * filter_w in
            let* rot := rotated_filter rot filter filter_h filter_w off_f in
            let off_o := i * o_CHW + c_output * o_HW in
            let* matrix := loss_gradient_matrix matrix output filter_h filter_w matrix_h matrix_w stride_h stride_w off_o in
            let off_i := i * CHW + c_input * HW in
            let* data :=
              for_up pad_h (pad_h + input_h) (fun i_h data =>
                for_up 0 filter_h (fun f_h data =>
                  for_up pad_w (pad_h + input_w) (fun i_w data =>
                    for_up 0 filter_w (fun f_w data =>
                      let off_m := (i_h + f_h) * matrix_w + i_w + f_w in
                      let off_d := off_i + (i_h - pad_h) * input_w + i_w - pad_w in
                      let* d := rd data off_d in
                      let* x := rd matrix off_m in
                      let* y := rd rot (f_h * filter_w + f_w) in
                      wr data off_d (add d (mul x y))) data) data) data) data in
            Ok ((rot, matrix), data)) st) st)
        ((zeros zero (filter_h * filter_w), zeros zero (matrix_h * matrix_w)), zeros zero (batch * CHW)) in
    Ok st.2.
End cells.
