(** What convolution and pooling are, independently of how the kernels compute them. *)
From Coq Require Import QArith Qcanon.
From stdpp Require Import base numbers list.

(** The number of positions of a window of extent [k] that moves by [s] along an axis of [n] cells with [pad] cells of
    padding at both ends: the number of [p] with [p * s + k <= n + 2 * pad]. *)
Definition positions (n k pad s P : nat) : Prop := forall p, p < P <-> p * s + k <= n + 2 * pad.

Section cells.
  Context {V : Type} (zero : V) (add mul mx : V -> V -> V).

  (** The cell in row [r] and column [s] of channel [c] of image [i]. A row of the matrix [data] is one image: channel
      after channel, each in row-major order. *)
  Definition pixel (data : list V) (C H W i c r s : nat) : V := nth (i * (C * (H * W)) + c * (H * W) + r * W + s) data zero.
  (** The same image within its padding, which consists of zeros. *)
  Definition padded_pixel (data : list V) (C H W pad_h pad_w i c r s : nat) : V :=
    if decide (pad_h <= r < pad_h + H /\ pad_w <= s < pad_w + W) then pixel data C H W i c (r - pad_h) (s - pad_w) else zero.

  (** The rows of the window of [kh] by [kw] cells of an image [f] with its upper left corner in row [r] and column [s]. *)
  Definition window (f : nat -> nat -> V) (kh kw r s : nat) : list (list V) :=
    map (fun h => map (fun w => f (r + h) (s + w)) (seq 0 kw)) (seq 0 kh).

  Definition sum : list V -> V := foldl add zero.

  (** The cell in row [p] and column [q] of output channel [k] of image [i] of a convolution: the products of the cells
      of the filter with the cells of the window under it, over all channels, and the bias, in this order. *)
  Definition conv_at (data filter bias : list V) (C H W fh fw sh sw pad_h pad_w i k p q : nat) : V :=
    add (sum (concat (map (fun c => concat (map (fun h => map (fun w =>
           mul (padded_pixel data C H W pad_h pad_w i c (p * sh + h) (q * sw + w)) (pixel filter C fh fw k c h w))
           (seq 0 fw)) (seq 0 fh))) (seq 0 C))))
        (nth k bias zero).

  (** A matrix of [batch] rows that are images of [C] channels of [P] by [Q] cells, given by its cells. *)
  Definition images (res : list V) (batch C P Q : nat) (f : nat -> nat -> nat -> nat -> V) : Prop :=
    length res = batch * (C * (P * Q)) /\
    forall i c p q, i < batch -> c < C -> p < P -> q < Q -> res !! (i * (C * (P * Q)) + c * (P * Q) + p * Q + q) = Some (f i c p q).
End cells.

(** * Exact arithmetic: rational numbers *)
Definition qnat (n : nat) : Qc := Q2Qc (inject_Z (Z.of_nat n)).
Definition qrecip (n : nat) : Qc := Qcinv (qnat n).
(** std::max. *)
Definition qmax (a b : Qc) : Qc := if Qclt_le_dec a b then b else a.
Definition qsum : list Qc -> Qc := sum (Q2Qc 0) Qcplus.
(** The average of the cells of a list. *)
Definition average (l : list Qc) : Qc := Qcdiv (qsum l) (qnat (length l)).
(** The largest cell of a list. *)
Definition largest (l : list Qc) (x : Qc) : Prop := In x l /\ forall y, In y l -> Qcle y x.
