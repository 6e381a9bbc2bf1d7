(** What the gradients of convolution and pooling are, independently of how the kernels compute them. *)
From Coq Require Import QArith Qcanon.
From stdpp Require Import base numbers list.
From Verif Require Import ConvSpec.
Local Open Scope nat_scope.

Section cells.
  Context {V : Type} (zero : V) (add mul : V -> V -> V).
  (** All values of a function of an index below [n], one after the other. *)
  Definition each {A} (n : nat) (f : nat -> list A) : list A := concat (map f (seq 0 n)).
  (** The values of the positions that satisfy a condition. *)
  Definition only {A} (P : Prop) {_ : Decision P} (x : A) : list A := if decide P then [x] else [].

  (** The gradient of average pooling with respect to the cell in row [r] and column [s] of channel [c] of image [i]: the
      cell is part of the window at the position [p], [q] wherever it is the cell [h], [w] of it, and then it has the
      weight [k]. *)
  Definition avg_grad_at (dout : list V) (k : V) (C P Q kh kw sh sw pad_h pad_w i c r s : nat) : V :=
    sum zero add (each P (fun p => each kh (fun h => each Q (fun q => each kw (fun w =>
      only (p * sh + h = pad_h + r /\ q * sw + w = pad_w + s) (mul k (pixel zero dout C P Q i c p q))))))).

  (** The gradient of max pooling: the cell receives the gradients of the windows of which it is the selected cell. *)
  Definition max_grad_at (dout : list V) (sel : nat -> nat -> nat * nat) (C P Q pad_h pad_w i c r s : nat) : V :=
    sum zero add (each P (fun p => each Q (fun q =>
      only (sel p q = (pad_h + r, pad_w + s)) (pixel zero dout C P Q i c p q)))).
End cells.

(** The cell [x], [y] is the first one, row by row, among the largest cells of the window of [kh] by [kw] cells with the
    upper left corner [r], [s]. *)
Definition first_largest (f : nat -> nat -> Qc) (kh kw r s x y : nat) : Prop :=
  exists h w, x = r + h /\ y = s + w /\ h < kh /\ w < kw /\
    forall h' w', h' < kh -> w' < kw ->
      Qcle (f (r + h') (s + w')) (f x y) /\
      (h' < h \/ h' = h /\ w' < w -> Qclt (f (r + h') (s + w')) (f x y)).

(** The gradient of a convolution with respect to the cell [h], [w] of channel [c] of the filter [k]: in every image and at
    every position, the filter cell is multiplied with the cell of the padded image under it. *)
Definition filter_grad_at (data dout : list Qc) (K B C H W P Q sh sw pad_h pad_w k c h w : nat) : Qc :=
  qsum (each B (fun i => each P (fun p => each Q (fun q =>
    [Qcmult (padded_pixel (Q2Qc 0) data C H W pad_h pad_w i c (p * sh + h) (q * sw + w)) (pixel (Q2Qc 0) dout K P Q i k p q)])))).
(** The gradient with respect to the cell [r], [s] of channel [c] of image [i]: in every filter, the cell is multiplied with
    the filter cell [h], [w] at the position [p], [q] wherever it is under it. *)
Definition data_grad_at (filter dout : list Qc) (K C P Q fh fw sh sw pad_h pad_w i c r s : nat) : Qc :=
  qsum (each K (fun k => each P (fun p => each fh (fun h => each Q (fun q => each fw (fun w =>
    only (p * sh + h = pad_h + r /\ q * sw + w = pad_w + s)
      (Qcmult (pixel (Q2Qc 0) dout K P Q i k p q) (pixel (Q2Qc 0) filter C fh fw k c h w)))))))).
