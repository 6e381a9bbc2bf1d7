(** C78: the gradients of convolution and pooling. *)
From Coq Require Import QArith Qcanon.
From stdpp Require Import base numbers list.
From Coq Require Import Lia.
From Verif Require Import CppBase ConvModel ConvSpec ConvProofs ConvBackModel ConvBackSpec ConvBackProofs ConvFilterProofs ConvDataProofs.
Local Open Scope nat_scope.

Notation q0 := (Q2Qc 0).
Notation qz n := (Q2Qc (inject_Z n)).
(** The comparison of rational numbers. *)
Definition qgt (a b : Qc) : bool := if Qclt_le_dec b a then true else false.
Notation avg_backward := (avgpool_backward q0 Qcplus Qcmult qrecip).
Notation max_backward := (maxpool_backward q0 Qcplus qgt).
Notation filter_backward := (conv2d_backward_filter q0 Qcplus Qcmult).
Notation data_backward := (conv2d_backward_data q0 Qcplus Qcmult).

(** * Pooling *)
(** With the same stride in both directions, for all sizes and any arithmetic: every cell receives the gradient of each
    window it is part of, divided by the size of the window. *)
Theorem C78_gradient_of_average_pooling {V} (zero : V) (add mul : V -> V -> V) (recip : nat -> V) dout B C H W kh kw s pad_h pad_w P Q :
  positions H kh pad_h s P -> positions W kw pad_w s Q -> 0 < s -> kh <= H + 2 * pad_h -> kw <= W + 2 * pad_w ->
  length dout = B * (C * (P * Q)) ->
  exists res, avgpool_backward zero add mul recip dout B C H W kh kw s s pad_h pad_w = Ok res /\
    images res B C H W (avg_grad_at zero add mul dout (recip (kw * kh)) C P Q kh kw s s pad_h pad_w).
Proof. apply avgpool_backward_correct. Qed.
Theorem C78_gradient_of_average_pooling_example :
  exists res, avg_backward [qz 4; qz 8] 1 1 2 3 2 2 1 1 0 0 = Ok res /\ map this res = map this [qz 1; qz 3; qz 2; qz 1; qz 3; qz 2].
Proof. vm_compute. eexists. split; reflexivity. Qed.

Lemma qgt_irrefl a : qgt a a = false.
Proof. unfold qgt. destruct (Qclt_le_dec a a) as [H|]; [|done]. by apply Qclt_not_le in H; destruct (H (Qcle_refl a)). Qed.
Lemma qgt_true a b : qgt a b = true <-> Qclt b a.
Proof. unfold qgt. destruct (Qclt_le_dec b a) as [H|H]; split; try done. intros H'. by apply Qclt_not_le in H'. Qed.
Lemma qgt_false a b : qgt a b = false <-> Qcle a b.
Proof. unfold qgt. destruct (Qclt_le_dec b a) as [H|H]; split; try done. intros H'. by apply Qclt_not_le in H. Qed.
(** Every window has one cell, the first one among the largest of its padded image, and every cell receives the sum of the
    gradients of the windows whose cell it is. What falls on the padding is dropped. *)
Theorem C78_gradient_of_max_pooling input dout B C H W kh kw s pad_h pad_w P Q :
  positions H kh pad_h s P -> positions W kw pad_w s Q -> 0 < s -> 0 < kh -> 0 < kw -> kh <= H + 2 * pad_h -> kw <= W + 2 * pad_w ->
  length input = B * (C * (H * W)) -> length dout = B * (C * (P * Q)) ->
  exists res sel, max_backward input dout B C H W kh kw s s pad_h pad_w = Ok res /\
    images res B C H W (fun i c => max_grad_at q0 Qcplus dout (sel i c) C P Q pad_h pad_w i c) /\
    forall i c p q, i < B -> c < C -> p < P -> q < Q ->
      first_largest (padded_pixel q0 input C H W pad_h pad_w i c) kh kw (p * s) (q * s) (sel i c p q).1 (sel i c p q).2.
Proof.
  intros HP HQ Hs Hkh0 Hkw0 Hkh Hkw HLi HLd.
  destruct (maxpool_backward_correct q0 Qcplus qgt) with (input := input) (dout := dout) (B := B) (C := C) (H := H) (W := W) (kh := kh) (kw := kw)
    (s := s) (pad_h := pad_h) (pad_w := pad_w) (P := P) (Q := Q) as (res & sel & E & Him & Hsel); try done.
  - apply qgt_irrefl.
  - intros a b c Hab Hbc. apply qgt_true in Hab, Hbc. apply qgt_true. by eapply Qclt_trans.
  - intros a b c Hab Hcb. apply qgt_true in Hab. apply qgt_false in Hcb. apply qgt_true. by eapply Qcle_lt_trans.
  - exists res, (fun i c p q => (p * s + (sel i c p q).1, q * s + (sel i c p q).2)). split; [done|]. split; [done|].
    intros i c p q Hi Hc Hp Hq. destruct (Hsel i c p q Hi Hc Hp Hq) as [[Hh Hw] Hall]. cbn [fst snd].
    exists (sel i c p q).1, (sel i c p q).2. repeat (split; [done|]). intros h' w' Hh' Hw'. destruct (Hall h' w' (conj Hh' Hw')) as [Ha Hb].
    split; [by apply qgt_false|]. intros Hlt. by apply qgt_true, Hb.
Qed.
(** Two overlapping windows that share their largest cell. *)
Theorem C78_gradient_of_max_pooling_example :
  exists res, max_backward [qz 1; qz 7; qz 7; qz 2; qz 5; qz 3] [qz 10; qz 100] 1 1 2 3 2 2 1 1 0 0 = Ok res /\
    map this res = map this [q0; qz 110; q0; q0; q0; q0].
Proof. vm_compute. eexists. split; reflexivity. Qed.
(** With different strides, the kernels read cells that do not exist, or leave out windows: here the gradients of two of
    four windows. *)
Theorem C78_pooling_gradients_with_different_strides_refuted :
  avg_backward [qz 1; qz 2] 1 1 1 4 1 1 1 2 0 0 = UB /\
  (positions 1 1 0 1 1 /\ positions 4 1 0 2 2) /\
  max_backward [qz 1; qz 2; qz 3; qz 4] [qz 1; qz 2] 1 1 1 4 1 1 1 2 0 0 = UB /\
  (exists res, avg_backward [qz 1; qz 2; qz 3; qz 4] 1 1 1 4 1 1 2 1 0 0 = Ok res /\ map this res = map this [qz 1; qz 2; q0; q0]) /\
  (exists res, avg_backward [qz 1; qz 2; qz 3; qz 4] 1 1 4 1 1 1 1 2 0 0 = Ok res /\ map this res = map this [qz 1; qz 2; q0; q0]) /\
  (exists res, max_backward [qz 5; qz 5; qz 5; qz 5] [qz 1; qz 2; qz 3; qz 4] 1 1 1 4 1 1 2 1 0 0 = Ok res /\
    map this res = map this [qz 1; qz 2; q0; q0]) /\
  (exists res, max_backward [qz 5; qz 5; qz 5; qz 5] [qz 1; qz 2; qz 3; qz 4] 1 1 4 1 1 1 1 2 0 0 = Ok res /\
    map this res = map this [qz 1; qz 2; q0; q0]) /\
  positions 4 1 0 1 4.
Proof.
  split; [vm_compute; reflexivity|]. split; [split; intros p; lia|]. split; [vm_compute; reflexivity|].
  do 4 (split; [vm_compute; eexists; split; reflexivity|]). intros p; lia.
Qed.

(** * Filters *)
(** For filters that are square or have one row, for all other sizes, strides and paddings: the gradient of every filter
    cell is the sum over the images and positions of the gradients of the output times the cell of the padded image. *)
Theorem C78_gradient_of_the_filters data dout K B C H W fh fw sh sw pad_h pad_w P Q :
  positions H fh pad_h sh P -> positions W fw pad_w sw Q -> 0 < sh -> 0 < sw -> 0 < fh -> 0 < fw ->
  fh <= H + 2 * pad_h -> fw <= W + 2 * pad_w -> fh = fw \/ fh = 1 ->
  length data = B * (C * (H * W)) -> length dout = B * (K * (P * Q)) ->
  exists res, filter_backward data dout sh sw pad_h pad_w B C H W K fh fw = Ok res /\
    images res K C fh fw (filter_grad_at data dout K B C H W P Q sh sw pad_h pad_w).
Proof. apply conv2d_backward_filter_correct. Qed.
Theorem C78_gradient_of_the_filters_example :
  exists res, filter_backward [qz 1; qz 2; qz 3; qz 4; qz 5; qz 6; qz 7; qz 8; qz 9] [qz 1; qz 10; qz 100; qz 1000] 1 1 0 0 1 1 3 3 1 2 2 = Ok res /\
    map this res = map this [qz 5421; qz 6532; qz 8754; qz 9865].
Proof. vm_compute. eexists. split; reflexivity. Qed.
(** Other filters: one of two rows and one column makes the kernel access a cell behind the result; one of two rows and three
    columns has its gradients in wrong cells. *)
Theorem C78_gradient_of_the_filters_refuted :
  filter_backward [qz 1; qz 2] [qz 1] 1 1 0 0 1 1 2 1 1 2 1 = UB /\
  (exists res, filter_backward [qz 1; qz 2; qz 3; qz 4; qz 5; qz 6] [qz 1] 1 1 0 0 1 1 2 3 1 2 3 = Ok res /\
     map this res = map this [qz 1; qz 2; qz 7; qz 5; qz 6; q0]) /\
  map (fun hw => this (filter_grad_at [qz 1; qz 2; qz 3; qz 4; qz 5; qz 6] [qz 1] 1 1 1 2 3 1 1 1 1 0 0 0 0 hw.1 hw.2))
    [(0, 0); (0, 1); (0, 2); (1, 0); (1, 1); (1, 2)] = map this [qz 1; qz 2; qz 3; qz 4; qz 5; qz 6].
Proof. split; [vm_compute; reflexivity|]. split; [vm_compute; eexists; split; reflexivity|]. vm_compute. reflexivity. Qed.

(** * Images *)
(** If the output has as many rows and columns as the filter, and the padding is the same in both directions: the gradient of
    every cell is the sum over the filters and positions that cover it of the gradient of the output times the filter cell. *)
Theorem C78_gradient_of_the_images filter dout K B C H W fh fw sh sw pad :
  positions H fh pad sh fh -> positions W fw pad sw fw -> 0 < sh -> 0 < sw -> 0 < fh -> 0 < fw ->
  length filter = K * (C * (fh * fw)) -> length dout = B * (K * (fh * fw)) ->
  exists res, data_backward filter dout sh sw pad pad B C H W K fh fw = Ok res /\
    images res B C H W (data_grad_at filter dout K C fh fw fh fw sh sw pad pad).
Proof. apply conv2d_backward_data_correct. Qed.
Theorem C78_gradient_of_the_images_example :
  positions 3 2 0 1 2 /\
  exists res, data_backward [qz 1; qz 2; qz 3; qz 4] [qz 1; qz 10; qz 100; qz 1000] 1 1 0 0 1 1 3 3 1 2 2 = Ok res /\
    map this res = map this [qz 1; qz 12; qz 20; qz 103; qz 1234; qz 2040; qz 300; qz 3400; qz 4000].
Proof. split; [intros p; lia|]. vm_compute. eexists. split; reflexivity. Qed.
(** If the output is larger than the filter, gradients are left out; if it is smaller, cells behind the output are read; and
    with different paddings columns are left out. *)
Theorem C78_gradient_of_the_images_refuted :
  (exists res, data_backward [qz 1; qz 1] [qz 1; qz 10; qz 100] 1 1 0 0 1 1 1 4 1 1 2 = Ok res /\ map this res = map this [qz 1; qz 11; qz 10; q0]) /\
  (positions 1 1 0 1 1 /\ positions 4 2 0 1 3) /\
  map (fun s => this (data_grad_at [qz 1; qz 1] [qz 1; qz 10; qz 100] 1 1 1 3 1 2 1 1 0 0 0 0 0 s)) [0; 1; 2; 3] = map this [qz 1; qz 11; qz 110; qz 100] /\
  data_backward [qz 1; qz 2; qz 3] [qz 1] 1 1 0 0 1 1 1 3 1 1 3 = UB /\ positions 3 3 0 1 1 /\
  (exists res, data_backward [qz 1; qz 2] [qz 1; qz 10] 1 1 0 1 1 1 1 1 1 1 2 = Ok res /\ map this res = map this [q0]) /\
  positions 1 2 1 1 2 /\
  this (data_grad_at [qz 1; qz 2] [qz 1; qz 10] 1 1 1 2 1 2 1 1 0 1 0 0 0 0) = this (qz 12).
Proof.
  split; [vm_compute; eexists; split; reflexivity|]. split; [split; intros p; lia|]. split; [vm_compute; reflexivity|].
  split; [vm_compute; reflexivity|]. split; [intros p; lia|]. split; [vm_compute; eexists; split; reflexivity|].
  split; [intros p; lia|]. vm_compute. reflexivity.
Qed.

Print Assumptions C78_gradient_of_average_pooling.
Print Assumptions C78_gradient_of_max_pooling.
Print Assumptions C78_gradient_of_the_filters.
Print Assumptions C78_gradient_of_the_images.
