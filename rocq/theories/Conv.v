(** C77: what the convolution and pooling operators compute. *)
From Coq Require Import QArith Qcanon.
From stdpp Require Import base numbers list.
From Coq Require Import Lia.
From Verif Require Import CppBase ConvModel ConvSpec ConvProofs.
Local Open Scope nat_scope.

Notation q0 := (Q2Qc 0).
Notation qz n := (Q2Qc (inject_Z n)).
(** The kernels on rational numbers; [big] is the largest number of the type of the cells. *)
Notation pool big := (pool_forward q0 Qcplus Qcmult qmax qrecip big).
Notation conv := (conv2d_forward q0 Qcplus Qcmult).

(** * Convolution *)
(** For every batch of images, every number of channels and filters, all extents, paddings and strides: the convolution
    accesses no cell outside of its operands and returns, for every position of the filter and every filter, the sum of
    the products with the bias. This holds of any arithmetic on the cells, with the products added up in the order of
    the channels, the rows and the columns of the filter. *)
Theorem C77_convolution_computes_the_convolution {V} (zero : V) (add mul : V -> V -> V) data filter bias K B C H W fh fw sh sw pad_h pad_w :
  length data = B * (C * (H * W)) -> length filter = K * (C * (fh * fw)) -> length bias = K ->
  0 < sh -> 0 < sw -> fh <= H + 2 * pad_h -> fw <= W + 2 * pad_w ->
  exists P Q res, conv2d_forward zero add mul data filter bias K B C H W fh fw sh sw pad_h pad_w = Ok (P, Q, res) /\
    positions H fh pad_h sh P /\ positions W fw pad_w sw Q /\
    images res B K P Q (conv_at zero add mul data filter bias C H W fh fw sh sw pad_h pad_w).
Proof. apply conv2d_forward_correct. Qed.
(** One image of 2 by 3 cells, a filter of 2 by 2, different strides and padding. *)
Theorem C77_convolution_example :
  conv2d_forward 0%Z Z.add Z.mul [1; 2; 3; 4; 5; 6]%Z [1; 0; 0; 10]%Z [100]%Z 1 1 1 2 3 2 2 2 1 1 0 =
  Ok (2, 2, [120; 130; 104; 105]%Z).
Proof. vm_compute. reflexivity. Qed.

(** * Pooling *)
(** With the same stride in both directions, the pooling operators return one cell per channel and position of the
    window. It holds of any arithmetic: the average adds up the rows of the window, each multiplied with the reciprocal
    of the size of the window; the maximum is the one of zero and of the cells of the window. *)
Theorem C77_pooling_runs_over_the_windows {V} (zero : V) (add mul mx : V -> V -> V) (recip : nat -> V) (big : V) data B C H W kh kw s pad_h pad_w P Q :
  length data = B * (C * (H * W)) -> 0 < s -> kh <= H + 2 * pad_h -> kw <= W + 2 * pad_w ->
  positions H kh pad_h s P -> positions W kw pad_w s Q -> ~ (P = 1 /\ Q = 1 /\ W = 1) ->
  (exists res, pool_forward zero add mul mx recip big AVG data B C H W kh kw s s pad_h pad_w = Ok (P, Q, res) /\
     images res B C P Q (fun i c p q =>
       foldl (fun acc row => add (mul (sum zero add row) (recip (kw * kh))) acc) zero
         (window (padded_pixel zero data C H W pad_h pad_w i c) kh kw (p * s) (q * s)))) /\
  (exists res, pool_forward zero add mul mx recip big MAX data B C H W kh kw s s pad_h pad_w = Ok (P, Q, res) /\
     images res B C P Q (fun i c p q =>
       foldl mx zero (concat (window (padded_pixel zero data C H W pad_h pad_w i c) kh kw (p * s) (q * s))))).
Proof.
  intros. split.
  - by apply (pool_forward_general zero add mul mx recip big AVG).
  - destruct (pool_forward_general zero add mul mx recip big MAX data B C H W kh kw s pad_h pad_w P Q) as (res & E & HL & HC); [done..|].
    exists res. split; [done|]. split; [done|]. intros i c p q Hi Hc Hp Hq. rewrite HC by done. f_equal.
    assert (Hf : forall l v, foldl (run_row zero add mul mx MAX (recip (kw * kh))) v l = foldl mx v (concat l)).
    { induction l as [|row l IH]; intros v; [done|]. cbn [foldl concat]. rewrite foldl_app. apply IH. }
    apply Hf.
Qed.

Lemma sum_app_q l l' : qsum (l ++ l') = Qcplus (qsum l) (qsum l').
Proof.
  unfold qsum, sum. rewrite foldl_app. generalize (foldl Qcplus q0 l). induction l' as [|x l' IH] using rev_ind; intros v; cbn [foldl].
  - ring.
  - rewrite !foldl_app. cbn [foldl]. rewrite IH. ring.
Qed.
Lemma fold_rows (k : Qc) (rows : list (list Qc)) :
  foldl (fun acc row => Qcplus (Qcmult (sum q0 Qcplus row) k) acc) q0 rows = Qcmult (qsum (concat rows)) k.
Proof.
  induction rows as [|r rows IH] using rev_ind; [cbn; ring|]. rewrite foldl_app. cbn [foldl]. rewrite IH, concat_app, sum_app_q.
  cbn [concat]. rewrite app_nil_r. unfold qsum. ring.
Qed.
Lemma window_length {V} (f : nat -> nat -> V) kh kw r s : length (concat (window f kh kw r s)) = kw * kh.
Proof.
  unfold window. assert (H : forall (g : nat -> list V) n lo, (forall h, length (g h) = kw) -> length (concat (map g (seq lo n))) = kw * n).
  { intros g n. induction n as [|n IH]; intros lo Hg; [cbn; lia|]. cbn [seq map concat]. rewrite app_length, Hg, IH by done. lia. }
  apply H. intros h. by rewrite map_length, seq_length.
Qed.

(** The average pooling of exact numbers: with equal strides, every cell of the result is the average of the cells of its
    window, if there is no padding, or the images have more than one column, or there is more than one position. *)
Theorem C77_average_pooling_computes_averages big data B C H W kh kw s pad_h pad_w :
  length data = B * (C * (H * W)) -> 0 < s -> 0 < kw -> kh <= H + 2 * pad_h -> kw <= W + 2 * pad_w ->
  (pad_h = 0 /\ pad_w = 0) \/ W <> 1 \/ s + kh <= H + 2 * pad_h \/ s + kw <= W + 2 * pad_w ->
  exists P Q res, pool big AVG data B C H W kh kw s s pad_h pad_w = Ok (P, Q, res) /\
    positions H kh pad_h s P /\ positions W kw pad_w s Q /\
    images res B C P Q (fun i c p q =>
      average (concat (window (padded_pixel q0 data C H W pad_h pad_w i c) kh kw (p * s) (q * s)))).
Proof.
  intros HL Hs Hkw0 Hkh Hkw Hside.
  destruct (get_pq_ok H kh pad_h s Hs Hkh) as (P & EP & HP & HP0). destruct (get_pq_ok W kw pad_w s Hs Hkw) as (Q & EQ & HQ & HQ0).
  destruct (decide (P = 1 /\ Q = 1 /\ W = 1)) as [(-> & -> & ->)|Hn].
  - assert (pad_h = 0 /\ pad_w = 0) as [-> ->].
    { destruct Hside as [?|[?|[H1|H1]]]; [done|done| |]; exfalso.
      - assert (1 < 1); [|lia]. apply HP. lia.
      - assert (1 < 1); [|lia]. apply HQ. lia. }
    destruct (pool_forward_quick q0 Qcplus Qcmult qmax qrecip big AVG data B C H kh kw s s 0 0 HL EP EQ) as (res & E & HL' & HC).
    exists 1, 1, res. split; [done|]. split; [done|]. split; [done|]. split; [done|]. intros i c p q Hi Hc Hp Hq.
    rewrite HC by done. f_equal. unfold average. rewrite window_length. cbn [run_row neutral].
    rewrite Qcplus_0_r. unfold Qcdiv, qrecip. f_equal. assert (kw = 1) as -> by lia. assert (p = 0) as -> by lia. assert (q = 0) as -> by lia.
    rewrite Nat.min_l by lia. unfold qsum. f_equal. unfold window. cbn [seq map]. etransitivity; [|symmetry; apply (concat_singles (fun h => padded_pixel q0 data C H 1 0 0 i c (0 * s + h) (0 * s + 0)))].
    apply map_seq_ext. intros h Hh. rewrite padded_pixel_0 by lia. f_equal; lia.
  - destruct (pool_forward_general q0 Qcplus Qcmult qmax qrecip big AVG data B C H W kh kw s pad_h pad_w P Q) as (res & E & HL' & HC); [done..|].
    exists P, Q, res. split; [done|]. split; [done|]. split; [done|]. split; [done|]. intros i c p q Hi Hc Hp Hq. rewrite HC by done. f_equal.
    etransitivity; [exact (fold_rows _ _)|]. unfold average. rewrite window_length. done.
Qed.
(** Two images of one channel of 2 by 2 cells in a padding of one cell. *)
Theorem C77_average_pooling_example :
  exists res, pool q0 AVG [qz 4; qz 8; qz 12; qz 16; qz 0; qz 0; qz 0; qz 40] 2 1 2 2 2 2 2 2 1 1 = Ok (2, 2, res) /\
    map this res = map this [qz 1; qz 2; qz 3; qz 4; qz 0; qz 0; qz 0; qz 10].
Proof. vm_compute. eexists. split; reflexivity. Qed.

(** * Max pooling *)
Lemma fold_max_largest (v : Qc) (l : list Qc) : largest (v :: l) (foldl qmax v l).
Proof.
  revert v. induction l as [|x l IH]; intros v; cbn [foldl].
  - split; [by left|]. intros y [<-|[]]. apply Qcle_refl.
  - destruct (IH (qmax v x)) as [Hin Hle]. split.
    + destruct Hin as [E|Hin]; [|by right; right]. rewrite <- E. unfold qmax. destruct (Qclt_le_dec v x); [by right; left|by left].
    + assert (Hm : Qcle v (qmax v x) /\ Qcle x (qmax v x)).
      { unfold qmax. destruct (Qclt_le_dec v x); split; try apply Qcle_refl; [by apply Qclt_le_weak|done]. }
      intros y [<-|[<-|Hy]].
      * eapply Qcle_trans; [apply Hm|]. apply Hle. by left.
      * eapply Qcle_trans; [apply Hm|]. apply Hle. by left.
      * apply Hle. by right.
Qed.
(** With equal strides, and if the images have more than one column or there is more than one position: every cell of the
    result is the largest of zero and the cells of its window. *)
Theorem C77_max_pooling_computes_the_largest_of_zero_and_the_window big data B C H W kh kw s pad_h pad_w :
  length data = B * (C * (H * W)) -> 0 < s -> kh <= H + 2 * pad_h -> kw <= W + 2 * pad_w ->
  W <> 1 \/ s + kh <= H + 2 * pad_h \/ s + kw <= W + 2 * pad_w ->
  exists P Q res f, pool big MAX data B C H W kh kw s s pad_h pad_w = Ok (P, Q, res) /\
    positions H kh pad_h s P /\ positions W kw pad_w s Q /\ images res B C P Q f /\
    forall i c p q, largest (q0 :: concat (window (padded_pixel q0 data C H W pad_h pad_w i c) kh kw (p * s) (q * s))) (f i c p q).
Proof.
  intros HL Hs Hkh Hkw Hside.
  destruct (get_pq_ok H kh pad_h s Hs Hkh) as (P & EP & HP & HP0). destruct (get_pq_ok W kw pad_w s Hs Hkw) as (Q & EQ & HQ & HQ0).
  destruct (C77_pooling_runs_over_the_windows q0 Qcplus Qcmult qmax qrecip big data B C H W kh kw s pad_h pad_w P Q) as (_ & res & E & Him); [done..| |].
  { intros (-> & -> & ->). destruct Hside as [?|[H1|H1]]; [done| |].
    - assert (1 < 1); [|lia]. apply HP. lia.
    - assert (1 < 1); [|lia]. apply HQ. lia. }
  eexists P, Q, res, _. split; [exact E|]. split; [done|]. split; [done|]. split; [exact Him|]. intros i c p q. apply fold_max_largest.
Qed.
(** So it is the largest cell of the window if one of the cells of the window is not negative, in particular wherever the
    window covers padding. *)
Theorem C77_max_pooling_is_right_if_a_cell_is_not_negative (l : list Qc) x y :
  largest (q0 :: l) x -> In y l -> Qcle q0 y -> largest l x.
Proof.
  intros [Hin Hle] Hy H0. split.
  - destruct Hin as [<-|Hin]; [|done]. assert (E : y = q0). { apply Qcle_antisym; [|done]. apply Hle. by right. } by rewrite <- E.
  - intros z Hz. apply Hle. by right.
Qed.
(** But a window of negative cells has the maximum zero, whatever the cells are. *)
Theorem C77_max_pooling_of_negative_cells_is_zero (l : list Qc) x :
  largest (q0 :: l) x -> (forall y, In y l -> Qclt y q0) -> x = q0.
Proof.
  intros [[<-|Hin] Hle] Hneg; [done|]. exfalso. apply (Qclt_not_le _ _ (Hneg x Hin)). apply Hle. by left.
Qed.
Theorem C77_max_pooling_returns_the_largest_cell_refuted :
  exists res, pool q0 MAX [qz (-4); qz (-3); qz (-2); qz (-1)] 1 1 2 2 2 2 1 1 0 0 = Ok (1, 1, res) /\ map this res = map this [q0] /\
    ~ largest (concat (window (padded_pixel q0 [qz (-4); qz (-3); qz (-2); qz (-1)] 1 2 2 0 0 0 0) 2 2 0 0)) q0.
Proof.
  eexists. split; [vm_compute; reflexivity|]. split; [vm_compute; reflexivity|]. intros [Hin _].
  assert (Hn : forallb (fun y => negb (Qeq_bool (this y) 0)) (concat (window (padded_pixel q0 [qz (-4); qz (-3); qz (-2); qz (-1)] 1 2 2 0 0 0 0) 2 2 0 0)) = true).
  { vm_compute. reflexivity. }
  rewrite forallb_forall in Hn. specialize (Hn _ Hin). vm_compute in Hn. discriminate.
Qed.
(** For images of one column with a single position of the window, the result has the largest number of the type of the
    cells everywhere, whatever the images are. *)
Theorem C77_max_pooling_of_one_column_returns_the_largest_number_refuted big data B C H kh kw sh sw pad_h pad_w :
  length data = B * (C * H) -> 0 < sh -> 0 < sw -> kh <= H + 2 * pad_h < sw + kh -> kw <= 1 + 2 * pad_w < sh + kw ->
  Forall (fun x => Qcle x big) data -> Qcle q0 big ->
  exists res, pool big MAX data B C H 1 kh kw sh sw pad_h pad_w = Ok (1, 1, res) /\ images res B C 1 1 (fun _ _ _ _ => big).
Proof.
  intros HL Hsh Hsw Hkh Hkw Hall H0.
  destruct (get_pq_ok H kh pad_h sw Hsw ltac:(lia)) as (P & EP & HP & HP0). destruct (get_pq_ok 1 kw pad_w sh Hsh ltac:(lia)) as (Q & EQ & HQ & HQ0).
  assert (P = 1) as ->. { destruct (decide (1 < P)) as [H1|H1]; [|lia]. apply HP in H1. lia. }
  assert (Q = 1) as ->. { destruct (decide (1 < Q)) as [H1|H1]; [|lia]. apply HQ in H1. lia. }
  destruct (pool_forward_quick q0 Qcplus Qcmult qmax qrecip big MAX data B C H kh kw sh sw pad_h pad_w) as (res & E & HL' & HC); [lia|done|done|].
  exists res. split; [done|]. split; [done|]. intros i c p q Hi Hc Hp Hq. rewrite HC by done. f_equal. cbn [run_row neutral].
  assert (Hm : forall l, Forall (fun x => Qcle x big) l -> foldl qmax big l = big).
  { intros l Hl. induction Hl as [|x l Hx Hl IH]; [done|]. cbn [foldl]. assert (qmax big x = big) as ->; [|done].
    unfold qmax. destruct (Qclt_le_dec big x) as [Hlt|]; [|done]. by apply Qclt_not_le in Hlt. }
  apply Hm. apply Forall_forall. intros x Hx. apply elem_of_list_In, in_map_iff in Hx as (h & <- & _). unfold pixel.
  destruct (nth_in_or_default (i * (C * (H * 1)) + c * (H * 1) + h * 1 + 0) data q0) as [Hin| ->]; [|done].
  rewrite Forall_forall in Hall. apply Hall. by apply elem_of_list_In.
Qed.
Theorem C77_max_pooling_of_one_column_example :
  exists res, pool (qz 1000) MAX [qz 3; qz 5] 1 1 2 1 2 1 1 1 0 0 = Ok (1, 1, res) /\ map this res = map this [qz 1000].
Proof. vm_compute. eexists. split; reflexivity. Qed.

(** * Where average pooling goes wrong *)
(** With padding, an image of one column and a single position of the window, the padding is ignored: here the window
    covers a cell of padding and the cells 1 and 10, but the result is the average of the cells 1, 10 and 100. *)
Theorem C77_average_pooling_with_padding_refuted :
  exists res, pool q0 AVG [qz 1; qz 10; qz 100] 1 1 3 1 3 1 3 3 1 0 = Ok (1, 1, res) /\
    map this res = map this [qz 37] /\
    concat (window (padded_pixel q0 [qz 1; qz 10; qz 100] 1 3 1 1 0 0 0) 3 1 0 0) = [q0; qz 1; qz 10] /\
    this (average (concat (window (padded_pixel q0 [qz 1; qz 10; qz 100] 1 3 1 1 0 0 0) 3 1 0 0))) <> this (qz 37).
Proof. eexists. split; [vm_compute; reflexivity|]. split; [vm_compute; reflexivity|]. split; [vm_compute; reflexivity|]. vm_compute. discriminate. Qed.

(** * Different strides *)
(** The number of output rows is the one of the horizontal stride, and the number of output columns the one of the
    vertical stride, for all inputs. *)
Theorem C77_pooling_exchanges_the_strides {V} (zero : V) (add mul mx : V -> V -> V) (recip : nat -> V) (big : V) op data B C H W kh kw sh sw pad_h pad_w P Q res :
  pool_forward zero add mul mx recip big op data B C H W kh kw sh sw pad_h pad_w = Ok (P, Q, res) ->
  positions H kh pad_h sw P /\ positions W kw pad_w sh Q.
Proof.
  unfold pool_forward. intros E. destruct (decide (sw = 0 \/ H + 2 * pad_h < kh)) as [Hb|Hb].
  { unfold get_pq in E at 1. rewrite decide_True in E by done. done. }
  destruct (decide (sh = 0 \/ W + 2 * pad_w < kw)) as [Hb'|Hb'].
  { apply obind_Ok in E as (P' & _ & E). unfold get_pq in E. rewrite decide_True in E by done. done. }
  destruct (get_pq_ok H kh pad_h sw ltac:(lia) ltac:(lia)) as (P1 & EP & HP & _). destruct (get_pq_ok W kw pad_w sh ltac:(lia) ltac:(lia)) as (Q1 & EQ & HQ & _).
  rewrite EP in E. cbn [obind] in E. rewrite EQ in E. cbn [obind] in E.
  assert (P1 = P /\ Q1 = Q) as [<- <-]; [|done].
  repeat case_decide; apply obind_Ok in E as (m & _ & E); by injection E.
Qed.
(** So for an image of 1 by 4 cells, windows of one cell and a horizontal stride of 2 there are four output columns in
    place of two, and the kernel reads cells that do not exist. For an image of 4 by 2 cells and a vertical stride of 2
    there are four output rows of one cell in place of two of two. *)
Theorem C77_pooling_with_different_strides_stays_inside_its_operands_refuted big :
  pool big AVG [qz 1; qz 2; qz 3; qz 4] 1 1 1 4 1 1 1 2 0 0 = UB.
Proof. vm_compute. reflexivity. Qed.
Theorem C77_pooling_with_different_strides_has_the_right_shape_refuted :
  exists res, pool q0 AVG [qz 1; qz 2; qz 3; qz 4; qz 5; qz 6; qz 7; qz 8] 1 1 4 2 1 1 2 1 0 0 = Ok (4, 1, res) /\
    ~ positions 4 1 0 2 4 /\ ~ positions 2 1 0 1 1.
Proof.
  eexists. split; [vm_compute; reflexivity|]. split; intros H.
  - pose proof (proj1 (H 3) ltac:(lia)). lia.
  - pose proof (proj2 (H 1) ltac:(lia)). lia.
Qed.

Print Assumptions C77_convolution_computes_the_convolution.
Print Assumptions C77_average_pooling_computes_averages.
Print Assumptions C77_max_pooling_computes_the_largest_of_zero_and_the_window.
