(** Properties C15, C16 and C38: dense matrices, their views, appending, equality. *)
From stdpp Require Import base sorting numbers list.
From Coq Require Import Lia.
From Verif Require Import CppBase DenseModel DenseSpec DenseProofs.

(** C15. Slicing a fresh n x m matrix any number of times succeeds exactly when all the bounds are valid, and then
    the result is a matrix of the size of the selected window whose cells are the cells of the base matrix under that window:
    reading reads them, writing changes exactly the corresponding cell, accesses outside the window are rejected. *)
Theorem C15_views_alias_window {V} (n m : nat) (b : list V) (chain : list (Z * Z * Z * Z)) :
  length b = n * m ->
  match windows (whole n m) chain with
  | None => dm_slices (dm_new n m) chain = Throw
  | Some w => exists h, dm_slices (dm_new n m) chain = Ok h /\ d_rows h = w_rows w /\ d_cols h = w_cols w /\
      (forall r c, r < w_rows w -> c < w_cols w -> exists v, stored_at b m (w_row w + r) (w_col w + c) = Some v /\ dm_get b h r c = Ok v) /\
      (forall r c v, r < w_rows w -> c < w_cols w -> exists b', dm_set b h r c v = Ok b' /\ length b' = length b /\
         forall r' c', c' < m -> stored_at b' m r' c' = if decide (r' = w_row w + r /\ c' = w_col w + c) then Some v else stored_at b m r' c') /\
      (forall r c v, ~ (r < w_rows w /\ c < w_cols w) -> dm_get b h r c = Throw /\ dm_set b h r c v = Throw)
  end.
Proof.
  intros Hl. pose proof (slices_is_view n m chain _ _ (new_is_view n m)) as H. destruct (windows (whole n m) chain) as [w|]; [|done].
  destruct H as (h & E & Hv). exists h. split; [done|]. pose proof Hv as (_ & Hr & Hc & _). split; [done|]. split; [done|]. split; [|split].
  - intros r c. eauto using view_get.
  - intros r c v. eauto using view_set.
  - intros r c v Hn. unfold dm_get, dm_set, dm_pos. rewrite Hr, Hc. destruct (decide (w_rows w <= r)); [split; reflexivity|].
    destruct (decide (w_cols w <= c)); [split; reflexivity|lia].
Qed.

(** Sizes of windows along a chain are what they should be: the window lies inside the matrix. *)
Theorem C15_windows_inside n m chain w : windows (whole n m) chain = Some w -> w_row w + w_rows w <= n /\ w_col w + w_cols w <= m.
Proof.
  intros E. pose proof (slices_is_view n m chain _ _ (new_is_view n m)) as H. rewrite E in H.
  destruct H as (h & _ & Hv). unfold is_view_on in Hv. lia.
Qed.

(** Reducing the number of rows of a matrix that is not a view keeps the remaining cells. *)
Theorem C15_shrink_keeps_cells {V} (n m k : nat) (b : list V) h r c :
  length b = n * m -> dm_shrinkNumRows (dm_new n m) k = Ok h -> r < k -> c < m ->
  exists v, stored_at b m r c = Some v /\ dm_get b h r c = Ok v.
Proof.
  unfold dm_shrinkNumRows. intros Hl. case_decide as Hd; [done|]. intros [= <-] Hr Hc. simpl in Hd.
  unfold dm_get, dm_pos, dm_start. simpl. rewrite !decide_False by lia. cbn [obind]. unfold stored_at.
  destruct (rd_lt b (r * m + c)) as (v & Hv & E); [nia|]. exists v. split; [done|].
  destruct (dm_partial _); simpl; exact E.
Qed.

(** For a view it does not: the 2 x 1 view of rows 1..2 and column 1 of a 3 x 2 matrix, reduced to one row, shows another cell. *)
Theorem C15_shrink_view_refuted :
  exists (b : list Z) h h', length b = 6 /\ dm_slice (dm_new 3 2) 1 3 1 2 = Ok h /\ dm_shrinkNumRows h 1 = Ok h' /\
    dm_get b h 0 0 = Ok 13%Z /\ dm_get b h' 0 0 <> Ok 13%Z.
Proof.
  exists [10; 11; 12; 13; 14; 15]%Z. eexists _, _. split; [done|]. split; [reflexivity|]. split; [reflexivity|].
  split; [reflexivity|]. vm_compute. done.
Qed.

Example C15_example :
  exists w, windows (whole 4 5) [(1, 4, 0, 5); (0, 3, 1, 4); (2, 3, 1, 3)]%Z = Some w /\ w = mkW 3 2 1 2.
Proof. eexists. split; vm_compute; reflexivity. Qed.

(** C16. Appending a row-major history to (a window of) a matrix whose rows are contiguous in memory, or to any window
    if no row starts with a gap: the window then holds exactly the wanted values, and nothing outside it changed. *)
Definition full_rows (w : window) (m : nat) : Prop := w_cols w = m.

Theorem C16_append_fills_window {V} (z : V) (n m : nat) (b : list V) chain w h hist :
  length b = n * m -> windows (whole n m) chain = Some w -> dm_slices (dm_new n m) chain = Ok h ->
  dense_row_major hist -> Forall (fun e => match e with (r, c, _) => r < w_rows w /\ c < w_cols w end) hist ->
  (full_rows w m \/ (rows_start_at_0 0 hist /\ (last_row 0 hist + 1 = w_rows w \/ w_cols w = 1))) ->
  exists b' h', dm_append_all z b h hist = Ok (b', h') /\ length b' = length b /\
    (forall r c, r < w_rows w -> c < w_cols w -> stored_at b' m (w_row w + r) (w_col w + c) = Some (wanted z hist r c)) /\
    (forall r c, c < m -> ~ (w_row w <= r < w_row w + w_rows w /\ w_col w <= c < w_col w + w_cols w) -> stored_at b' m r c = stored_at b m r c).
Proof.
  intros Hl Ew Eh Hrm Hir Hg. pose proof (slices_is_view n m chain _ _ (new_is_view n m)) as H. rewrite Ew, Eh in H.
  destruct H as (? & [= <-] & (Ho & Hr & Hc & Hs & Hb & Hrn & Hcm)).
  destruct (append_all_ok z b h hist) as (b' & h' & E & Hlen & _ & _ & _ & _ & Hw & Hout).
  - split; [lia|]. unfold in_h, addr. intros r c [? ?]. rewrite Ho, Hs. nia.
  - done.
  - eapply Forall_impl; [exact Hir|]. intros [[r c] v]. simpl. unfold in_h. lia.
  - unfold full_rows in Hg. rewrite Hs, Hc, Hr. intuition.
  - exists b', h'. split; [done|]. split; [done|]. split.
    + intros r c Hr' Hc'. rewrite <- Hw by (split; lia). unfold stored_at, addr. f_equal. rewrite Ho, Hs. lia.
    + intros r c Hcm' Hn. apply Hout. unfold in_h, addr. intros r' c' [Hr' Hc'] E'. apply Hn.
      assert (E2 : m * r + c = m * (w_row w + r') + (w_col w + c')) by lia.
      apply Nat.div_mod_unique in E2; [|lia|lia]. lia.
Qed.

(** A strided window: the cell just before the first value of a later row keeps its old content. *)
Theorem C16_strided_refuted :
  exists (b : list Z) h hist b' h', length b = 6 /\ dm_slice (dm_new 2 3) 0 2 0 2 = Ok h /\ dense_row_major hist /\
    Forall (fun e => match e with (r, c, _) => r < d_rows h /\ c < d_cols h end) hist /\
    dm_append_all 0%Z b h hist = Ok (b', h') /\ wanted 0%Z hist 1 0 = 0%Z /\ dm_get b' h' 1 0 = Ok 7%Z.
Proof.
  exists [7; 7; 7; 7; 7; 7]%Z. eexists _, [(0, 0, 1%Z); (1, 1, 2%Z)], _, _. split; [done|]. split; [reflexivity|].
  split; [repeat constructor; lia|]. split; [repeat constructor; simpl; lia|]. repeat split; vm_compute; reflexivity.
Qed.
(** Even an empty history is affected: in finishAppend the last row is the one that is treated wrongly. *)
Theorem C16_strided_empty_history_refuted :
  exists (b : list Z) h b' h', length b = 6 /\ dm_slice (dm_new 2 3) 0 2 0 2 = Ok h /\
    dm_append_all 0%Z b h [] = Ok (b', h') /\ dm_get b' h' 1 0 = Ok 7%Z.
Proof. exists [7; 7; 7; 7; 7; 7]%Z. eexists _, _, _. repeat split; vm_compute; reflexivity. Qed.

Example C16_example :
  let hist := [(0, 1, 3%Z); (2, 0, 5%Z)] in
  dense_row_major hist /\ exists b' h', dm_append_all 0%Z (replicate 8 9%Z) (dm_new 4 2) hist = Ok (b', h') /\ b' = [0; 3; 0; 0; 5; 0; 0; 0]%Z.
Proof. split; [repeat constructor; lia|]. eexists _, _. split; vm_compute; reflexivity. Qed.

(** C38. Equality of dense matrices (any windows of any two matrices): same shape and equal cells. *)
Lemma eq_cols_spec {V} (veq : V -> V -> bool) b1 b2 n : forall p1 p2,
  p1 + n <= length b1 -> p2 + n <= length b2 ->
  exists e, dm_eq_cols veq b1 b2 p1 p2 n = Ok e /\
    (e = true <-> forall c, c < n -> exists x y, b1 !! (p1 + c) = Some x /\ b2 !! (p2 + c) = Some y /\ veq x y = true).
Proof.
  induction n as [|n IH]; intros p1 p2 H1 H2; simpl; [exists true; split; [done|]; split; [lia|done]|].
  destruct (rd_lt b1 p1) as (x & Hx & ->); [lia|]. destruct (rd_lt b2 p2) as (y & Hy & ->); [lia|]. cbn [obind].
  destruct (veq x y) eqn:Ev.
  - destruct (IH (p1 + 1) (p2 + 1)) as (e & -> & He); [lia|lia|]. exists e. split; [done|]. rewrite He. split.
    + intros H [|c] Hc; [rewrite !Nat.add_0_r; eauto|]. replace (p1 + S c) with (p1 + 1 + c) by lia. replace (p2 + S c) with (p2 + 1 + c) by lia.
      apply H. lia.
    + intros H c Hc. replace (p1 + 1 + c) with (p1 + S c) by lia. replace (p2 + 1 + c) with (p2 + S c) by lia. apply H. lia.
  - exists false. split; [done|]. split; [done|]. intros H. destruct (H 0) as (x' & y' & Hx' & Hy' & E); [lia|].
    rewrite Nat.add_0_r in Hx', Hy'. congruence.
Qed.
Lemma eq_rows_spec {V} (veq : V -> V -> bool) b1 b2 s1 s2 cols n : forall p1 p2,
  (n = 0 \/ p1 + (n - 1) * s1 + cols <= length b1) -> (n = 0 \/ p2 + (n - 1) * s2 + cols <= length b2) ->
  exists e, dm_eq_rows veq b1 b2 p1 p2 s1 s2 cols n = Ok e /\
    (e = true <-> forall r c, r < n -> c < cols -> exists x y, b1 !! (p1 + r * s1 + c) = Some x /\ b2 !! (p2 + r * s2 + c) = Some y /\ veq x y = true).
Proof.
  induction n as [|n IH]; intros p1 p2 H1 H2; simpl; [exists true; split; [done|]; split; [lia|done]|].
  assert (H1' : p1 + n * s1 + cols <= length b1) by (destruct H1; [lia|]; by replace (S n - 1) with n in * by lia).
  assert (H2' : p2 + n * s2 + cols <= length b2) by (destruct H2; [lia|]; by replace (S n - 1) with n in * by lia).
  destruct (eq_cols_spec veq b1 b2 cols p1 p2) as (e & -> & He); [lia|lia|]. cbn [obind]. destruct e.
  - destruct (IH (p1 + s1) (p2 + s2)) as (e & -> & He2); [destruct n; [auto|right; simpl; rewrite Nat.sub_0_r; simpl in *; lia]| |].
    { destruct n; [auto|right; simpl; rewrite Nat.sub_0_r; simpl in *; lia]. }
    exists e. split; [done|]. rewrite He2. split.
    + intros H [|r] c Hr Hc; [rewrite !Nat.add_0_r; by apply He|].
      replace (p1 + S r * s1 + c) with (p1 + s1 + r * s1 + c) by lia. replace (p2 + S r * s2 + c) with (p2 + s2 + r * s2 + c) by lia. apply H; lia.
    + intros H r c Hr Hc. replace (p1 + s1 + r * s1 + c) with (p1 + S r * s1 + c) by lia. replace (p2 + s2 + r * s2 + c) with (p2 + S r * s2 + c) by lia.
      apply H; lia.
  - exists false. split; [done|]. split; [done|]. intros H. apply He. intros c Hc. specialize (H 0 c). simpl in H. rewrite !Nat.add_0_r in H. apply H; lia.
Qed.

Theorem C38_equal_iff_same_shape_and_cells {V} (veq : V -> V -> bool) n1 m1 (b1 : list V) ch1 h1 n2 m2 b2 ch2 h2 :
  length b1 = n1 * m1 -> length b2 = n2 * m2 -> dm_slices (dm_new n1 m1) ch1 = Ok h1 -> dm_slices (dm_new n2 m2) ch2 = Ok h2 ->
  exists e, dm_eq veq b1 h1 b2 h2 = Ok e /\
    (e = true <-> d_rows h1 = d_rows h2 /\ d_cols h1 = d_cols h2 /\
       forall r c, r < d_rows h1 -> c < d_cols h1 -> exists x y, dm_get b1 h1 r c = Ok x /\ dm_get b2 h2 r c = Ok y /\ veq x y = true).
Proof.
  intros L1 L2 E1 E2. pose proof (slices_is_view n1 m1 ch1 _ _ (new_is_view n1 m1)) as H1. rewrite E1 in H1.
  destruct (windows (whole n1 m1) ch1) as [w1|]; [|done]. destruct H1 as (? & [= <-] & V1).
  pose proof (slices_is_view n2 m2 ch2 _ _ (new_is_view n2 m2)) as H2. rewrite E2 in H2.
  destruct (windows (whole n2 m2) ch2) as [w2|]; [|done]. destruct H2 as (? & [= <-] & V2).
  unfold dm_eq. case_decide as Hd; [exists false; split; [done|]; split; [done|]; lia|].
  destruct (view_start _ _ _ _ V1) as [P1 S1]. destruct (view_start _ _ _ _ V2) as [P2 S2].
  pose proof V1 as (O1 & R1 & C1 & K1 & _ & Hr1 & Hc1). pose proof V2 as (O2 & R2 & C2 & K2 & _ & Hr2 & Hc2).
  destruct (eq_rows_spec veq b1 b2 (d_skip h1) (d_skip h2) (d_cols h1) (d_rows h1) (dm_start h1) (dm_start h2)) as (e & -> & He).
  - destruct (decide (d_rows h1 = 0)); [auto|right]. rewrite S1, O1, K1. nia.
  - destruct (decide (d_rows h1 = 0)); [auto|right]. rewrite S2, O2, K2. nia.
  - exists e. split; [done|]. rewrite He.
    assert (Hg : forall V (b : list V) h r c, dm_partial h = false -> r < d_rows h -> c < d_cols h -> dm_get b h r c = rd b (dm_start h + r * d_skip h + c)).
    { intros V' b h r c Hp Hr Hc. unfold dm_get, dm_pos. rewrite !decide_False by lia. cbn [obind]. rewrite Hp. f_equal. lia. }
    split.
    + intros H. split; [lia|]. split; [lia|]. intros r c Hr Hc. destruct (H r c Hr Hc) as (x & y & Hx & Hy & Hv). exists x, y.
      rewrite !Hg by (done || lia). eauto using rd_Ok.
    + intros (_ & _ & H) r c Hr Hc. destruct (H r c Hr Hc) as (x & y & Hx & Hy & Hv). exists x, y.
      rewrite Hg in Hx by (done || lia). rewrite Hg in Hy by (done || lia). eauto using rd_inv.
Qed.
(** When the two objects are windows of the same buffer with the same start and stride the cells are not looked at:
    the answer can differ from the cell-wise comparison only for values that are not equal to themselves (NaN). *)
Theorem C38_shortcut_agrees {V} (veq : V -> V -> bool) n m (b : list V) ch1 h1 ch2 h2 :
  (forall x, veq x x = true) -> length b = n * m -> dm_slices (dm_new n m) ch1 = Ok h1 -> dm_slices (dm_new n m) ch2 = Ok h2 ->
  dm_eq_shared veq b h1 h2 = dm_eq veq b h1 b h2.
Proof.
  intros Hrefl Hl E1 E2. unfold dm_eq_shared. case_decide as Hd; [unfold dm_eq; by rewrite decide_True|].
  case_decide as Hs; [|done]. destruct (C38_equal_iff_same_shape_and_cells veq n m b ch1 h1 n m b ch2 h2) as (e & E & He); [done..|].
  rewrite E. f_equal. symmetry. apply He. split; [lia|]. split; [lia|]. intros r c Hr Hc.
  pose proof (C15_views_alias_window n m b ch1 Hl) as A1. pose proof (C15_views_alias_window n m b ch2 Hl) as A2.
  rewrite E1 in A1. rewrite E2 in A2. destruct (windows (whole n m) ch1) as [w1|]; [|done]. destruct (windows (whole n m) ch2) as [w2|]; [|done].
  destruct A1 as (? & [= <-] & R1 & C1 & G1 & _). destruct A2 as (? & [= <-] & R2 & C2 & G2 & _).
  destruct (G1 r c) as (x & _ & Gx); [lia|lia|]. destruct (G2 r c) as (y & _ & Gy); [lia|lia|]. exists x, y.
  assert (x = y) as ->; [|auto].
  pose proof (slices_is_view n m ch1 _ _ (new_is_view n m)) as H1. pose proof (slices_is_view n m ch2 _ _ (new_is_view n m)) as H2.
  rewrite E1 in H1. rewrite E2 in H2.
  destruct (windows (whole n m) ch1) as [w1'|]; [|done]. destruct (windows (whole n m) ch2) as [w2'|]; [|done].
  destruct H1 as (? & [= <-] & V1). destruct H2 as (? & [= <-] & V2).
  destruct (view_start _ _ _ _ V1) as [P1 _]. destruct (view_start _ _ _ _ V2) as [P2 _].
  unfold dm_get, dm_pos in Gx, Gy. rewrite !decide_False in Gx by lia. rewrite !decide_False in Gy by lia. cbn [obind] in Gx, Gy.
  rewrite P1 in Gx. rewrite P2 in Gy. destruct Hs as [Hs1 Hs2]. rewrite Hs1, Hs2 in Gx. congruence.
Qed.
Example C38_example :
  exists h1 h2, dm_slices (dm_new 2 3) [(0, 2, 1, 3)]%Z = Ok h1 /\ dm_slices (dm_new 3 2) [(1, 3, 0, 2)]%Z = Ok h2 /\
    dm_eq Z.eqb [1; 2; 3; 4; 5; 6]%Z h1 [0; 0; 2; 3; 5; 6]%Z h2 = Ok true /\ dm_eq Z.eqb [1; 2; 3; 4; 5; 6]%Z h1 [0; 0; 2; 3; 5; 7]%Z h2 = Ok false.
Proof. eexists _, _. repeat split; vm_compute; reflexivity. Qed.

Print Assumptions C15_views_alias_window.
Print Assumptions C15_shrink_keeps_cells.
Print Assumptions C15_shrink_view_refuted.
Print Assumptions C16_append_fills_window.
Print Assumptions C16_strided_refuted.
Print Assumptions C16_strided_empty_history_refuted.
Print Assumptions C38_equal_iff_same_shape_and_cells.
Print Assumptions C38_shortcut_agrees.
