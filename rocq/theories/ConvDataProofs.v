(** Proofs about the gradient of convolution with respect to the images. *)
From Coq Require Import QArith Qcanon.
From stdpp Require Import base numbers list list_numbers.
From Coq Require Import Lia.
From Verif Require Import CppBase ConvModel ConvSpec ConvProofs ConvBackModel ConvBackSpec ConvBackProofs ConvFilterProofs.
Local Open Scope nat_scope.

Section cells.
  Context {V : Type} (zero : V) (add mul : V -> V -> V).

  (** The gradients of the output spread out by the strides, with a margin of the filter extents. *)
  Definition margin (dout : list V) (K fh fw sh sw i k x y : nat) : V :=
    if decide (fh - 1 <= x /\ fw - 1 <= y) then spread zero dout K fh fw sh sw i k (x - (fh - 1)) (y - (fw - 1)) else zero.

  Lemma loss_gradient_matrix_ok (m dout : list V) B K fh fw PH PW sh sw i k :
    0 < sh -> 0 < sw -> 0 < fh -> 0 < fw ->
    (forall p, p < fh -> p * sh + fh <= PH) -> (forall q, q < fw -> q * sw + fw <= PW) ->
    length m = (fh + PH - 1) * (fw + PW - 1) -> length dout = B * (K * (fh * fw)) -> i < B -> k < K ->
    exists m', loss_gradient_matrix zero m dout fh fw (fh + PH - 1) (fw + PW - 1) sh sw (i * (K * (fh * fw)) + k * (fh * fw)) = Ok m' /\
      length m' = (fh + PH - 1) * (fw + PW - 1) /\
      forall x y, x < fh + PH - 1 -> y < fw + PW - 1 -> m' !! (x * (fw + PW - 1) + y) = Some (margin dout K fh fw sh sw i k x y).
  Proof.
    intros Hsh Hsw Hfh Hfw HP HQ HLm HLd Hi Hk. unfold loss_gradient_matrix. set (mh := fh + PH - 1). set (mw := fw + PW - 1).
    fold mh mw in HLm. rewrite clear_ok by done. cbn [obind].
    assert (HPh : forall p, p < fh -> fh - 1 + p * sh < mh). { intros p Hp. specialize (HP p Hp). unfold mh. lia. }
    assert (HQw : forall q, q < fw -> fw - 1 + q * sw < mw). { intros q Hq. specialize (HQ q Hq). unfold mw. lia. }
    set (done_ := fun (D : nat -> nat -> Prop) (m : list V) => length m = mh * mw /\
      (forall a b, a < fh -> b < fw -> D a b -> m !! ((fh - 1 + a * sh) * mw + (fw - 1 + b * sw)) = Some (pixel zero dout K fh fw i k a b)) /\
      (forall x y, x < mh -> y < mw -> (forall a b, a < fh -> b < fw -> x = fh - 1 + a * sh -> y = fw - 1 + b * sw -> False) -> m !! (x * mw + y) = Some zero)).
    destruct (for_up_inv (fun n m => done_ (fun a _ => a < n) m) 0 fh (fun h matrix => for_up 0 fw (fun w matrix =>
        let* x := rd dout (i * (K * (fh * fw)) + k * (fh * fw) + (h * fw + w)) in
        wr matrix ((fh - 1) * mw + fw - 1 + h * sh * mw + w * sw) x) matrix) (zeros zero (mh * mw))) as (m' & E & HL' & Hin & Hout).
    - lia.
    - split; [unfold zeros; apply replicate_length|]. split; [intros; lia|]. intros h w Hh Hw _. apply lookup_replicate_2. by apply lin_lt.
    - intros n m1 Hn Hd.
      destruct (for_up_inv (fun c m => done_ (fun a b => a < n \/ a = n /\ b < c) m) 0 fw (fun w matrix =>
        let* x := rd dout (i * (K * (fh * fw)) + k * (fh * fw) + (n * fw + w)) in
        wr matrix ((fh - 1) * mw + fw - 1 + n * sh * mw + w * sw) x) m1) as (m2 & E2 & HL2 & Hin2 & Hout2).
      + lia.
      + destruct Hd as (H1 & H2 & H3). split; [done|]. split; [|done]. intros a b Ha Hb [?|?]; [by apply H2|lia].
      + intros c m3 Hc (HL3 & Hin3 & Hout3).
        replace (i * (K * (fh * fw)) + k * (fh * fw) + (n * fw + c)) with (i * (K * (fh * fw)) + k * (fh * fw) + n * fw + c) by lia.
        rewrite (rd_Ok dout _ _ (lookup_pixel zero dout B K fh fw i k n c HLd Hi Hk ltac:(lia) ltac:(lia))). cbn [obind].
        pose proof (HPh n ltac:(lia)). pose proof (HQw c ltac:(lia)).
        replace ((fh - 1) * mw + fw - 1 + n * sh * mw + c * sw) with ((fh - 1 + n * sh) * mw + (fw - 1 + c * sw))
          by (rewrite (Nat.mul_add_distr_r (fh - 1)); generalize ((fh - 1) * mw) (n * sh * mw); lia).
        assert ((fh - 1 + n * sh) * mw + (fw - 1 + c * sw) < length m3). { rewrite HL3. by apply lin_lt. }
        rewrite wr_Ok by done. eexists. split; [done|]. split; [by rewrite insert_length|]. split.
        * intros a b Ha Hb Hab. destruct (decide (a = n /\ b = c)) as [[-> ->]|Hne]; [rewrite list_lookup_insert by done; done|].
          rewrite list_lookup_insert_ne; [apply Hin3; [done|done|lia]|]. intros Eq. apply lin_inj in Eq as [E1 E3]; [|by auto|by auto].
          apply Hne. split; [apply (Nat.mul_cancel_r a n sh); lia|apply (Nat.mul_cancel_r b c sw); lia].
        * intros x y Hx Hy Hno. rewrite list_lookup_insert_ne; [by apply Hout3|]. intros Eq. apply lin_inj in Eq as [E1 E3]; [|by auto|by auto].
          apply (Hno n c); [lia|lia|done|done].
      + eexists. split; [exact E2|]. split; [done|]. split; [|done]. intros a b Ha Hb Hab. apply Hin2; [done|done|lia].
    - exists m'. split; [done|]. split; [done|]. intros x y Hx Hy. unfold margin, spread.
      destruct (decide (fh - 1 <= x /\ fw - 1 <= y)) as [[Hxf Hyf]|Hn].
      2: { apply Hout; [done|done|]. intros a b Ha Hb -> ->. lia. }
      destruct (decide ((x - (fh - 1)) mod sh = 0 /\ (y - (fw - 1)) mod sw = 0 /\ (x - (fh - 1)) / sh < fh /\ (y - (fw - 1)) / sw < fw)) as [(H1 & H2 & H3 & H4)|Hn].
      + rewrite <- (Hin ((x - (fh - 1)) / sh) ((y - (fw - 1)) / sw)) by done. f_equal.
        pose proof (Nat.div_mod (x - (fh - 1)) sh ltac:(lia)). pose proof (Nat.div_mod (y - (fw - 1)) sw ltac:(lia)).
        replace (fh - 1 + (x - (fh - 1)) / sh * sh) with x by lia. replace (fw - 1 + (y - (fw - 1)) / sw * sw) with y by lia. done.
      + apply Hout; [done|done|]. intros a b Ha Hb -> ->. apply Hn.
        replace (fh - 1 + a * sh - (fh - 1)) with (a * sh) by lia. replace (fw - 1 + b * sw - (fw - 1)) with (b * sw) by lia.
        rewrite !Nat.mod_mul, !Nat.div_mul by lia. done.
  Qed.

  Lemma rotated_filter_ok (rot filter : list V) K C fh fw k c :
    length rot = fh * fw -> length filter = K * (C * (fh * fw)) -> k < K -> c < C ->
    exists rot', rotated_filter rot filter fh fw (k * (C * (fh * fw)) + c * (fh * fw)) = Ok rot' /\ length rot' = fh * fw /\
      forall u v, u < fh -> v < fw -> rot' !! (u * fw + v) = Some (pixel zero filter C fh fw k c (fh - 1 - u) (fw - 1 - v)).
  Proof.
    intros HLr HLf Hk Hc. unfold rotated_filter. set (off := k * (C * (fh * fw)) + c * (fh * fw)).
    assert (Hoff : off + fh * fw <= length filter). { rewrite HLf. unfold off. assert (k * C + c < K * C) by (by apply lin_lt). nia. }
    destruct (for_up_inv (fun n r => length r = fh * fw /\ forall j, j < n -> r !! j = filter !! (off + fh * fw - j - 1)) 0 (fh * fw)
      (fun i rot => let* x := rd filter (off + fh * fw - i - 1) in wr rot i x) rot) as (r & E & HL & HC).
    - lia.
    - split; [done|]. intros; lia.
    - intros n r Hn [HL HC]. destruct (rd_lt filter (off + fh * fw - n - 1) ltac:(lia)) as (x & Hx & ->). cbn [obind].
      rewrite wr_Ok by lia. eexists. split; [done|]. split; [by rewrite insert_length|]. intros j Hj.
      destruct (decide (j = n)) as [->|Hne]; [rewrite list_lookup_insert by lia; done|]. rewrite list_lookup_insert_ne by done. apply HC. lia.
    - exists r. split; [done|]. split; [done|]. intros u v Hu Hv. rewrite HC by (apply lin_lt; done).
      rewrite <- (lookup_pixel zero filter K C fh fw k c (fh - 1 - u) (fw - 1 - v) HLf) by lia. f_equal. fold off.
      assert (u * fw + v < fh * fw) by (by apply lin_lt). assert ((fh - 1 - u) * fw = (fh - 1) * fw - u * fw) by apply Nat.mul_sub_distr_r.
      assert (u * fw <= (fh - 1) * fw) by (apply Nat.mul_le_mono_r; lia). assert ((fh - 1) * fw = fh * fw - fw) by (rewrite Nat.mul_sub_distr_r; lia).
      assert (fw <= fh * fw) by nia. lia.
  Qed.

  Lemma effl_for_lo L lo n f d :
    (forall i, i < n -> eff add (fun m : list V => m) (fun _ => True) L (f (lo + i)) (d i)) ->
    eff add (fun m : list V => m) (fun _ => True) L (for_up lo (lo + n) f) (fun j => each n (fun i => d i j)).
  Proof.
    intros H. pose proof (eff_for_up (St := list V) add (fun m : list V => m) (fun _ => True) L lo (lo + n) f (fun i => d (i - lo))) as HB.
    replace (lo + n - lo) with n in HB by lia. apply (eff_ext _ _ _ _ _ (fun j => concat (map (fun i => d (i - lo) j) (seq lo n)))).
    - intros j _. unfold each. f_equal. rewrite (map_seq_shift (fun i => d (i - lo) j) lo). apply map_seq_ext. intros i _. f_equal. lia.
    - apply HB. intros i Hi. specialize (H (i - lo) ltac:(lia)). by replace (lo + (i - lo)) with i in H by lia.
  Qed.

  Theorem conv2d_backward_data_margin (filter dout : list V) K B C H W fh fw sh sw pad :
    positions H fh pad sh fh -> positions W fw pad sw fw -> 0 < sh -> 0 < sw -> 0 < fh -> 0 < fw ->
    length filter = K * (C * (fh * fw)) -> length dout = B * (K * (fh * fw)) ->
    exists res, conv2d_backward_data zero add mul filter dout sh sw pad pad B C H W K fh fw = Ok res /\
      images res B C H W (fun i c r s => sum zero add (each K (fun k => each fh (fun u => each fw (fun v =>
        [mul (margin dout K fh fw sh sw i k (pad + r + u) (pad + s + v)) (pixel zero filter C fh fw k c (fh - 1 - u) (fw - 1 - v))]))))).
  Proof.
    intros HP HQ Hsh Hsw Hfh0 Hfw0 HLf HLd. unfold conv2d_backward_data.
    assert (Hfh : fh <= H + 2 * pad). { assert (0 * sh + fh <= H + 2 * pad); [by apply HP|lia]. }
    assert (Hfw : fw <= W + 2 * pad). { assert (0 * sw + fw <= W + 2 * pad); [by apply HQ|lia]. }
    destruct (get_pq_ok H fh pad sh Hsh Hfh) as (P' & EP & HP' & _). destruct (get_pq_ok W fw pad sw Hsw Hfw) as (Q' & EQ & HQ' & _).
    rewrite (positions_unique _ _ _ _ _ _ HP' HP) in EP. rewrite (positions_unique _ _ _ _ _ _ HQ' HQ) in EQ. clear P' Q' HP' HQ'.
    rewrite EP. cbn [obind]. rewrite EQ. cbn [obind].
    set (PH := H + 2 * pad). set (PW := W + 2 * pad). set (mh := fh + PH - 1). set (mw := fw + PW - 1).
    set (L := B * (C * (H * W))).
    match goal with |- context [for_up 0 B ?f ?s0] => set (body := f); set (s := s0) end.
    set (Inv := fun st : (list V * list V) * list V => length st.1.1 = fh * fw /\ length st.1.2 = mh * mw).
    set (dl := fun i c k r u t v (j : nat) =>
      if decide (j = ((i * C + c) * H + r) * W + t) then
        [mul (margin dout K fh fw sh sw i k (pad + r + u) (pad + t + v)) (pixel zero filter C fh fw k c (fh - 1 - u) (fw - 1 - v))] else []).
    assert (HE : eff add snd Inv L (for_up 0 B body) (fun j =>
      each B (fun i => each C (fun c => each K (fun k => each H (fun r => each fh (fun u => each W (fun t => each fw (fun v =>
          dl i c k r u t v j))))))))).
    { pose proof (fun f d => eff_for_up (St := (list V * list V) * list V) add snd Inv L 0 B f d) as HB.
      rewrite Nat.sub_0_r in HB. apply HB. clear HB. intros i Hi. subst body. cbv beta.
      pose proof (fun f d => eff_for_up (St := (list V * list V) * list V) add snd Inv L 0 C f d) as HB.
      rewrite Nat.sub_0_r in HB. apply HB. clear HB. intros c Hc. cbv beta.
      pose proof (fun f d => eff_for_up (St := (list V * list V) * list V) add snd Inv L 0 K f d) as HB.
      rewrite Nat.sub_0_r in HB. apply HB. clear HB. intros k Hk. cbv beta. intros [[rot mat] res] [HLr HLg] HL. cbn [fst snd] in HLr, HLg, HL.
      replace (k * (C * fh * fw) + c * fh * fw) with (k * (C * (fh * fw)) + c * (fh * fw)) by lia.
      destruct (rotated_filter_ok rot filter K C fh fw k c HLr HLf ltac:(lia) ltac:(lia)) as (rot' & Er & HLr' & Hr).
      rewrite Er. cbn [obind].
      replace (i * (K * fh * fw) + k * (fh * fw)) with (i * (K * (fh * fw)) + k * (fh * fw)) by lia.
      destruct (loss_gradient_matrix_ok mat dout B K fh fw PH PW sh sw i k Hsh Hsw Hfh0 Hfw0
        (fun p Hp => proj1 (HP p) Hp) (fun q Hq => proj1 (HQ q) Hq) HLg HLd ltac:(lia) ltac:(lia)) as (gr & Egr & HLgr & Hgr).
      fold mh mw in Egr. rewrite Egr. cbn [obind].
      assert (Hin : eff add (fun m : list V => m) (fun _ => True) L
          (for_up pad (pad + H) (fun i_h data => for_up 0 fh (fun f_h data => for_up pad (pad + W) (fun i_w data => for_up 0 fw (fun f_w data =>
            let* d := rd data (i * (C * (H * W)) + c * (H * W) + (i_h - pad) * W + i_w - pad) in
            let* x := rd gr ((i_h + f_h) * mw + i_w + f_w) in
            let* y := rd rot' (f_h * fw + f_w) in
            wr data (i * (C * (H * W)) + c * (H * W) + (i_h - pad) * W + i_w - pad) (add d (mul x y))) data) data) data))
          (fun j => each H (fun r => each fh (fun u => each W (fun t => each fw (fun v => dl i c k r u t v j)))))).
      { apply (effl_for_lo _ _ _ _ (fun r j => each fh (fun u => each W (fun t => each fw (fun v => dl i c k r u t v j))))). intros r Hrr.
        apply (effl_for add _ _ _ (fun u j => each W (fun t => each fw (fun v => dl i c k r u t v j)))). intros u Hu.
        apply (effl_for_lo _ _ _ _ (fun t j => each fw (fun v => dl i c k r u t v j))). intros t Ht.
        apply (effl_for add _ _ _ (fun v j => dl i c k r u t v j)). intros v Hv.
        intros m _ HLm.
        replace (i * (C * (H * W)) + c * (H * W) + (pad + r - pad) * W + (pad + t) - pad) with (((i * C + c) * H + r) * W + t)
          by (replace (pad + r - pad) with r by lia; lia).
        assert (Hlt : ((i * C + c) * H + r) * W + t < length m). { rewrite HLm. apply lin4_lt; lia. }
        destruct (rd_lt m _ Hlt) as (x & Hx & ->). cbn [obind].
        replace ((pad + r + u) * mw + (pad + t) + v) with ((pad + r + u) * mw + (pad + t + v)) by lia.
        unfold mw. rewrite (rd_Ok gr _ _ (Hgr (pad + r + u) (pad + t + v) ltac:(unfold PH; lia) ltac:(unfold PW; lia))). cbn [obind].
        rewrite (rd_Ok rot' _ _ (Hr u v Hu Hv)). cbn [obind].
        destruct (upd_cell add m _ x (mul (margin dout K fh fw sh sw i k (pad + r + u) (pad + t + v)) (pixel zero filter C fh fw k c (fh - 1 - u) (fw - 1 - v))) Hx) as (Ew & El & Eu).
        rewrite Ew. eexists. split; [done|]. split; [done|]. split; [congruence|]. exact Eu. }
      destruct (Hin res I HL) as (res' & E' & _ & HL' & HC').
      rewrite E'. cbn [obind]. eexists. split; [done|]. split; [done|]. split; [done|]. exact HC'. }
    destruct (HE s) as (st & Est & _ & HLst & HC).
    { subst s. split; cbn [fst snd]; unfold zeros; apply replicate_length. }
    { subst s. cbn [snd]. unfold zeros. rewrite replicate_length. done. }
    rewrite Est. cbn [obind]. exists st.2. split; [done|]. split; [done|].
    intros i c r t Hi Hc Hr Ht. rewrite lin4.
    rewrite (HC _ zero); [|subst s; cbn [snd]; apply lookup_replicate_2; apply lin4_lt; done]. f_equal. clear HC HE. unfold sum. f_equal.
    rewrite (each_one B i); [|done|].
    2: { intros i' Hi' Hne. apply each_nil. intros c' Hc'. apply each_nil. intros k' Hk'. apply each_nil. intros r' Hr'. apply each_nil. intros u Hu.
         apply each_nil. intros t' Ht'. apply each_nil. intros v Hv. unfold dl. rewrite decide_False; [done|]. intros Eq. apply lin4_inj in Eq as (-> & _); lia. }
    rewrite (each_one C c); [|done|].
    2: { intros c' Hc' Hne. apply each_nil. intros k' Hk'. apply each_nil. intros r' Hr'. apply each_nil. intros u Hu.
         apply each_nil. intros t' Ht'. apply each_nil. intros v Hv. unfold dl. rewrite decide_False; [done|]. intros Eq. apply lin4_inj in Eq as (_ & -> & _); lia. }
    apply each_ext. intros k Hk. rewrite (each_one H r); [|done|].
    2: { intros r' Hr' Hne. apply each_nil. intros u Hu.
         apply each_nil. intros t' Ht'. apply each_nil. intros v Hv. unfold dl. rewrite decide_False; [done|]. intros Eq. apply lin4_inj in Eq as (_ & _ & -> & _); lia. }
    apply each_ext. intros u Hu. rewrite (each_one W t); [|done|].
    2: { intros t' Ht' Hne. apply each_nil. intros v Hv. unfold dl. rewrite decide_False; [done|]. intros Eq. apply lin4_inj in Eq as (_ & _ & _ & ->); lia. }
    apply each_ext. intros v Hv. unfold dl. by rewrite decide_True.
  Qed.
End cells.

(** * Sums of rationals *)
Lemma nsum_plus n g g' : nsum n (fun i => Qcplus (g i) (g' i)) = Qcplus (nsum n g) (nsum n g').
Proof. induction n as [|n IH]; [unfold nsum, qsum, sum; cbn; ring|]. rewrite !nsum_S, IH. ring. Qed.
Lemma nsum_swap n m (g : nat -> nat -> Qc) : nsum n (fun i => nsum m (g i)) = nsum m (fun j => nsum n (fun i => g i j)).
Proof.
  induction n as [|n IH].
  - symmetry. apply nsum_0. done.
  - rewrite nsum_S, IH, <- nsum_plus. apply nsum_ext. intros j _. by rewrite nsum_S.
Qed.
Lemma nsum_S' n g : nsum (S n) g = Qcplus (g 0) (nsum n (fun i => g (S i))).
Proof. induction n as [|n IH]; [rewrite nsum_S; unfold nsum, qsum, sum; cbn; ring|]. rewrite nsum_S, IH, (nsum_S n). ring. Qed.
Lemma nsum_rev n g : nsum n g = nsum n (fun i => g (n - 1 - i)).
Proof.
  revert g. induction n as [|n IH]; intros g; [done|]. rewrite nsum_S, nsum_S', IH. rewrite Qcplus_comm. f_equal; [f_equal; lia|].
  apply nsum_ext. intros i Hi. f_equal. lia.
Qed.
Lemma nsum_one n k g : k < n -> (forall i, i < n -> i <> k -> g i = Q2Qc 0) -> nsum n g = g k.
Proof.
  revert k. induction n as [|n IH]; intros k Hk H0; [lia|]. rewrite nsum_S. destruct (decide (k = n)) as [->|Hne].
  - rewrite nsum_0; [ring|]. intros i Hi. apply H0; lia.
  - rewrite (H0 n) by lia. rewrite (IH k); [ring|lia|]. intros i Hi Hn. apply H0; lia.
Qed.
Lemma qsum_only (P : Prop) {HP : Decision P} x : qsum (only P x) = if decide P then x else Q2Qc 0.
Proof. unfold only. destruct (decide P); [apply qsum_one|done]. Qed.

Theorem conv2d_backward_data_correct (filter dout : list Qc) K B C H W fh fw sh sw pad :
  positions H fh pad sh fh -> positions W fw pad sw fw -> 0 < sh -> 0 < sw -> 0 < fh -> 0 < fw ->
  length filter = K * (C * (fh * fw)) -> length dout = B * (K * (fh * fw)) ->
  exists res, conv2d_backward_data (Q2Qc 0) Qcplus Qcmult filter dout sh sw pad pad B C H W K fh fw = Ok res /\
    images res B C H W (data_grad_at filter dout K C fh fw fh fw sh sw pad pad).
Proof.
  intros HP HQ Hsh Hsw Hfh0 Hfw0 HLf HLd.
  destruct (conv2d_backward_data_margin (Q2Qc 0) Qcplus Qcmult filter dout K B C H W fh fw sh sw pad HP HQ Hsh Hsw Hfh0 Hfw0 HLf HLd) as (res & E & HL & HC).
  exists res. split; [done|]. split; [done|]. intros i c r s Hi Hc Hr Hs. rewrite HC by done. f_equal. clear HC.
  unfold data_grad_at. change (sum (Q2Qc 0) Qcplus) with qsum. rewrite !qsum_each. apply nsum_ext. intros k Hk.
  set (d := pixel (Q2Qc 0) dout K fh fw i k). set (F := pixel (Q2Qc 0) filter C fh fw k c).
  (* both sides as sums over the cells of the filter *)
  transitivity (nsum fh (fun h => nsum fw (fun w => nsum fh (fun p => nsum fw (fun q =>
    if decide (p * sh + h = pad + r /\ q * sw + w = pad + s) then Qcmult (d p q) (F h w) else Q2Qc 0))))).
  - rewrite qsum_each, nsum_rev. apply nsum_ext. intros h Hh. rewrite qsum_each, nsum_rev. apply nsum_ext. intros w Hw. rewrite qsum_one.
    replace (fh - 1 - (fh - 1 - h)) with h by lia. replace (fw - 1 - (fw - 1 - w)) with w by lia. fold F.
    unfold margin. destruct (decide (fh - 1 <= pad + r + (fh - 1 - h) /\ fw - 1 <= pad + s + (fw - 1 - w))) as [[H1 H2]|Hn].
    2: { symmetry. etransitivity; [apply nsum_0|ring]. intros p Hp. apply nsum_0. intros q Hq. rewrite decide_False; [done|]. intros [E1 E2]. apply Hn. lia. }
    replace (pad + r + (fh - 1 - h) - (fh - 1)) with (pad + r - h) by lia. replace (pad + s + (fw - 1 - w) - (fw - 1)) with (pad + s - w) by lia.
    unfold spread.
    destruct (decide ((pad + r - h) mod sh = 0 /\ (pad + s - w) mod sw = 0 /\ (pad + r - h) / sh < fh /\ (pad + s - w) / sw < fw)) as [(M1 & M2 & D1 & D2)|Hn].
    + pose proof (Nat.div_mod (pad + r - h) sh ltac:(lia)) as Z1. pose proof (Nat.div_mod (pad + s - w) sw ltac:(lia)) as Z2.
      set (a := (pad + r - h) / sh) in *. set (b := (pad + s - w) / sw) in *. symmetry. rewrite (nsum_one fh a); [|done|].
      2: { intros p Hp Hne. apply nsum_0. intros q Hq. rewrite decide_False; [done|]. intros [E1 _]. apply Hne. apply (Nat.mul_cancel_r p a sh); lia. }
      rewrite (nsum_one fw b); [|done|].
      2: { intros q Hq Hne. rewrite decide_False; [done|]. intros [_ E2]. apply Hne. apply (Nat.mul_cancel_r q b sw); lia. }
      rewrite decide_True by lia. done.
    + symmetry. etransitivity; [apply nsum_0|ring]. intros p Hp. apply nsum_0. intros q Hq. rewrite decide_False; [done|]. intros [E1 E2]. apply Hn.
      replace (pad + r - h) with (p * sh) by lia. replace (pad + s - w) with (q * sw) by lia. rewrite !Nat.mod_mul, !Nat.div_mul by lia. done.
  - rewrite qsum_each.
    transitivity (nsum fh (fun p => nsum fh (fun h => nsum fw (fun q => nsum fw (fun w =>
      if decide (p * sh + h = pad + r /\ q * sw + w = pad + s) then Qcmult (d p q) (F h w) else Q2Qc 0))))).
    2: { apply nsum_ext. intros p Hp. rewrite qsum_each. apply nsum_ext. intros h Hh. rewrite qsum_each. apply nsum_ext. intros q Hq. rewrite qsum_each.
         apply nsum_ext. intros w Hw. by rewrite qsum_only. }
    rewrite (nsum_swap fh fh). apply nsum_ext. intros h Hh. rewrite (nsum_swap fw fh). apply nsum_ext. intros p Hp. apply nsum_swap.
Qed.
