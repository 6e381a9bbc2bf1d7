(** Proofs about the gradient of convolution with respect to the filters. *)
From Coq Require Import QArith Qcanon.
From stdpp Require Import base numbers list list_numbers.
From Coq Require Import Lia.
From Verif Require Import CppBase ConvModel ConvSpec ConvProofs ConvBackModel ConvBackSpec ConvBackProofs.
Local Open Scope nat_scope.

Section cells.
  Context {V : Type} (zero : V) (add mul : V -> V -> V).

  (** The gradients of the output spread out by the strides. *)
  Definition spread (dout : list V) (K P Q sh sw i k h w : nat) : V :=
    if decide (h mod sh = 0 /\ w mod sw = 0 /\ h / sh < P /\ w / sw < Q) then pixel zero dout K P Q i k (h / sh) (w / sw) else zero.

  Lemma gradient_matrix_ok (m dout : list V) B K P Q fh fw PH PW sh sw i k :
    0 < sh -> 0 < sw -> 0 < fh -> 0 < fw -> fh <= PH -> fw <= PW ->
    (forall p, p < P -> p * sh + fh <= PH) -> (forall q, q < Q -> q * sw + fw <= PW) ->
    length m = (PH - (fh - 1)) * (PW - (fw - 1)) -> length dout = B * (K * (P * Q)) -> i < B -> k < K ->
    exists m', gradient_matrix zero m dout P Q fh fw PH PW sh sw (i * (K * (P * Q)) + k * (P * Q)) = Ok m' /\
      length m' = (PH - (fh - 1)) * (PW - (fw - 1)) /\
      forall h w, h < PH - (fh - 1) -> w < PW - (fw - 1) -> m' !! (h * (PW - (fw - 1)) + w) = Some (spread dout K P Q sh sw i k h w).
  Proof.
    intros Hsh Hsw Hfh Hfw HfH HfW HP HQ HLm HLd Hi Hk. unfold gradient_matrix. set (mh := PH - (fh - 1)). set (mw := PW - (fw - 1)).
    fold mh mw in HLm. rewrite clear_ok by done. cbn [obind].
    assert (HPh : forall p, p < P -> p * sh < mh). { intros p Hp. specialize (HP p Hp). unfold mh. lia. }
    assert (HQw : forall q, q < Q -> q * sw < mw). { intros q Hq. specialize (HQ q Hq). unfold mw. lia. }
    set (done_ := fun (D : nat -> nat -> Prop) (m : list V) => length m = mh * mw /\
      (forall a b, a < P -> b < Q -> D a b -> m !! (a * sh * mw + b * sw) = Some (pixel zero dout K P Q i k a b)) /\
      (forall h w, h < mh -> w < mw -> (forall a b, a < P -> b < Q -> h = a * sh -> w = b * sw -> False) -> m !! (h * mw + w) = Some zero)).
    destruct (for_up_inv (fun n m => done_ (fun a _ => a < n) m) 0 P (fun h matrix => for_up 0 Q (fun w matrix =>
        let* x := rd dout (i * (K * (P * Q)) + k * (P * Q) + (h * Q + w)) in
        wr matrix (h * sh * mw + w * sw) x) matrix) (zeros zero (mh * mw))) as (m' & E & HL' & Hin & Hout).
    - lia.
    - split; [unfold zeros; apply replicate_length|]. split; [intros; lia|]. intros h w Hh Hw _. apply lookup_replicate_2. by apply lin_lt.
    - intros n m1 Hn Hd.
      destruct (for_up_inv (fun c m => done_ (fun a b => a < n \/ a = n /\ b < c) m) 0 Q (fun w matrix =>
        let* x := rd dout (i * (K * (P * Q)) + k * (P * Q) + (n * Q + w)) in
        wr matrix (n * sh * mw + w * sw) x) m1) as (m2 & E2 & HL2 & Hin2 & Hout2).
      + lia.
      + destruct Hd as (H1 & H2 & H3). split; [done|]. split; [|done]. intros a b Ha Hb [?|?]; [by apply H2|lia].
      + intros c m3 Hc (HL3 & Hin3 & Hout3).
        replace (i * (K * (P * Q)) + k * (P * Q) + (n * Q + c)) with (i * (K * (P * Q)) + k * (P * Q) + n * Q + c) by lia.
        rewrite (rd_Ok dout _ _ (lookup_pixel zero dout B K P Q i k n c HLd Hi Hk ltac:(lia) ltac:(lia))). cbn [obind].
        pose proof (HPh n ltac:(lia)). pose proof (HQw c ltac:(lia)).
        assert (n * sh * mw + c * sw < length m3). { rewrite HL3. by apply lin_lt. }
        rewrite wr_Ok by done. eexists. split; [done|]. split; [by rewrite insert_length|]. split.
        * intros a b Ha Hb Hab. destruct (decide (a = n /\ b = c)) as [[-> ->]|Hne]; [rewrite list_lookup_insert by done; done|].
          rewrite list_lookup_insert_ne; [apply Hin3; [done|done|lia]|]. intros Eq. apply lin_inj in Eq as [E1 E3]; [|by auto|by auto].
          apply Nat.mul_cancel_r in E1; [|lia]. apply Nat.mul_cancel_r in E3; [|lia]. by apply Hne.
        * intros h w Hh Hw Hno. rewrite list_lookup_insert_ne; [by apply Hout3|]. intros Eq. apply lin_inj in Eq as [E1 E3]; [|by auto|by auto].
          apply (Hno n c); [lia|lia|done|done].
      + eexists. split; [exact E2|]. split; [done|]. split; [|done]. intros a b Ha Hb Hab. apply Hin2; [done|done|lia].
    - exists m'. split; [done|]. split; [done|]. intros h w Hh Hw. unfold spread.
      destruct (decide (h mod sh = 0 /\ w mod sw = 0 /\ h / sh < P /\ w / sw < Q)) as [(H1 & H2 & H3 & H4)|Hn].
      + rewrite <- (Hin (h / sh) (w / sw)) by done. f_equal.
        pose proof (Nat.div_mod h sh ltac:(lia)). pose proof (Nat.div_mod w sw ltac:(lia)).
        replace (h / sh * sh) with h by lia. replace (w / sw * sw) with w by lia. done.
      + apply Hout; [done|done|]. intros a b Ha Hb -> ->. apply Hn. rewrite !Nat.mod_mul, !Nat.div_mul by lia. done.
  Qed.

  Theorem conv2d_backward_filter_spread (data dout : list V) K B C H W fh fw sh sw pad_h pad_w P Q :
    positions H fh pad_h sh P -> positions W fw pad_w sw Q -> 0 < sh -> 0 < sw -> 0 < fh -> 0 < fw ->
    fh <= H + 2 * pad_h -> fw <= W + 2 * pad_w -> fh = fw \/ fh = 1 ->
    length data = B * (C * (H * W)) -> length dout = B * (K * (P * Q)) ->
    exists res, conv2d_backward_filter zero add mul data dout sh sw pad_h pad_w B C H W K fh fw = Ok res /\
      images res K C fh fw (fun k c p q => sum zero add (each B (fun i => each (H + 2 * pad_h - (fh - 1)) (fun h => each (W + 2 * pad_w - (fw - 1)) (fun w =>
        [mul (padded_pixel zero data C H W pad_h pad_w i c (p + h) (q + w)) (spread dout K P Q sh sw i k h w)]))))).
  Proof.
    intros HP HQ Hsh Hsw Hfh0 Hfw0 Hfh Hfw Hsq HLi HLd. unfold conv2d_backward_filter.
    destruct (get_pq_ok H fh pad_h sh Hsh Hfh) as (P' & EP & HP' & _). destruct (get_pq_ok W fw pad_w sw Hsw Hfw) as (Q' & EQ & HQ' & _).
    rewrite (positions_unique _ _ _ _ _ _ HP' HP) in EP. rewrite (positions_unique _ _ _ _ _ _ HQ' HQ) in EQ. clear P' Q' HP' HQ'.
    rewrite EP. cbn [obind]. rewrite EQ. cbn [obind].
    set (PH := H + 2 * pad_h). set (PW := W + 2 * pad_w). set (mh := PH - (fh - 1)). set (mw := PW - (fw - 1)).
    set (px := padded_pixel zero data C H W pad_h pad_w). set (L := K * (C * (fh * fw))).
    match goal with |- context [for_up 0 K ?f ?s0] => set (body := f); set (s := s0) end.
    set (Inv := fun st : (list V * list V) * list V => zpad zero pad_h pad_w H W st.1.1 /\ length st.1.2 = mh * mw).
    set (dl := fun k c i p q h w (j : nat) =>
      if decide (j = ((k * C + c) * fh + p) * fw + q) then [mul (px i c (p + h) (q + w)) (spread dout K P Q sh sw i k h w)] else []).
    assert (HE : eff add snd Inv L (for_up 0 K body) (fun j =>
      each K (fun k => each C (fun c => each B (fun i => each fh (fun p => each fw (fun q => each mh (fun h => each mw (fun w =>
          dl k c i p q h w j))))))))).
    { pose proof (fun f d => eff_for_up (St := (list V * list V) * list V) add snd Inv L 0 K f d) as HB.
      rewrite Nat.sub_0_r in HB. apply HB. clear HB. intros k Hk. subst body. cbv beta.
      pose proof (fun f d => eff_for_up (St := (list V * list V) * list V) add snd Inv L 0 C f d) as HB.
      rewrite Nat.sub_0_r in HB. apply HB. clear HB. intros c Hc. cbv beta.
      pose proof (fun f d => eff_for_up (St := (list V * list V) * list V) add snd Inv L 0 B f d) as HB.
      rewrite Nat.sub_0_r in HB. apply HB. clear HB. intros i Hi. cbv beta. intros [[padded grad] res] [Hz HLg] HL. cbn [fst snd] in Hz, HLg, HL.
      destruct (padding_pixels zero padded data pad_h pad_w H W B C i c HLi ltac:(lia) ltac:(lia) Hz) as (pd & Epd & Hzpd & Hpd).
      fold PH PW px in Hpd. rewrite Epd. cbn [obind].
      replace (i * (K * P * Q) + k * (P * Q)) with (i * (K * (P * Q)) + k * (P * Q)) by lia.
      destruct (gradient_matrix_ok grad dout B K P Q fh fw PH PW sh sw i k Hsh Hsw Hfh0 Hfw0 Hfh Hfw
        (fun p Hp => proj1 (HP p) Hp) (fun q Hq => proj1 (HQ q) Hq) HLg HLd ltac:(lia) ltac:(lia)) as (gr & Egr & HLgr & Hgr).
      rewrite Egr. cbn [obind].
      assert (Hin : eff add (fun m : list V => m) (fun _ => True) L (for_up 0 fh (fun p res => for_up 0 fw (fun q res =>
          for_up 0 mh (fun h res => for_up 0 mw (fun w res =>
            let* r := rd res (k * (C * (fh * fw)) + c * (fh * fw) + p * fh + q) in
            let* x := rd pd ((p + h) * PW + q + w) in
            let* y := rd gr (h * mw + w) in
            wr res (k * (C * (fh * fw)) + c * (fh * fw) + p * fh + q) (add r (mul x y))) res) res) res))
          (fun j => each fh (fun p => each fw (fun q => each mh (fun h => each mw (fun w => dl k c i p q h w j)))))).
      { apply (effl_for add _ _ _ (fun p j => each fw (fun q => each mh (fun h => each mw (fun w => dl k c i p q h w j))))). intros p Hp.
        apply (effl_for add _ _ _ (fun q j => each mh (fun h => each mw (fun w => dl k c i p q h w j)))). intros q Hq.
        apply (effl_for add _ _ _ (fun h j => each mw (fun w => dl k c i p q h w j))). intros h Hh.
        apply (effl_for add _ _ _ (fun w j => dl k c i p q h w j)). intros w Hw.
        intros m _ HLm.
        assert (Eo : k * (C * (fh * fw)) + c * (fh * fw) + p * fh + q = ((k * C + c) * fh + p) * fw + q).
        { destruct Hsq as [->|Hsq1]; [lia|]. assert (p = 0) as -> by lia. lia. }
        rewrite Eo.
        assert (Hlt : ((k * C + c) * fh + p) * fw + q < length m). { rewrite HLm. apply lin4_lt; lia. }
        destruct (rd_lt m _ Hlt) as (v & Hv & ->). cbn [obind].
        replace ((p + h) * PW + q + w) with ((p + h) * PW + (q + w)) by lia.
        unfold mh in Hh. unfold mw in Hw.
        rewrite (rd_Ok pd _ _ (Hpd (p + h) (q + w) ltac:(lia) ltac:(lia))). cbn [obind].
        unfold mw. rewrite (rd_Ok gr _ _ (Hgr h w Hh Hw)). cbn [obind].
        destruct (upd_cell add m _ v (mul (px i c (p + h) (q + w)) (spread dout K P Q sh sw i k h w)) Hv) as (Ew & El & Eu).
        fold px. rewrite Ew. eexists. split; [done|]. split; [done|]. split; [congruence|]. exact Eu. }
      destruct (Hin res I HL) as (res' & E' & _ & HL' & HC').
      rewrite E'. cbn [obind]. eexists. split; [done|]. split; [done|]. split; [done|]. exact HC'. }
    destruct (HE s) as (st & Est & _ & HLst & HC).
    { split; [apply zpad_zeros|]. subst s. cbn [fst snd]. unfold zeros. apply replicate_length. }
    { subst s. cbn [snd]. unfold zeros. rewrite replicate_length. done. }
    rewrite Est. cbn [obind]. exists st.2. split; [done|]. split; [done|].
    intros k c p q Hk Hc Hp Hq. rewrite lin4.
    rewrite (HC _ zero); [|subst s; cbn [snd]; apply lookup_replicate_2; apply lin4_lt; done]. f_equal. clear HC HE. unfold sum. f_equal.
    rewrite (each_one K k); [|done|].
    2: { intros k' Hk' Hne. apply each_nil. intros c' Hc'. apply each_nil. intros i' Hi'. apply each_nil. intros p' Hp'. apply each_nil. intros q' Hq'.
         apply each_nil. intros h Hh. apply each_nil. intros w Hw. unfold dl. rewrite decide_False; [done|]. intros Eq. apply lin4_inj in Eq as (-> & _); lia. }
    rewrite (each_one C c); [|done|].
    2: { intros c' Hc' Hne. apply each_nil. intros i' Hi'. apply each_nil. intros p' Hp'. apply each_nil. intros q' Hq'.
         apply each_nil. intros h Hh. apply each_nil. intros w Hw. unfold dl. rewrite decide_False; [done|]. intros Eq. apply lin4_inj in Eq as (_ & -> & _); lia. }
    apply each_ext. intros i Hi. rewrite (each_one fh p); [|done|].
    2: { intros p' Hp' Hne. apply each_nil. intros q' Hq'.
         apply each_nil. intros h Hh. apply each_nil. intros w Hw. unfold dl. rewrite decide_False; [done|]. intros Eq. apply lin4_inj in Eq as (_ & _ & -> & _); lia. }
    rewrite (each_one fw q); [|done|].
    2: { intros q' Hq' Hne. apply each_nil. intros h Hh. apply each_nil. intros w Hw. unfold dl. rewrite decide_False; [done|]. intros Eq. apply lin4_inj in Eq as (_ & _ & _ & ->); lia. }
    apply each_ext. intros h Hh. apply each_ext. intros w Hw. unfold dl. by rewrite decide_True.
  Qed.
End cells.

(** * Sums of rationals *)
Definition nsum (n : nat) (g : nat -> Qc) : Qc := qsum (map g (seq 0 n)).
Lemma qsum_app l l' : qsum (l ++ l') = Qcplus (qsum l) (qsum l').
Proof.
  unfold qsum, sum. rewrite foldl_app. generalize (foldl Qcplus (Q2Qc 0) l). induction l' as [|x l' IH] using rev_ind; intros v; cbn [foldl].
  - ring.
  - rewrite !foldl_app. cbn [foldl]. rewrite IH. ring.
Qed.
Lemma nsum_S n g : nsum (S n) g = Qcplus (nsum n g) (g n).
Proof. unfold nsum. rewrite seq_S, map_app, qsum_app. cbn [map]. f_equal. unfold qsum, sum. cbn [foldl]. rewrite Nat.add_0_l. ring. Qed.
Lemma qsum_each n (f : nat -> list Qc) : qsum (each n f) = nsum n (fun i => qsum (f i)).
Proof.
  unfold each. induction n as [|n IH]; [done|]. rewrite nsum_S. rewrite seq_S, map_app, concat_app, qsum_app, IH. cbn [map concat].
  by rewrite app_nil_r.
Qed.
Lemma nsum_ext n g g' : (forall i, i < n -> g i = g' i) -> nsum n g = nsum n g'.
Proof. intros H. unfold nsum. f_equal. apply map_seq_ext. intros i Hi. apply H. lia. Qed.
Lemma nsum_0 n g : (forall i, i < n -> g i = Q2Qc 0) -> nsum n g = Q2Qc 0.
Proof.
  induction n as [|n IH]; intros H; [done|]. rewrite nsum_S, IH, H; [ring|lia|]. intros i Hi. apply H. lia.
Qed.
Lemma nsum_tail n m g : m <= n -> (forall i, m <= i < n -> g i = Q2Qc 0) -> nsum n g = nsum m g.
Proof.
  intros Hm H. induction n as [|n IH]; [by replace m with 0 by lia|]. destruct (decide (m = S n)) as [->|Hne]; [done|].
  rewrite nsum_S, IH, H; [ring|lia|lia|]. intros i Hi. apply H. lia.
Qed.
Lemma nsum_strided n P s g : 0 < s -> (forall a, a < P -> a * s < n) ->
  (forall h, h < n -> (forall a, a < P -> h <> a * s) -> g h = Q2Qc 0) -> nsum n g = nsum P (fun a => g (a * s)).
Proof.
  intros Hs. revert n. induction P as [|P IH]; intros n Hlt H0.
  - apply nsum_0. intros i Hi. apply H0; [done|]. lia.
  - rewrite nsum_S. pose proof (Hlt P ltac:(lia)). rewrite (nsum_tail n (S (P * s))).
    + rewrite nsum_S. f_equal. apply IH.
      * intros a Ha. nia.
      * intros h Hh Hno. apply H0; [lia|]. intros a Ha. destruct (decide (a = P)) as [->|Hne]; [lia|]. apply Hno. lia.
    + lia.
    + intros i Hi. apply H0; [lia|]. intros a Ha Ea. subst i. nia.
Qed.
Lemma qsum_one x : qsum [x] = x.
Proof. unfold qsum, sum. cbn [foldl]. ring. Qed.

Theorem conv2d_backward_filter_correct (data dout : list Qc) K B C H W fh fw sh sw pad_h pad_w P Q :
  positions H fh pad_h sh P -> positions W fw pad_w sw Q -> 0 < sh -> 0 < sw -> 0 < fh -> 0 < fw ->
  fh <= H + 2 * pad_h -> fw <= W + 2 * pad_w -> fh = fw \/ fh = 1 ->
  length data = B * (C * (H * W)) -> length dout = B * (K * (P * Q)) ->
  exists res, conv2d_backward_filter (Q2Qc 0) Qcplus Qcmult data dout sh sw pad_h pad_w B C H W K fh fw = Ok res /\
    images res K C fh fw (filter_grad_at data dout K B C H W P Q sh sw pad_h pad_w).
Proof.
  intros HP HQ Hsh Hsw Hfh0 Hfw0 Hfh Hfw Hsq HLi HLd.
  destruct (conv2d_backward_filter_spread (Q2Qc 0) Qcplus Qcmult data dout K B C H W fh fw sh sw pad_h pad_w P Q HP HQ Hsh Hsw Hfh0 Hfw0 Hfh Hfw Hsq HLi HLd)
    as (res & E & HL & HC).
  exists res. split; [done|]. split; [done|]. intros k c p q Hk Hc Hp Hq. rewrite HC by done. f_equal. clear HC.
  unfold filter_grad_at. change (sum (Q2Qc 0) Qcplus) with qsum. rewrite !qsum_each. apply nsum_ext. intros i Hi. rewrite !qsum_each.
  set (px := padded_pixel (Q2Qc 0) data C H W pad_h pad_w i c). set (d := pixel (Q2Qc 0) dout K P Q i k).
  rewrite (nsum_strided _ P sh); [|done| |].
  - apply nsum_ext. intros a Ha. rewrite !qsum_each. rewrite (nsum_strided _ Q sw); [|done| |].
    + apply nsum_ext. intros b Hb. rewrite !qsum_one. rewrite (Nat.add_comm p), (Nat.add_comm q). f_equal.
      unfold spread. rewrite !Nat.mod_mul, !Nat.div_mul by lia. rewrite decide_True by done. done.
    + intros b Hb. apply HQ in Hb. lia.
    + intros w Hw Hno. rewrite qsum_one. unfold spread. rewrite decide_False; [ring|]. intros (_ & Hm & _ & Hd). apply (Hno (w / sw)); [done|].
      pose proof (Nat.div_mod w sw ltac:(lia)). lia.
  - intros a Ha. apply HP in Ha. lia.
  - intros h Hh Hno. rewrite qsum_each. apply nsum_0. intros w Hw. rewrite qsum_one. unfold spread. rewrite decide_False; [ring|].
    intros (Hm & _ & Hd & _). apply (Hno (h / sh)); [done|]. pose proof (Nat.div_mod h sh ltac:(lia)). lia.
Qed.
