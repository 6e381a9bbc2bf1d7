(** Proofs about the gradient kernels of convolution and pooling. *)
From Coq Require Import QArith Qcanon.
From stdpp Require Import base numbers list list_numbers.
From Coq Require Import Lia.
From Verif Require Import CppBase ConvModel ConvSpec ConvProofs ConvBackModel ConvBackSpec.
Local Open Scope nat_scope.

Section cells.
  Context {V : Type} (zero : V) (add mul : V -> V -> V) (gt : V -> V -> bool) (recip : nat -> V).

  (** A loop whose body contributes to the cells of a list; the state is the list alone. *)
  Notation effl L := (eff add (fun m : list V => m) (fun _ => True) L).
  Lemma effl_for L n f d : (forall i, i < n -> effl L (f i) (d i)) -> effl L (for_up 0 n f) (fun j => each n (fun i => d i j)).
  Proof.
    intros H. pose proof (eff_for_up (St := list V) add (fun m : list V => m) (fun _ => True) L 0 n f d) as HB.
    rewrite Nat.sub_0_r in HB. apply HB. intros i Hi. apply H. lia.
  Qed.
  Lemma each_ext {A} n (f g : nat -> list A) : (forall i, i < n -> f i = g i) -> each n f = each n g.
  Proof. intros H. apply concat_ext. intros i Hi. apply H. lia. Qed.
  Lemma each_nil {A} n (f : nat -> list A) : (forall i, i < n -> f i = []) -> each n f = [].
  Proof. intros H. apply concat_nil. intros i Hi. apply H. lia. Qed.
  Lemma each_one {A} n k (f : nat -> list A) : k < n -> (forall i, i < n -> i <> k -> f i = []) -> each n f = f k.
  Proof. intros Hk H. apply concat_one; [lia|]. intros i Hi Hne. apply H; [lia|done]. Qed.

  Lemma clear_ok n buf : length buf = n -> clear zero n buf = Ok (zeros zero n).
  Proof.
    intros HL. unfold clear.
    destruct (for_up_inv (fun i b => length b = n /\ forall j, j < i -> b !! j = Some zero) 0 n (fun i buf => wr buf i zero) buf) as (b & E & HLb & HC).
    - lia.
    - split; [done|]. intros. lia.
    - intros i b Hi [HLb HC]. rewrite wr_Ok by lia. eexists. split; [done|]. split; [by rewrite insert_length|].
      intros j Hj. destruct (decide (j = i)) as [->|Hne]; [rewrite list_lookup_insert by lia; done|].
      rewrite list_lookup_insert_ne by done. apply HC. lia.
    - rewrite E. f_equal. apply list_eq_same_length with n; [unfold zeros; apply replicate_length|done|].
      intros j x y Hj Hx Hy. rewrite HC in Hx by done. unfold zeros in Hy. apply lookup_replicate in Hy as [-> _]. by injection Hx.
  Qed.

  Lemma clean_ok (res padded : list V) g pad_h pad_w H W off :
    off + H * W <= length res ->
    (forall r s, r < H + 2 * pad_h -> s < W + 2 * pad_w -> padded !! (r * (W + 2 * pad_w) + s) = Some (g r s)) ->
    exists res', clean_and_save res padded pad_h pad_w W H off = Ok res' /\ length res' = length res /\
      (forall r s, r < H -> s < W -> res' !! (off + (r * W + s)) = Some (g (pad_h + r) (pad_w + s))) /\
      (forall j, (forall r s, r < H -> s < W -> j <> off + (r * W + s)) -> res' !! j = res !! j).
  Proof.
    intros HL Hg. unfold clean_and_save.
    destruct (for_up_inv (fun i m => length m = length res /\
        (forall r s, r < i -> s < W -> m !! (off + (r * W + s)) = Some (g (pad_h + r) (pad_w + s))) /\
        (forall j, (forall r s, r < H -> s < W -> j <> off + (r * W + s)) -> m !! j = res !! j)) 0 H
      (fun i res => for_up 0 W (fun j res =>
        let* x := rd padded (pad_h * (W + 2 * pad_w) + pad_w + i * (W + 2 * pad_w) + j) in
        wr res (off + (i * W + j)) x) res) res) as (m & E & Hm).
    - lia.
    - split; [done|]. split; [intros; lia|done].
    - intros i m Hi (HLm & HD & HO).
      destruct (for_up_inv (fun k m => length m = length res /\
        (forall r s, r < i /\ s < W \/ r = i /\ s < k -> m !! (off + (r * W + s)) = Some (g (pad_h + r) (pad_w + s))) /\
        (forall j, (forall r s, r < H -> s < W -> j <> off + (r * W + s)) -> m !! j = res !! j)) 0 W
        (fun j res => let* x := rd padded (pad_h * (W + 2 * pad_w) + pad_w + i * (W + 2 * pad_w) + j) in wr res (off + (i * W + j)) x) m)
        as (m' & E' & HLm' & HD' & HO').
      + lia.
      + split; [done|]. split; [|done]. intros r s [?|?]; [apply HD; lia|lia].
      + intros k m1 Hk (HL1 & HD1 & HO1).
        replace (pad_h * (W + 2 * pad_w) + pad_w + i * (W + 2 * pad_w) + k) with ((pad_h + i) * (W + 2 * pad_w) + (pad_w + k)) by lia.
        rewrite (rd_Ok padded _ _ (Hg (pad_h + i) (pad_w + k) ltac:(lia) ltac:(lia))). cbn [obind].
        assert (i * W + k < H * W) by (apply lin_lt; lia). rewrite wr_Ok by lia. eexists. split; [done|].
        split; [by rewrite insert_length|]. split.
        * intros r s Hrs. destruct (decide (r = i /\ s = k)) as [[-> ->]|Hne]; [rewrite list_lookup_insert by lia; done|].
          rewrite list_lookup_insert_ne; [apply HD1; lia|]. intros Eq. apply Hne.
          assert (Eq' : i * W + k = r * W + s) by lia. apply lin_inj in Eq' as [-> ->]; [done|lia|lia].
        * intros j Hj. rewrite list_lookup_insert_ne; [by apply HO1|]. intros <-. by apply (Hj i k); [lia|lia|].
      + exists m'. split; [done|]. split; [done|]. split; [|done]. intros r s Hr Hs. apply HD'. lia.
    - exists m. rewrite E. split; [done|]. exact Hm.
  Qed.

  (** A loop over images and channels that fills one channel of the result after the other. *)
  Lemma block_loops {X} (I : X -> Prop) B C H W (body : nat -> nat -> X * list V -> outcome (X * list V)) f x0 m0 :
    (forall i c x m, i < B -> c < C -> I x -> length m = B * (C * (H * W)) ->
       exists x' m', body i c (x, m) = Ok (x', m') /\ I x' /\ length m' = length m /\
         (forall r s, r < H -> s < W -> m' !! (i * (C * (H * W)) + c * (H * W) + (r * W + s)) = Some (f i c r s)) /\
         (forall j, (forall r s, r < H -> s < W -> j <> i * (C * (H * W)) + c * (H * W) + (r * W + s)) -> m' !! j = m !! j)) ->
    I x0 -> length m0 = B * (C * (H * W)) ->
    exists st, for_up 0 B (fun i st => for_up 0 C (fun c st => body i c st) st) (x0, m0) = Ok st /\ images st.2 B C H W f.
  Proof.
    intros Hb HI HL.
    assert (Hlin : forall i c r s, i * (C * (H * W)) + c * (H * W) + (r * W + s) = ((i * C + c) * H + r) * W + s) by (intros; lia).
    destruct (for_up_inv (fun i st => I st.1 /\ length st.2 = B * (C * (H * W)) /\
        forall i' c r s, i' < i -> c < C -> r < H -> s < W -> st.2 !! (((i' * C + c) * H + r) * W + s) = Some (f i' c r s)) 0 B
      (fun i st => for_up 0 C (fun c st => body i c st) st) (x0, m0)) as (st & E & _ & HLs & HC).
    - lia.
    - split; [done|]. split; [done|]. intros; lia.
    - intros i st Hi (HIs & HLs & HC).
      destruct (for_up_inv (fun c st => I st.1 /\ length st.2 = B * (C * (H * W)) /\
        forall i' c' r s, i' < i /\ c' < C \/ i' = i /\ c' < c -> r < H -> s < W -> st.2 !! (((i' * C + c') * H + r) * W + s) = Some (f i' c' r s)) 0 C
        (fun c st => body i c st) st) as (st' & E' & HI' & HL' & HC').
      + lia.
      + split; [done|]. split; [done|]. intros i' c' r s [?|?] ? ?; [apply HC; lia|lia].
      + intros c [x m] Hc (HIx & HLm & HCm). cbn [fst snd] in HIx, HLm, HCm.
        destruct (Hb i c x m ltac:(lia) ltac:(lia) HIx HLm) as (x' & m' & Eb & HIx' & HLm' & Hnew & Hold).
        exists (x', m'). split; [done|]. cbn [fst snd]. split; [done|]. split; [congruence|].
        intros i' c' r s Hic Hr Hs. destruct (decide (i' = i /\ c' = c)) as [[-> ->]|Hne].
        * rewrite <- Hlin. by apply Hnew.
        * rewrite Hold; [by apply HCm; [lia|..]|]. intros r' s' Hr' Hs'. rewrite Hlin. intros Eq.
          apply lin4_inj in Eq as (-> & -> & _); [by apply Hne|lia..].
      + exists st'. split; [done|]. split; [done|]. split; [done|]. intros i' c r s Hi' Hc Hr Hs. apply HC'; lia.
    - exists st. split; [done|]. split; [done|]. intros i c r s Hi Hc Hr Hs. rewrite lin4. by apply HC.
  Qed.

  Lemma only_ext {A} (P R : Prop) {_ : Decision P} {_ : Decision R} (x : A) : (P <-> R) -> only P x = only R x.
  Proof. intros HPR. unfold only. by apply decide_ext. Qed.

  (** The contents of a zero buffer after contributions to its cells. *)
  Lemma zeros_eff L body d buf : effl L body d -> buf = zeros zero L ->
    exists buf', body buf = Ok buf' /\ length buf' = L /\ forall j, j < L -> buf' !! j = Some (sum zero add (d j)).
  Proof.
    intros He ->. destruct (He (zeros zero L)) as (b & E & _ & HL & HC); [done|unfold zeros; apply replicate_length|].
    exists b. split; [done|]. split; [done|]. intros j Hj. apply HC. by apply lookup_replicate_2.
  Qed.

  (** * The gradient of average pooling *)
  Theorem avgpool_backward_correct (dout : list V) B C H W kh kw s pad_h pad_w P Q :
    positions H kh pad_h s P -> positions W kw pad_w s Q -> 0 < s -> kh <= H + 2 * pad_h -> kw <= W + 2 * pad_w ->
    length dout = B * (C * (P * Q)) ->
    exists res, avgpool_backward zero add mul recip dout B C H W kh kw s s pad_h pad_w = Ok res /\
      images res B C H W (avg_grad_at zero add mul dout (recip (kw * kh)) C P Q kh kw s s pad_h pad_w).
  Proof.
    intros HP HQ Hs Hkh Hkw HLd. unfold avgpool_backward.
    destruct (get_pq_ok H kh pad_h s Hs Hkh) as (P' & EP & HP' & _). destruct (get_pq_ok W kw pad_w s Hs Hkw) as (Q' & EQ & HQ' & _).
    rewrite (positions_unique _ _ _ _ _ _ HP' HP) in EP. rewrite (positions_unique _ _ _ _ _ _ HQ' HQ) in EQ. clear P' Q' HP' HQ'.
    rewrite EP. cbn [obind]. rewrite EQ. cbn [obind].
    set (PH := H + 2 * pad_h). set (PW := W + 2 * pad_w). set (k := recip (kw * kh)).
    match goal with |- context [for_up 0 B (fun i st => for_up 0 C (@?f i) st) ?s0] => set (body := f); set (s1 := s0) end.
    destruct (block_loops (fun buf => buf = zeros zero (PH * PW)) B C H W body
      (avg_grad_at zero add mul dout k C P Q kh kw s s pad_h pad_w) (zeros zero (PH * PW)) (zeros zero (B * (C * (H * W)))))
      as (st & E & Him).
    - intros i c buf m Hi Hc -> HLm. unfold body.
      assert (He : effl (PH * PW) (for_up 0 P (fun p buf => for_up 0 kh (fun h buf => for_up 0 Q (fun q buf => for_up 0 kw (fun w buf =>
            let* x := rd buf ((p * s + h) * PW + q * s + w) in
            let* d := rd dout (i * (C * P * Q) + c * P * Q + p * Q + q) in
            wr buf ((p * s + h) * PW + q * s + w) (add x (mul k d))) buf) buf) buf))
          (fun j => each P (fun p => each kh (fun h => each Q (fun q => each kw (fun w =>
            if decide (j = (p * s + h) * PW + (q * s + w)) then [mul k (pixel zero dout C P Q i c p q)] else [])))))).
      { apply (effl_for _ _ _ (fun p j => each kh (fun h => each Q (fun q => each kw (fun w =>
          if decide (j = (p * s + h) * PW + (q * s + w)) then [mul k (pixel zero dout C P Q i c p q)] else []))))). intros p Hp.
        apply (effl_for _ _ _ (fun h j => each Q (fun q => each kw (fun w =>
          if decide (j = (p * s + h) * PW + (q * s + w)) then [mul k (pixel zero dout C P Q i c p q)] else [])))). intros h Hh.
        apply (effl_for _ _ _ (fun q j => each kw (fun w =>
          if decide (j = (p * s + h) * PW + (q * s + w)) then [mul k (pixel zero dout C P Q i c p q)] else []))). intros q Hq.
        apply (effl_for _ _ _ (fun w j =>
          if decide (j = (p * s + h) * PW + (q * s + w)) then [mul k (pixel zero dout C P Q i c p q)] else [])). intros w Hw.
        intros b _ HLb. pose proof (proj1 (HP p) Hp). pose proof (proj1 (HQ q) Hq).
        replace ((p * s + h) * PW + q * s + w) with ((p * s + h) * PW + (q * s + w)) by lia.
        assert (Hlt : (p * s + h) * PW + (q * s + w) < length b). { rewrite HLb. unfold PH, PW. apply lin_lt; lia. }
        destruct (rd_lt b _ Hlt) as (v & Hv & ->). cbn [obind].
        replace (i * (C * P * Q) + c * P * Q + p * Q + q) with (i * (C * (P * Q)) + c * (P * Q) + p * Q + q) by lia.
        rewrite (rd_Ok dout _ _ (lookup_pixel zero dout B C P Q i c p q HLd Hi Hc Hp Hq)). cbn [obind].
        destruct (upd_cell add b _ v (mul k (pixel zero dout C P Q i c p q)) Hv) as (Ew & El & Eu).
        rewrite Ew. eexists. split; [done|]. split; [done|]. split; [congruence|]. exact Eu. }
      destruct (zeros_eff _ _ _ _ He eq_refl) as (buf' & Eb & HLb & HCb). rewrite Eb. cbn [obind].
      destruct (clean_ok m buf' (fun r t => sum zero add (each P (fun p => each kh (fun h => each Q (fun q => each kw (fun w =>
          only (p * s + h = r /\ q * s + w = t) (mul k (pixel zero dout C P Q i c p q)))))))) pad_h pad_w H W (i * (C * (H * W)) + c * (H * W)))
        as (m' & Em & HLm' & Hnew & Hold).
      { rewrite HLm. assert (i * C + c < B * C) by (by apply lin_lt). nia. }
      { intros r t Hr Ht. fold PW. rewrite HCb by (apply lin_lt; done). do 2 f_equal.
        apply each_ext. intros p Hp. apply each_ext. intros h Hh. apply each_ext. intros q Hq. apply each_ext. intros w Hw.
        pose proof (proj1 (HP p) Hp). pose proof (proj1 (HQ q) Hq). unfold only. apply decide_ext. split.
        - intros Eq. apply lin_inj in Eq as [-> ->]; [done|done|unfold PW; lia].
        - by intros [-> ->]. }
      rewrite Em. cbn [obind]. rewrite clear_ok by done. cbn [obind].
      exists (zeros zero (PH * PW)), m'. split; [done|]. split; [done|]. split; [done|]. split; [|done].
      intros r t Hr Ht. rewrite Hnew by done. done.
    - done.
    - unfold zeros. apply replicate_length.
    - exists st.2. split; [|done]. match goal with |- obind ?e _ = _ => assert (e = Ok st) as -> by exact E end. done.
  Qed.

  (** * The gradient of max pooling *)
  (** The cell that the search in a window selects, in terms of the comparison that it uses: no cell that was looked at is
      greater, and every cell before it is exceeded by it. *)
  Definition selected (f : nat -> nat -> V) (seen : nat -> nat -> Prop) (h w : nat) : Prop :=
    seen h w /\ forall h' w', seen h' w' -> gt (f h' w') (f h w) = false /\ (h' < h \/ h' = h /\ w' < w -> gt (f h w) (f h' w') = true).

  Context (gt_irrefl : forall a, gt a a = false) (gt_trans : forall a b c, gt a b = true -> gt b c = true -> gt a c = true)
    (gt_total : forall a b c, gt a b = true -> gt c b = false -> gt a c = true).
  Lemma gt_asym a b : gt a b = true -> gt b a = false.
  Proof. intros H. destruct (gt b a) eqn:E; [|done]. pose proof (gt_trans _ _ _ H E) as H'. by rewrite gt_irrefl in H'. Qed.

  Lemma search_ok (padded : list V) (f : nat -> nat -> V) PH PW kh kw r0 s0 :
    0 < kh -> 0 < kw -> r0 + kh <= PH -> s0 + kw <= PW ->
    (forall r s, r < PH -> s < PW -> padded !! (r * PW + s) = Some (f r s)) ->
    exists h w, for_up 0 kh (fun h mi => for_up 0 kw (fun w mi =>
        let* x := rd padded ((r0 + h) * PW + s0 + w) in
        let* y := rd padded mi in
        Ok (if gt x y then (r0 + h) * PW + s0 + w else mi)) mi) (r0 * PW + s0) = Ok ((r0 + h) * PW + (s0 + w)) /\
      h < kh /\ w < kw /\ selected (fun h w => f (r0 + h) (s0 + w)) (fun h w => h < kh /\ w < kw) h w.
  Proof.
    intros Hkh Hkw Hr Hs Hf.
    set (sel := fun n k mi => exists h w, mi = (r0 + h) * PW + (s0 + w) /\ h < kh /\ w < kw /\
      selected (fun h w => f (r0 + h) (s0 + w)) (fun h w => (h = 0 /\ w = 0) \/ (h < n \/ h = n /\ w < k) /\ w < kw) h w).
    destruct (for_up_inv (fun n mi => sel n 0 mi) 0 kh (fun h mi => for_up 0 kw (fun w mi =>
        let* x := rd padded ((r0 + h) * PW + s0 + w) in
        let* y := rd padded mi in
        Ok (if gt x y then (r0 + h) * PW + s0 + w else mi)) mi) (r0 * PW + s0)) as (mi & E & h & w & -> & Hh & Hw & Hsel).
    - lia.
    - exists 0, 0. split; [lia|]. split; [done|]. split; [done|]. split; [by left|]. intros h' w' [[-> ->]|Hx]; [|lia].
      split; [apply gt_irrefl|lia].
    - intros n mi Hn Hmi.
      destruct (for_up_inv (fun k mi => sel n k mi) 0 kw (fun w mi =>
        let* x := rd padded ((r0 + n) * PW + s0 + w) in
        let* y := rd padded mi in
        Ok (if gt x y then (r0 + n) * PW + s0 + w else mi)) mi) as (mi' & E' & h & w & -> & Hh & Hw & Hin & Hsel).
      + lia.
      + done.
      + intros k mi1 Hk (h & w & -> & Hh & Hw & Hin & Hsel).
        replace ((r0 + n) * PW + s0 + k) with ((r0 + n) * PW + (s0 + k)) by lia.
        rewrite (rd_Ok padded _ _ (Hf (r0 + n) (s0 + k) ltac:(lia) ltac:(lia))). cbn [obind].
        rewrite (rd_Ok padded _ _ (Hf (r0 + h) (s0 + w) ltac:(lia) ltac:(lia))). cbn [obind].
        destruct (gt (f (r0 + n) (s0 + k)) (f (r0 + h) (s0 + w))) eqn:Egt.
        * eexists. split; [done|]. exists n, k. split; [done|]. split; [lia|]. split; [lia|]. split; [right; lia|].
          assert (Hbig : forall h' w', (h' = 0 /\ w' = 0 \/ (h' < n \/ h' = n /\ w' < k) /\ w' < kw) ->
            gt (f (r0 + n) (s0 + k)) (f (r0 + h') (s0 + w')) = true).
          { intros h' w' Hs'. apply gt_total with (f (r0 + h) (s0 + w)); [done|]. by apply Hsel. }
          intros h' w' Hs'. destruct (decide (h' = n /\ w' = k)) as [[-> ->]|Hne]; [split; [apply gt_irrefl|lia]|].
          assert (gt (f (r0 + n) (s0 + k)) (f (r0 + h') (s0 + w')) = true) as Hg by (apply Hbig; lia).
          split; [by apply gt_asym|done].
        * eexists. split; [done|]. exists h, w. split; [done|]. split; [done|]. split; [done|]. split; [lia|].
          intros h' w' Hs'. destruct (decide (h' = n /\ w' = k)) as [[-> ->]|Hne]; [split; [done|]|apply Hsel; lia].
          intros Hlt. destruct Hin as [[-> ->]|Hin]; [lia|]. lia.
      + eexists. split; [exact E'|]. exists h, w. split; [done|]. split; [done|]. split; [done|]. split; [lia|].
        intros h' w' Hs'. apply Hsel. lia.
    - exists h, w. split; [done|]. split; [done|]. split; [done|]. destruct Hsel as [Hin Hsel]. split; [done|].
      intros h' w' Hs'. apply Hsel. lia.
  Qed.

  Theorem maxpool_backward_correct (input dout : list V) B C H W kh kw s pad_h pad_w P Q :
    positions H kh pad_h s P -> positions W kw pad_w s Q -> 0 < s -> 0 < kh -> 0 < kw -> kh <= H + 2 * pad_h -> kw <= W + 2 * pad_w ->
    length input = B * (C * (H * W)) -> length dout = B * (C * (P * Q)) ->
    exists res sel, maxpool_backward zero add gt input dout B C H W kh kw s s pad_h pad_w = Ok res /\
      images res B C H W (fun i c => max_grad_at zero add dout (fun p q => (p * s + (sel i c p q).1, q * s + (sel i c p q).2)) C P Q pad_h pad_w i c) /\
      forall i c p q, i < B -> c < C -> p < P -> q < Q ->
        selected (fun h w => padded_pixel zero input C H W pad_h pad_w i c (p * s + h) (q * s + w)) (fun h w => h < kh /\ w < kw)
          (sel i c p q).1 (sel i c p q).2.
  Proof.
    intros HP HQ Hs Hkh0 Hkw0 Hkh Hkw HLi HLd. unfold maxpool_backward.
    destruct (get_pq_ok H kh pad_h s Hs Hkh) as (P' & EP & HP' & _). destruct (get_pq_ok W kw pad_w s Hs Hkw) as (Q' & EQ & HQ' & _).
    rewrite (positions_unique _ _ _ _ _ _ HP' HP) in EP. rewrite (positions_unique _ _ _ _ _ _ HQ' HQ) in EQ. clear P' Q' HP' HQ'.
    rewrite EP. cbn [obind]. rewrite EQ. cbn [obind].
    set (PH := H + 2 * pad_h). set (PW := W + 2 * pad_w).
    set (px := padded_pixel zero input C H W pad_h pad_w).
    (* the selected cells, computed on a buffer that holds exactly the padded image *)
    set (full := fun i c => map (fun j => px i c (j / PW) (j mod PW)) (seq 0 (PH * PW))).
    set (sel := fun i c p q => match for_up 0 kh (fun h mi => for_up 0 kw (fun w mi =>
        let* x := rd (full i c) ((p * s + h) * PW + q * s + w) in
        let* y := rd (full i c) mi in
        Ok (if gt x y then (p * s + h) * PW + q * s + w else mi)) mi) (p * s * PW + q * s) with Ok mi => (mi / PW - p * s, mi mod PW - q * s) | _ => (0, 0) end).
    assert (Hfull : forall i c r t, r < PH -> t < PW -> full i c !! (r * PW + t) = Some (px i c r t)).
    { intros i c r t Hr Ht. unfold full. rewrite list_lookup_fmap, lookup_seq_lt by (by apply lin_lt). cbn [fmap option_fmap option_map].
      f_equal. rewrite Nat.add_0_l. rewrite (Nat.div_add_l r PW t) by lia. rewrite Nat.div_small by done. rewrite Nat.add_0_r.
      f_equal. rewrite Nat.add_comm, Nat.mod_add by lia. by apply Nat.mod_small. }
    assert (Hsel : forall i c p q padded, p < P -> q < Q ->
      (forall r t, r < PH -> t < PW -> padded !! (r * PW + t) = Some (px i c r t)) ->
      for_up 0 kh (fun h mi => for_up 0 kw (fun w mi =>
        let* x := rd padded ((p * s + h) * PW + q * s + w) in
        let* y := rd padded mi in
        Ok (if gt x y then (p * s + h) * PW + q * s + w else mi)) mi) (p * s * PW + q * s) =
      Ok ((p * s + (sel i c p q).1) * PW + (q * s + (sel i c p q).2)) /\
      (sel i c p q).1 < kh /\ (sel i c p q).2 < kw /\
      selected (fun h w => px i c (p * s + h) (q * s + w)) (fun h w => h < kh /\ w < kw) (sel i c p q).1 (sel i c p q).2).
    { intros i c p q padded Hp Hq Hpd. pose proof (proj1 (HP p) Hp). pose proof (proj1 (HQ q) Hq).
      assert (Hfuns : forall buf, (forall r t, r < PH -> t < PW -> buf !! (r * PW + t) = Some (px i c r t)) -> exists h w, for_up 0 kh (fun h mi => for_up 0 kw (fun w mi =>
        let* x := rd buf ((p * s + h) * PW + q * s + w) in
        let* y := rd buf mi in
        Ok (if gt x y then (p * s + h) * PW + q * s + w else mi)) mi) (p * s * PW + q * s) = Ok ((p * s + h) * PW + (q * s + w)) /\
        h < kh /\ w < kw /\ selected (fun h w => px i c (p * s + h) (q * s + w)) (fun h w => h < kh /\ w < kw) h w).
      { intros buf Hb. apply (search_ok buf (px i c) PH PW kh kw (p * s) (q * s)); [done|done|unfold PH; lia|unfold PW; lia|done]. }
      destruct (Hfuns (full i c) (Hfull i c)) as (h & w & E & Hh & Hw & Hse).
      assert (sel i c p q = (h, w)) as ->.
      { unfold sel. rewrite E. rewrite (Nat.div_add_l (p * s + h) PW) by (unfold PW; lia). rewrite Nat.div_small by (unfold PW; lia).
        rewrite (Nat.add_comm ((p * s + h) * PW)), Nat.mod_add by (unfold PW; lia). rewrite Nat.mod_small by (unfold PW; lia). f_equal; lia. }
      cbn [fst snd]. split; [|done].
      destruct (Hfuns padded Hpd) as (h2 & w2 & E2 & Hh2 & Hw2 & Hin2 & Hse2). rewrite E2. destruct Hse as [Hin1 Hse1].
      assert (h2 = h /\ w2 = w) as [-> ->]; [|done].
      destruct (decide (h2 = h /\ w2 = w)) as [|Hne]; [done|]. exfalso.
      destruct (Hse1 h2 w2 (conj Hh2 Hw2)) as [Ha Hb]. destruct (Hse2 h w (conj Hh Hw)) as [Hc Hd].
      destruct (decide (h2 < h \/ h2 = h /\ w2 < w)) as [Hlt|Hge].
      - specialize (Hb Hlt). congruence.
      - specialize (Hd ltac:(lia)). congruence. }
    match goal with |- context [for_up 0 B (fun i st => for_up 0 C (@?f i) st) ?s0] => set (body := f); set (s1 := s0) end.
    destruct (block_loops (fun x => zpad zero pad_h pad_w H W x.1 /\ x.2 = zeros zero (PH * PW)) B C H W body
      (fun i c => max_grad_at zero add dout (fun p q => (p * s + (sel i c p q).1, q * s + (sel i c p q).2)) C P Q pad_h pad_w i c)
      (zeros zero (PH * PW), zeros zero (PH * PW)) (zeros zero (B * (C * (H * W)))))
      as (st & E & Him).
    - intros i c [padded buf] m Hi Hc [Hz Hbz] HLm. cbn [fst snd] in Hz, Hbz. subst buf. unfold body.
      destruct (padding_pixels zero padded input pad_h pad_w H W B C i c HLi Hi Hc Hz) as (pd & Epd & Hzpd & Hpd).
      rewrite Epd. cbn [obind]. fold PH PW in Hpd. fold px in Hpd.
      assert (He : effl (PH * PW) (for_up 0 P (fun p buf => for_up 0 Q (fun q buf =>
            let* max_index :=
              for_up 0 kh (fun h mi => for_up 0 kw (fun w mi =>
                let* x := rd pd ((p * s + h) * PW + q * s + w) in
                let* y := rd pd mi in
                Ok (if gt x y then (p * s + h) * PW + q * s + w else mi)) mi) (p * s * PW + q * s) in
            let* x := rd buf max_index in
            let* d := rd dout (i * (C * P * Q) + c * P * Q + p * Q + q) in
            wr buf max_index (add x d)) buf))
          (fun j => each P (fun p => each Q (fun q =>
            if decide (j = (p * s + (sel i c p q).1) * PW + (q * s + (sel i c p q).2)) then [pixel zero dout C P Q i c p q] else [])))).
      { apply (effl_for _ _ _ (fun p j => each Q (fun q =>
            if decide (j = (p * s + (sel i c p q).1) * PW + (q * s + (sel i c p q).2)) then [pixel zero dout C P Q i c p q] else []))). intros p Hp.
        apply (effl_for _ _ _ (fun q j =>
            if decide (j = (p * s + (sel i c p q).1) * PW + (q * s + (sel i c p q).2)) then [pixel zero dout C P Q i c p q] else [])). intros q Hq.
        intros b _ HLb. pose proof (proj1 (HP p) Hp). pose proof (proj1 (HQ q) Hq).
        destruct (Hsel i c p q pd Hp Hq Hpd) as (Es & Hh & Hw & _). rewrite Es. cbn [obind].
        assert (Hlt : (p * s + (sel i c p q).1) * PW + (q * s + (sel i c p q).2) < length b). { rewrite HLb. unfold PH, PW. apply lin_lt; lia. }
        destruct (rd_lt b _ Hlt) as (v & Hv & ->). cbn [obind].
        replace (i * (C * P * Q) + c * P * Q + p * Q + q) with (i * (C * (P * Q)) + c * (P * Q) + p * Q + q) by lia.
        rewrite (rd_Ok dout _ _ (lookup_pixel zero dout B C P Q i c p q HLd Hi Hc Hp Hq)). cbn [obind].
        destruct (upd_cell add b _ v (pixel zero dout C P Q i c p q) Hv) as (Ew & El & Eu).
        rewrite Ew. eexists. split; [done|]. split; [done|]. split; [congruence|]. exact Eu. }
      destruct (zeros_eff _ _ _ _ He eq_refl) as (buf' & Eb & HLb & HCb). rewrite Eb. cbn [obind].
      destruct (clean_ok m buf' (fun r t => sum zero add (each P (fun p => each Q (fun q =>
          only ((p * s + (sel i c p q).1, q * s + (sel i c p q).2) = (r, t)) (pixel zero dout C P Q i c p q))))) pad_h pad_w H W (i * (C * (H * W)) + c * (H * W)))
        as (m' & Em & HLm' & Hnew & Hold).
      { rewrite HLm. assert (i * C + c < B * C) by (by apply lin_lt). nia. }
      { intros r t Hr Ht. fold PW. rewrite HCb by (apply lin_lt; done). do 2 f_equal.
        apply each_ext. intros p Hp. apply each_ext. intros q Hq.
        pose proof (proj1 (HP p) Hp). pose proof (proj1 (HQ q) Hq). destruct (Hsel i c p q pd Hp Hq Hpd) as (_ & Hh & Hw & _).
        unfold only. apply decide_ext. split.
        - intros Eq. apply lin_inj in Eq as [-> ->]; [done|done|unfold PW; lia].
        - intros Eq. by injection Eq as -> ->. }
      rewrite Em. cbn [obind]. rewrite clear_ok by done. cbn [obind].
      exists (pd, zeros zero (PH * PW)), m'. split; [done|]. split; [done|]. split; [done|]. split; [|done].
      intros r t Hr Ht. rewrite Hnew by done. done.
    - split; [apply zpad_zeros|done].
    - unfold zeros. apply replicate_length.
    - exists st.2, sel. split; [match goal with |- obind ?e _ = _ => assert (e = Ok st) as -> by exact E end; done|]. split; [exact Him|].
      intros i c p q Hi Hc Hp Hq. apply (Hsel i c p q (full i c)); [done|done|apply Hfull].
  Qed.
End cells.
