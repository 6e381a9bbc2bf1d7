(** Proofs about the convolution and pooling kernels. *)
From stdpp Require Import base numbers list.
From Coq Require Import Lia.
From Verif Require Import CppBase ConvModel ConvSpec.

(** * Linearized indices *)
Lemma lin_inj (Q a b q r : nat) : q < Q -> r < Q -> a * Q + q = b * Q + r -> a = b /\ q = r.
Proof.
  intros Hq Hr E. assert (a = b) by nia.
  subst. lia.
Qed.
Lemma lin_lt (P Q p q : nat) : p < P -> q < Q -> p * Q + q < P * Q.
Proof. intros. nia. Qed.
Lemma lin4 (C P Q i c p q : nat) : i * (C * (P * Q)) + c * (P * Q) + p * Q + q = ((i * C + c) * P + p) * Q + q.
Proof. lia. Qed.
Lemma lin4_lt (B C P Q i c p q : nat) :
  i < B -> c < C -> p < P -> q < Q -> ((i * C + c) * P + p) * Q + q < B * (C * (P * Q)).
Proof.
  intros. assert (i * C + c < B * C) by (by apply lin_lt). assert ((i * C + c) * P + p < B * C * P) by (by apply lin_lt).
  assert (((i * C + c) * P + p) * Q + q < B * C * P * Q) by (by apply lin_lt). lia.
Qed.
Lemma lin4_inj (C P Q i c p q i' c' p' q' : nat) :
  c < C -> p < P -> q < Q -> c' < C -> p' < P -> q' < Q ->
  ((i * C + c) * P + p) * Q + q = ((i' * C + c') * P + p') * Q + q' -> i = i' /\ c = c' /\ p = p' /\ q = q'.
Proof.
  intros ?????? E. apply lin_inj in E as [E ->]; [|done..]. apply lin_inj in E as [E ->]; [|done..].
  apply lin_inj in E as [-> ->]; done.
Qed.

(** * Loops that contribute to the cells of a list *)
Section eff.
  Context {V E St : Type} (op : V -> E -> V) (get : St -> list V).

  (** Running [body] folds the contributions [d j] into the cell [j]. *)
  Definition eff (I : St -> Prop) (L : nat) (body : St -> outcome St) (d : nat -> list E) : Prop :=
    forall s, I s -> length (get s) = L ->
      exists s', body s = Ok s' /\ I s' /\ length (get s') = L /\
        forall j v, get s !! j = Some v -> get s' !! j = Some (foldl op v (d j)).

  Lemma eff_seq I L f g d e : eff I L f d -> eff I L g e -> eff I L (fun s => let* s := f s in g s) (fun j => d j ++ e j).
  Proof.
    intros Hf Hg s HI HL. destruct (Hf s HI HL) as (s1 & E1 & I1 & L1 & C1). destruct (Hg s1 I1 L1) as (s2 & E2 & I2 & L2 & C2).
    exists s2. rewrite E1. cbn [obind]. split; [done|]. split; [done|]. split; [done|]. intros j v Hv.
    rewrite foldl_app. apply C2, C1, Hv.
  Qed.
  Lemma eff_forn I L n lo f d :
    (forall i, lo <= i < lo + n -> eff I L (f i) (d i)) -> eff I L (forn n lo f) (fun j => concat (map (fun i => d i j) (seq lo n))).
  Proof.
    revert lo. induction n as [|n IH]; intros lo H.
    - intros s HI HL. exists s. done.
    - cbn [seq map concat]. apply (eff_seq I L (f lo) (forn n (S lo) f)); [apply H; lia|]. apply IH. intros i Hi. apply H. lia.
  Qed.
  Lemma eff_for_up I L lo hi f d :
    (forall i, lo <= i < hi -> eff I L (f i) (d i)) -> eff I L (for_up lo hi f) (fun j => concat (map (fun i => d i j) (seq lo (hi - lo)))).
  Proof. intros H. unfold for_up. apply eff_forn. intros i Hi. apply H. lia. Qed.
  Lemma eff_ext I L f d e : (forall j, j < L -> d j = e j) -> eff I L f d -> eff I L f e.
  Proof.
    intros H Hf s HI HL. destruct (Hf s HI HL) as (s1 & E1 & I1 & L1 & C1). exists s1. repeat (split; [done|]).
    intros j v Hv. rewrite <- H; [by apply C1|]. rewrite <- HL. by apply lookup_lt_Some in Hv.
  Qed.
End eff.

(** An update of one cell. *)
Lemma upd_cell {V E} (op : V -> E -> V) (m : list V) k v e :
  m !! k = Some v ->
  wr m k (op v e) = Ok (<[k := op v e]> m) /\ length (<[k := op v e]> m) = length m /\
  forall j u, m !! j = Some u -> <[k := op v e]> m !! j = Some (foldl op u (if decide (j = k) then [e] else [])).
Proof.
  intros Hk. pose proof (lookup_lt_Some _ _ _ Hk) as Hl. split; [by apply wr_Ok|]. split; [apply insert_length|].
  intros j u Hu. destruct (decide (j = k)) as [->|Hj].
  - rewrite list_lookup_insert by done. rewrite Hk in Hu. injection Hu as <-. done.
  - rewrite list_lookup_insert_ne by done. done.
Qed.

(** * Concatenations in which few elements matter *)
Lemma concat_nil {A} (f : nat -> list A) lo n : (forall i, lo <= i < lo + n -> f i = []) -> concat (map f (seq lo n)) = [].
Proof.
  revert lo. induction n as [|n IH]; intros lo H; [done|]. cbn [seq map concat]. rewrite H by lia. apply IH. intros. apply H. lia.
Qed.
Lemma concat_one {A} (f : nat -> list A) lo n k :
  lo <= k < lo + n -> (forall i, lo <= i < lo + n -> i <> k -> f i = []) -> concat (map f (seq lo n)) = f k.
Proof.
  revert lo. induction n as [|n IH]; intros lo Hk H; [lia|]. cbn [seq map concat]. destruct (decide (k = lo)) as [->|Hn].
  - rewrite concat_nil by (intros; apply H; lia). apply app_nil_r.
  - rewrite (H lo) by lia. apply IH; [lia|]. intros. apply H; lia.
Qed.
Lemma concat_ext {A} (f g : nat -> list A) lo n :
  (forall i, lo <= i < lo + n -> f i = g i) -> concat (map f (seq lo n)) = concat (map g (seq lo n)).
Proof.
  revert lo. induction n as [|n IH]; intros lo H; [done|]. cbn [seq map concat]. rewrite (H lo) by lia. f_equal. apply IH.
  intros. apply H. lia.
Qed.
Lemma map_seq_ext {A} (f g : nat -> A) lo n : (forall i, lo <= i < lo + n -> f i = g i) -> map f (seq lo n) = map g (seq lo n).
Proof.
  revert lo. induction n as [|n IH]; intros lo H; [done|]. cbn [seq map]. rewrite (H lo) by lia. f_equal. apply IH.
  intros. apply H. lia.
Qed.
Lemma map_seq_shift {A} (f : nat -> A) lo n : map f (seq lo n) = map (fun i => f (lo + i)) (seq 0 n).
Proof.
  revert lo f. induction n as [|n IH]; intros lo f; [done|]. cbn [seq map]. rewrite Nat.add_0_r. f_equal.
  rewrite (IH (S lo)), (IH 1). apply map_seq_ext. intros i _. f_equal. lia.
Qed.
Lemma concat_singles {A} (f : nat -> A) lo n : concat (map (fun i => [f i]) (seq lo n)) = map f (seq lo n).
Proof. revert lo. induction n as [|n IH]; intros lo; [done|]. cbn [seq map concat]. rewrite IH. done. Qed.

(** * The number of positions of a window *)
Lemma get_pq_ok n k pad s : 0 < s -> k <= n + 2 * pad ->
  exists P, get_pq n k pad s = Ok P /\ positions n k pad s P /\ 0 < P.
Proof.
  intros Hs Hk. unfold get_pq. rewrite decide_False by lia. eexists. split; [done|]. split; [|lia].
  intros p. set (d := n + 2 * pad - k). pose proof (Nat.div_mod d s ltac:(lia)) as E. pose proof (Nat.mod_upper_bound d s ltac:(lia)).
  split; intros Hp.
  - assert (p * s <= d); [|lia]. assert (p <= d / s) by lia. nia.
  - assert (p * s <= d) by lia. assert (p <= d / s); [|lia]. apply Nat.div_le_lower_bound; lia.
Qed.
Lemma positions_unique n k pad s P P' : positions n k pad s P -> positions n k pad s P' -> P = P'.
Proof.
  intros H H'. destruct (Nat.lt_trichotomy P P') as [L|[L|L]]; [|done|].
  - apply H', H in L. lia.
  - apply H, H' in L. lia.
Qed.
Lemma min_wsub_ok a b c : c + a <= b -> min_wsub a b c = a.
Proof. intros H. unfold min_wsub. rewrite decide_False by lia. lia. Qed.

Section cells.
  Context {V : Type} (zero : V) (add mul mx : V -> V -> V) (recip : nat -> V) (big : V).

  (** * Padding *)
  Definition interior (pad_h pad_w H W r s : nat) : Prop := pad_h <= r < pad_h + H /\ pad_w <= s < pad_w + W.
  Definition zpad (pad_h pad_w H W : nat) (padded : list V) : Prop :=
    length padded = (H + 2 * pad_h) * (W + 2 * pad_w) /\
    forall r s, r < H + 2 * pad_h -> s < W + 2 * pad_w -> ~ interior pad_h pad_w H W r s ->
      padded !! (r * (W + 2 * pad_w) + s) = Some zero.
  Lemma zpad_zeros pad_h pad_w H W : zpad pad_h pad_w H W (zeros zero ((H + 2 * pad_h) * (W + 2 * pad_w))).
  Proof.
    unfold zpad, zeros. rewrite replicate_length. split; [done|]. intros r s Hr Hs _. apply lookup_replicate_2. by apply lin_lt.
  Qed.
  Lemma padding_ok (padded input : list V) pad_h pad_w H W off :
    zpad pad_h pad_w H W padded -> off + H * W <= length input ->
    exists padded', padding zero padded input pad_h pad_w W H off = Ok padded' /\ zpad pad_h pad_w H W padded' /\
      forall r s, r < H + 2 * pad_h -> s < W + 2 * pad_w ->
        padded' !! (r * (W + 2 * pad_w) + s) =
        Some (if decide (interior pad_h pad_w H W r s) then nth (off + (r - pad_h) * W + (s - pad_w)) input zero else zero).
  Proof.
    intros Hz Hin. unfold padding.
    destruct (for_up_inv (fun _ padded => zpad pad_h pad_w H W padded) 0 (H * W) (fun i padded => wr padded i zero) padded)
      as (p1 & E1 & Hz1); [lia|done| |].
    { intros i p Hi [HL HZ]. assert (i < length p) by nia. rewrite wr_Ok by done. eexists. split; [done|].
      split; [by rewrite insert_length|]. intros r s Hr Hs Hn. destruct (decide (i = r * (W + 2 * pad_w) + s)) as [->|Hne].
      - by rewrite list_lookup_insert.
      - rewrite list_lookup_insert_ne by done. by apply HZ. }
    rewrite E1. cbn [obind].
    destruct (for_up_inv (fun i padded => zpad pad_h pad_w H W padded /\
        forall r s, interior pad_h pad_w H W r s -> r < pad_h + i ->
          padded !! (r * (W + 2 * pad_w) + s) = Some (nth (off + (r - pad_h) * W + (s - pad_w)) input zero)) 0 H
      (fun i padded => for_up 0 W (fun k padded => let* x := rd input (off + (i * W + k)) in
         wr padded (pad_h * (W + 2 * pad_w) + pad_w + i * (W + 2 * pad_w) + k) x) padded) p1) as (p2 & E2 & Hz2 & Hd).
    { lia. }
    { split; [done|]. unfold interior. intros. lia. }
    { intros i p Hi [HZ HD].
      destruct (for_up_inv (fun k padded => zpad pad_h pad_w H W padded /\
        forall r s, interior pad_h pad_w H W r s -> r < pad_h + i \/ r = pad_h + i /\ s < pad_w + k ->
          padded !! (r * (W + 2 * pad_w) + s) = Some (nth (off + (r - pad_h) * W + (s - pad_w)) input zero)) 0 W
        (fun k padded => let* x := rd input (off + (i * W + k)) in
           wr padded (pad_h * (W + 2 * pad_w) + pad_w + i * (W + 2 * pad_w) + k) x) p) as (p3 & E3 & Hz3 & Hd3).
      { lia. }
      { split; [done|]. intros r s Hint Hr. apply HD; [done|]. unfold interior in Hint. lia. }
      { intros k q Hk [[HL HZ'] HD'].
        assert (Hix : off + (i * W + k) < length input). { assert (i * W + k < H * W) by (apply lin_lt; lia). lia. }
        destruct (rd_lt input _ Hix) as (x & Hx & ->). cbn [obind].
        replace (pad_h * (W + 2 * pad_w) + pad_w + i * (W + 2 * pad_w) + k) with ((pad_h + i) * (W + 2 * pad_w) + (pad_w + k)) by lia.
        assert (Hlt : (pad_h + i) * (W + 2 * pad_w) + (pad_w + k) < length q). { rewrite HL. apply lin_lt; lia. }
        rewrite wr_Ok by done. eexists. split; [done|]. split; [split; [by rewrite insert_length|]|].
        - intros r s Hr Hs Hn. rewrite list_lookup_insert_ne; [by apply HZ'|]. intros Eq. apply lin_inj in Eq as [<- <-]; [|lia..].
          apply Hn. unfold interior. lia.
        - intros r s Hint Hc. destruct (decide (r = pad_h + i /\ s = pad_w + k)) as [[-> ->]|Hne].
          + rewrite list_lookup_insert by done. f_equal. symmetry. apply nth_lookup_Some. rewrite <- Hx. f_equal. nia.
          + rewrite list_lookup_insert_ne; [apply HD'; [done|lia]|]. intros Eq. apply lin_inj in Eq as [<- <-]; [|unfold interior in Hint; lia..].
            by apply Hne. }
      exists p3. split; [done|]. split; [done|]. intros r s Hint Hr. apply Hd3; [done|]. unfold interior in Hint. lia. }
    exists p2. split; [done|]. split; [done|]. intros r s Hr Hs. destruct (decide (interior pad_h pad_w H W r s)) as [Hint|Hn].
    - apply Hd; [done|]. unfold interior in Hint. lia.
    - by apply Hz2.
  Qed.

  (** The contents of the padded buffer, in the words of the specification. *)
  Lemma padding_pixels (padded data : list V) pad_h pad_w H W B C i c :
    length data = B * (C * (H * W)) -> i < B -> c < C -> zpad pad_h pad_w H W padded ->
    exists padded', padding zero padded data pad_h pad_w W H (i * (C * (H * W)) + c * (H * W)) = Ok padded' /\
      zpad pad_h pad_w H W padded' /\
      forall r s, r < H + 2 * pad_h -> s < W + 2 * pad_w ->
        padded' !! (r * (W + 2 * pad_w) + s) = Some (padded_pixel zero data C H W pad_h pad_w i c r s).
  Proof.
    intros HL Hi Hc Hz. destruct (padding_ok padded data pad_h pad_w H W (i * (C * (H * W)) + c * (H * W)) Hz) as (p & E & Hz' & Hp).
    { rewrite HL. assert (i * C + c < B * C) by (by apply lin_lt). nia. }
    exists p. split; [done|]. split; [done|]. intros r s Hr Hs. rewrite Hp by done. f_equal.
  Qed.

  (** * Convolution *)
  Theorem conv2d_forward_correct (data filter bias : list V) K B C H W fh fw sh sw pad_h pad_w :
    length data = B * (C * (H * W)) -> length filter = K * (C * (fh * fw)) -> length bias = K ->
    0 < sh -> 0 < sw -> fh <= H + 2 * pad_h -> fw <= W + 2 * pad_w ->
    exists P Q res, conv2d_forward zero add mul data filter bias K B C H W fh fw sh sw pad_h pad_w = Ok (P, Q, res) /\
      positions H fh pad_h sh P /\ positions W fw pad_w sw Q /\
      images res B K P Q (conv_at zero add mul data filter bias C H W fh fw sh sw pad_h pad_w).
  Proof.
    intros Hdata Hfilter Hbias Hsh Hsw Hfh Hfw. unfold conv2d_forward.
    destruct (get_pq_ok H fh pad_h sh Hsh Hfh) as (P & EP & HP & HP0).
    destruct (get_pq_ok W fw pad_w sw Hsw Hfw) as (Q & EQ & HQ & HQ0).
    rewrite EP. cbn [obind]. rewrite EQ. cbn [obind].
    set (L := B * (K * (P * Q))).
    match goal with |- context [for_up 0 B ?f ?s0] => set (body := f); set (s := s0) end.
    set (pp := padded_pixel zero data C H W pad_h pad_w).
    set (dl := fun i k c p h q w (j : nat) =>
      if decide (j = ((i * K + k) * P + p) * Q + q) then [mul (pp i c (p * sh + h) (q * sw + w)) (pixel zero filter C fh fw k c h w)] else []).
    set (db := fun i k l (j : nat) => if decide (j = (i * K + k) * (P * Q) + l) then [nth k bias zero] else []).
    assert (HE : eff add snd (fun st => zpad pad_h pad_w H W st.1) L (for_up 0 B body) (fun j =>
      concat (map (fun i => concat (map (fun k =>
        concat (map (fun c => concat (map (fun p => concat (map (fun h => concat (map (fun q => concat (map (fun w =>
          dl i k c p h q w j) (seq 0 fw))) (seq 0 Q))) (seq 0 fh))) (seq 0 P))) (seq 0 C)) ++
        concat (map (fun l => db i k l j) (seq 0 (P * Q)))) (seq 0 K))) (seq 0 B)))).
    { pose proof (fun f d => eff_for_up (St := list V * list V) add snd (fun st => zpad pad_h pad_w H W st.1) L 0 B f d) as HB.
      rewrite Nat.sub_0_r in HB. apply HB. clear HB. intros i Hi. subst body. cbv beta.
      pose proof (fun f d => eff_for_up (St := list V * list V) add snd (fun st => zpad pad_h pad_w H W st.1) L 0 K f d) as HB.
      rewrite Nat.sub_0_r in HB. apply HB. clear HB. intros k Hk. cbv beta. apply eff_seq.
      - pose proof (fun f d => eff_for_up (St := list V * list V) add snd (fun st => zpad pad_h pad_w H W st.1) L 0 C f d) as HB.
        rewrite Nat.sub_0_r in HB. apply HB. clear HB. intros c Hc. cbv beta. intros [padded res] HI HL. cbn [fst snd] in HI, HL.
        destruct (padding_pixels padded data pad_h pad_w H W B C i c Hdata ltac:(lia) ltac:(lia) HI) as (pd & Epd & Hzpd & Hpd).
        rewrite Epd. cbn [obind].
        assert (Hin : eff add snd (fun st => st.1 = pd) L (for_up 0 P (fun p st =>
            for_up 0 (min_wsub fh (H + 2 * pad_h) (p * sh)) (fun h st =>
              for_up 0 Q (fun q st =>
                for_up 0 (min_wsub fw (W + 2 * pad_w) (q * sw)) (fun w '(padded, res) =>
                  let* r := rd res (i * (K * (P * Q)) + k * (P * Q) + p * Q + q) in
                  let* x := rd padded ((p * sh + h) * (W + 2 * pad_w) + q * sw + w) in
                  let* y := rd filter (k * (C * fh * fw) + c * fh * fw + h * fw + w) in
                  let* res := wr res (i * (K * (P * Q)) + k * (P * Q) + p * Q + q) (add r (mul x y)) in
                  Ok (padded, res)) st) st) st)) (fun j =>
           concat (map (fun p => concat (map (fun h => concat (map (fun q => concat (map (fun w =>
             dl i k c p h q w j) (seq 0 fw))) (seq 0 Q))) (seq 0 fh))) (seq 0 P)))).
        { pose proof (fun f d => eff_for_up (St := list V * list V) add snd (fun st => st.1 = pd) L 0 P f d) as HB.
          rewrite Nat.sub_0_r in HB. apply HB. clear HB. intros p Hp. cbv beta. assert (p * sh + fh <= H + 2 * pad_h) by (apply HP; lia).
          rewrite min_wsub_ok by done.
          pose proof (fun f d => eff_for_up (St := list V * list V) add snd (fun st => st.1 = pd) L 0 fh f d) as HB.
          rewrite Nat.sub_0_r in HB. apply HB. clear HB. intros h Hh. cbv beta.
          pose proof (fun f d => eff_for_up (St := list V * list V) add snd (fun st => st.1 = pd) L 0 Q f d) as HB.
          rewrite Nat.sub_0_r in HB. apply HB. clear HB. intros q Hq. cbv beta. assert (q * sw + fw <= W + 2 * pad_w) by (apply HQ; lia).
          rewrite min_wsub_ok by done.
          pose proof (fun f d => eff_for_up (St := list V * list V) add snd (fun st => st.1 = pd) L 0 fw f d) as HB.
          rewrite Nat.sub_0_r in HB. apply HB. clear HB. intros w Hw. cbv beta.
          intros [pd' m] Hpd' HLm. cbn [fst snd] in Hpd', HLm. subst pd'. rewrite lin4.
          assert (Hlt : ((i * K + k) * P + p) * Q + q < length m). { rewrite HLm. apply lin4_lt; lia. }
          destruct (rd_lt m _ Hlt) as (v & Hv & ->). cbn [obind].
          replace ((p * sh + h) * (W + 2 * pad_w) + q * sw + w) with ((p * sh + h) * (W + 2 * pad_w) + (q * sw + w)) by lia.
          rewrite (rd_Ok pd _ _ (Hpd (p * sh + h) (q * sw + w) ltac:(lia) ltac:(lia))). cbn [obind].
          assert (Hfl : filter !! (k * (C * fh * fw) + c * fh * fw + h * fw + w) = Some (pixel zero filter C fh fw k c h w)).
          { unfold pixel. replace (k * (C * fh * fw) + c * fh * fw + h * fw + w) with (k * (C * (fh * fw)) + c * (fh * fw) + h * fw + w) by lia.
            destruct (lookup_lt_is_Some_2 filter (k * (C * (fh * fw)) + c * (fh * fw) + h * fw + w)) as [y Hy].
            { rewrite Hfilter, lin4. apply lin4_lt; lia. }
            rewrite Hy. f_equal. symmetry. by apply nth_lookup_Some. }
          rewrite (rd_Ok _ _ _ Hfl). cbn [obind].
          destruct (upd_cell add m _ v (mul (pp i c (p * sh + h) (q * sw + w)) (pixel zero filter C fh fw k c h w)) Hv) as (Ew & El & Eu).
          fold pp. rewrite Ew. cbn [obind]. eexists. split; [done|]. split; [done|]. split; [cbn [snd]; congruence|].
          intros j u Hu. cbn [snd] in Hu |- *. rewrite (Eu j u Hu). done. }
        destruct (Hin (pd, res) eq_refl HL) as ([pd' res'] & E' & Epd' & HL' & HC'). cbn [fst snd] in Epd', HL', HC'. subst pd'.
        eexists. split; [exact E'|]. split; [done|]. split; [done|]. exact HC'.
      - pose proof (fun f d => eff_for_up (St := list V * list V) add snd (fun st => zpad pad_h pad_w H W st.1) L 0 (P * Q) f d) as HB.
        rewrite Nat.sub_0_r in HB. apply HB. clear HB. intros l Hl. cbv beta. intros [pd m] HI HLm. cbn [fst snd] in HI, HLm.
        replace (i * (K * (P * Q)) + k * (P * Q) + l) with ((i * K + k) * (P * Q) + l) by lia.
        assert (Hlt : (i * K + k) * (P * Q) + l < length m).
        { rewrite HLm. unfold L. assert ((i * K + k) * (P * Q) + l < B * K * (P * Q)) by (apply lin_lt; [apply lin_lt; lia|lia]). lia. }
        destruct (rd_lt m _ Hlt) as (v & Hv & ->). cbn [obind].
        assert (Hbl : bias !! k = Some (nth k bias zero)).
        { destruct (lookup_lt_is_Some_2 bias k) as [y Hy]; [lia|]. rewrite Hy. f_equal. symmetry. by apply nth_lookup_Some. }
        rewrite (rd_Ok _ _ _ Hbl). cbn [obind].
        destruct (upd_cell add m _ v (nth k bias zero) Hv) as (Ew & El & Eu).
        rewrite Ew. cbn [obind]. eexists. split; [done|]. split; [done|]. split; [cbn [snd]; congruence|].
        intros j u Hu. cbn [snd] in Hu |- *. rewrite (Eu j u Hu). done. }
    destruct (HE s) as (st & Est & _ & HLst & HC).
    { apply zpad_zeros. }
    { subst s. cbn [snd]. unfold zeros. apply replicate_length. }
    rewrite Est. cbn [obind]. exists P, Q, st.2. split; [done|]. split; [done|]. split; [done|]. split; [done|].
    intros i k p q Hi Hk Hp Hq. rewrite lin4.
    rewrite (HC _ zero); [|subst s; cbn [snd]; apply lookup_replicate_2; apply lin4_lt; done]. f_equal. clear HC HE.
    (* only the image [i] and the output channel [k] contribute *)
    rewrite (concat_one _ 0 B i); [|lia|].
    2: { intros i' Hi' Hne. apply concat_nil. intros k' Hk'. rewrite !concat_nil; [done| |].
         - intros l Hl. unfold db. rewrite decide_False; [done|]. intros Eq. replace (((i * K + k) * P + p) * Q + q) with ((i * K + k) * (P * Q) + (p * Q + q)) in Eq by lia.
           apply lin_inj in Eq as [Eq _]; [|apply lin_lt; lia|lia]. apply lin_inj in Eq as [Eq _]; lia.
         - intros c Hc. apply concat_nil. intros p' Hp'. apply concat_nil. intros h Hh. apply concat_nil. intros q' Hq'. apply concat_nil. intros w Hw.
           unfold dl. rewrite decide_False; [done|]. intros Eq. apply lin4_inj in Eq as (-> & _); lia. }
    rewrite (concat_one _ 0 K k); [|lia|].
    2: { intros k' Hk' Hne. rewrite !concat_nil; [done| |].
         - intros l Hl. unfold db. rewrite decide_False; [done|]. intros Eq. replace (((i * K + k) * P + p) * Q + q) with ((i * K + k) * (P * Q) + (p * Q + q)) in Eq by lia.
           apply lin_inj in Eq as [Eq _]; [|apply lin_lt; lia|lia]. apply lin_inj in Eq as [_ Eq]; lia.
         - intros c Hc. apply concat_nil. intros p' Hp'. apply concat_nil. intros h Hh. apply concat_nil. intros q' Hq'. apply concat_nil. intros w Hw.
           unfold dl. rewrite decide_False; [done|]. intros Eq. apply lin4_inj in Eq as (_ & -> & _); lia. }
    rewrite (concat_one (fun l => db i k l _) 0 (P * Q) (p * Q + q)); [|split; [lia|]; apply lin_lt; lia|].
    2: { intros l Hl Hne. unfold db. rewrite decide_False; [done|]. intros Eq. apply Hne. lia. }
    unfold db at 1. rewrite decide_True by lia. rewrite foldl_app. cbn [foldl]. unfold conv_at. f_equal. unfold sum. f_equal.
    apply concat_ext. intros c Hc. rewrite (concat_one _ 0 P p); [|lia|].
    2: { intros p' Hp' Hne. apply concat_nil. intros h Hh. apply concat_nil. intros q' Hq'. apply concat_nil. intros w Hw.
         unfold dl. rewrite decide_False; [done|]. intros Eq. apply lin4_inj in Eq as (_ & _ & -> & _); lia. }
    apply concat_ext. intros h Hh. rewrite (concat_one _ 0 Q q); [|lia|].
    2: { intros q' Hq' Hne. apply concat_nil. intros w Hw.
         unfold dl. rewrite decide_False; [done|]. intros Eq. apply lin4_inj in Eq as (_ & _ & _ & ->); lia. }
    etransitivity; [|apply concat_singles]. apply concat_ext. intros w Hw. unfold dl. rewrite decide_True by done. done.
  Qed.

  (** * Pooling *)
  (** The effect of [run] on the accumulated value, for a row of cells. *)
  Definition run_row (op : pool_op) (plen : V) (init : V) (row : list V) : V :=
    match op with
    | AVG => add (mul (sum zero add row) plen) init
    | MAX => foldl mx init row
    end.
  Lemma fold_cells (g : V -> V -> V) (inp : list V) (f : nat -> V) start len init :
    (forall k, k < len -> inp !! (start + k) = Some (f k)) ->
    for_up start (start + len) (fun i ret => let* x := rd inp i in Ok (g ret x)) init = Ok (foldl g init (map f (seq 0 len))).
  Proof.
    unfold for_up. replace (start + len - start) with len by lia. revert start f init.
    induction len as [|len IH]; intros start f init H; [done|]. cbn [forn seq map foldl].
    rewrite (rd_Ok inp start (f 0)); [|rewrite <- H by lia; f_equal; lia]. cbn [obind].
    rewrite (IH (S start) (fun k => f (S k))).
    - f_equal. f_equal. rewrite (map_seq_shift f 1). apply map_seq_ext. done.
    - intros k Hk. rewrite <- H by lia. f_equal. lia.
  Qed.
  Lemma run_ok op (inp : list V) (f : nat -> V) start len init plen :
    (forall k, k < len -> inp !! (start + k) = Some (f k)) ->
    run zero add mul mx op init inp start len plen = Ok (run_row op plen init (map f (seq 0 len))).
  Proof.
    intros H. destruct op; cbn [run run_row].
    - rewrite (fold_cells add inp f) by done. done.
    - by rewrite (fold_cells mx inp f).
  Qed.

  (** The loops over the output rows, window rows and output columns, shared by the three general paths. *)
  Definition pool_loops (op : pool_op) (plen : V) (src : list V) (off Hd Wd kh kw sh sw P Q oix0 : nat) (res : list V) : outcome (list V) :=
    for_up 0 P (fun p res =>
      for_up (p * sh) ((p * sh + kh) `min` Hd) (fun h res =>
        for_up 0 Q (fun q res =>
          let* r := rd res (oix0 + p * Q + q) in
          let* v := run zero add mul mx op r src (off + h * Wd + q * sw) (min_wsub kw Wd (q * sw)) plen in
          wr res (oix0 + p * Q + q) v) res) res) res.
  Lemma pool_loops_eff op plen src f off Hd Wd kh kw sh sw P Q B C i c :
    (forall p, p < P -> p * sh + kh <= Hd) -> (forall q, q < Q -> q * sw + kw <= Wd) -> i < B -> c < C ->
    (forall r s, r < Hd -> s < Wd -> src !! (off + r * Wd + s) = Some (f r s)) ->
    eff (run_row op plen) (fun m : list V => m) (fun _ => True) (B * (C * (P * Q)))
      (pool_loops op plen src off Hd Wd kh kw sh sw P Q (i * (C * P * Q) + c * P * Q))
      (fun j => concat (map (fun p => concat (map (fun h => concat (map (fun q =>
         if decide (j = ((i * C + c) * P + p) * Q + q) then [map (fun w => f h (q * sw + w)) (seq 0 kw)] else [])
         (seq 0 Q))) (seq (p * sh) kh))) (seq 0 P))).
  Proof.
    intros HP HQ Hi Hc Hsrc. unfold pool_loops. set (L := B * (C * (P * Q))).
    pose proof (fun f d => eff_for_up (St := list V) (run_row op plen) (fun m : list V => m) (fun _ => True) L 0 P f d) as HB.
    rewrite Nat.sub_0_r in HB. apply HB. clear HB. intros p Hp. cbv beta. specialize (HP p ltac:(lia)).
    rewrite (Nat.min_l (p * sh + kh) Hd) by done.
    pose proof (fun f d => eff_for_up (St := list V) (run_row op plen) (fun m : list V => m) (fun _ => True) L (p * sh) (p * sh + kh) f d) as HB.
    replace (p * sh + kh - p * sh) with kh in HB by lia. apply HB. clear HB. intros h Hh. cbv beta.
    pose proof (fun f d => eff_for_up (St := list V) (run_row op plen) (fun m : list V => m) (fun _ => True) L 0 Q f d) as HB.
    rewrite Nat.sub_0_r in HB. apply HB. clear HB. intros q Hq. cbv beta. specialize (HQ q ltac:(lia)).
    rewrite min_wsub_ok by done. intros m _ HLm.
    replace (i * (C * P * Q) + c * P * Q + p * Q + q) with (((i * C + c) * P + p) * Q + q) by lia.
    assert (Hlt : ((i * C + c) * P + p) * Q + q < length m). { rewrite HLm. apply lin4_lt; lia. }
    destruct (rd_lt m _ Hlt) as (v & Hv & ->). cbn [obind].
    rewrite (run_ok op src (fun w => f h (q * sw + w))).
    2: { intros k Hk. rewrite <- Hsrc by lia. f_equal. lia. }
    cbn [obind]. destruct (upd_cell (run_row op plen) m _ v (map (fun w => f h (q * sw + w)) (seq 0 kw)) Hv) as (Ew & El & Eu).
    rewrite Ew. eexists. split; [done|]. split; [done|]. split; [congruence|]. exact Eu.
  Qed.
  (** What the loops contribute to one cell. *)
  Lemma pool_contributions (f : nat -> nat -> nat -> nat -> V) B C P Q kh kw sh sw i c p q :
    i < B -> c < C -> p < P -> q < Q ->
    concat (map (fun i' => concat (map (fun c' => concat (map (fun p' => concat (map (fun h => concat (map (fun q' =>
         if decide (((i * C + c) * P + p) * Q + q = ((i' * C + c') * P + p') * Q + q') then [map (fun w => f i' c' h (q' * sw + w)) (seq 0 kw)] else [])
         (seq 0 Q))) (seq (p' * sh) kh))) (seq 0 P))) (seq 0 C))) (seq 0 B)) = window (f i c) kh kw (p * sh) (q * sw).
  Proof.
    intros Hi Hc Hp Hq. rewrite (concat_one _ 0 B i); [|lia|].
    2: { intros i' Hi' Hne. apply concat_nil. intros c' Hc'. apply concat_nil. intros p' Hp'. apply concat_nil. intros h Hh. apply concat_nil. intros q' Hq'.
         rewrite decide_False; [done|]. intros Eq. apply lin4_inj in Eq as (-> & _); lia. }
    rewrite (concat_one _ 0 C c); [|lia|].
    2: { intros c' Hc' Hne. apply concat_nil. intros p' Hp'. apply concat_nil. intros h Hh. apply concat_nil. intros q' Hq'.
         rewrite decide_False; [done|]. intros Eq. apply lin4_inj in Eq as (_ & -> & _); lia. }
    rewrite (concat_one _ 0 P p); [|lia|].
    2: { intros p' Hp' Hne. apply concat_nil. intros h Hh. apply concat_nil. intros q' Hq'.
         rewrite decide_False; [done|]. intros Eq. apply lin4_inj in Eq as (_ & _ & -> & _); lia. }
    unfold window. transitivity (map (fun h => map (fun w => f i c h (q * sw + w)) (seq 0 kw)) (seq (p * sh) kh)).
    2: { apply (map_seq_shift (fun h => map (fun w => f i c h (q * sw + w)) (seq 0 kw))). }
    etransitivity; [|apply concat_singles]. apply concat_ext. intros h Hh. rewrite (concat_one _ 0 Q q); [|lia|].
    2: { intros q' Hq' Hne. rewrite decide_False; [done|]. intros Eq. apply lin4_inj in Eq as (_ & _ & _ & ->); lia. }
    by rewrite decide_True.
  Qed.

  Lemma lookup_pixel (data : list V) B C H W i c r s :
    length data = B * (C * (H * W)) -> i < B -> c < C -> r < H -> s < W ->
    data !! (i * (C * (H * W)) + c * (H * W) + r * W + s) = Some (pixel zero data C H W i c r s).
  Proof.
    intros HL Hi Hc Hr Hs. unfold pixel. destruct (lookup_lt_is_Some_2 data (i * (C * (H * W)) + c * (H * W) + r * W + s)) as [y Hy].
    { rewrite HL, lin4. by apply lin4_lt. }
    rewrite Hy. f_equal. symmetry. by apply nth_lookup_Some.
  Qed.
  Lemma padded_pixel_0 (data : list V) C H W i c r s : r < H -> s < W ->
    padded_pixel zero data C H W 0 0 i c r s = pixel zero data C H W i c r s.
  Proof. intros Hr Hs. unfold padded_pixel. rewrite decide_True by lia. by rewrite !Nat.sub_0_r. Qed.

  (** The unpadded paths. *)
  Lemma pool_unpadded op plen (data : list V) B C H W kh kw sh sw P Q :
    length data = B * (C * (H * W)) -> (forall p, p < P -> p * sh + kh <= H) -> (forall q, q < Q -> q * sw + kw <= W) ->
    exists res, for_up 0 B (fun i res => for_up 0 C (fun c res =>
        pool_loops op plen data (i * (C * (H * W)) + c * (H * W)) H W kh kw sh sw P Q (i * (C * P * Q) + c * P * Q) res) res)
      (zeros zero (B * (C * P * Q))) = Ok res /\
      images res B C P Q (fun i c p q => foldl (run_row op plen) zero
        (window (padded_pixel zero data C H W 0 0 i c) kh kw (p * sh) (q * sw))).
  Proof.
    intros Hdata HP HQ.
    set (L := B * (C * (P * Q))).
    match goal with |- context [for_up 0 B ?f ?s0] => set (body := f); set (s := s0) end.
    assert (HE : eff (run_row op plen) (fun m : list V => m) (fun _ => True) L (for_up 0 B body) (fun j =>
      concat (map (fun i => concat (map (fun c => concat (map (fun p => concat (map (fun h => concat (map (fun q =>
         if decide (j = ((i * C + c) * P + p) * Q + q) then [map (fun w => padded_pixel zero data C H W 0 0 i c h (q * sw + w)) (seq 0 kw)] else [])
         (seq 0 Q))) (seq (p * sh) kh))) (seq 0 P))) (seq 0 C))) (seq 0 B)))).
    { pose proof (fun f d => eff_for_up (St := list V) (run_row op plen) (fun m : list V => m) (fun _ => True) L 0 B f d) as HB.
      rewrite Nat.sub_0_r in HB. apply HB. clear HB. intros i Hi. subst body. cbv beta.
      pose proof (fun f d => eff_for_up (St := list V) (run_row op plen) (fun m : list V => m) (fun _ => True) L 0 C f d) as HB.
      rewrite Nat.sub_0_r in HB. apply HB. clear HB. intros c Hc. cbv beta.
      apply pool_loops_eff; [done|done|lia|lia|]. intros r t Hr Ht. rewrite padded_pixel_0 by done. apply (lookup_pixel data B); [done|lia..]. }
    destruct (HE s) as (res & E & _ & HL & HC); [done|subst s; unfold zeros; rewrite replicate_length; lia|].
    exists res. split; [done|]. split; [done|]. intros i c p q Hi Hc Hp Hq. rewrite lin4.
    rewrite (HC _ zero); [|subst s; apply lookup_replicate_2; replace (B * (C * P * Q)) with L by lia; apply lin4_lt; done].
    do 2 f_equal. exact (pool_contributions (padded_pixel zero data C H W 0 0) B C P Q kh kw sh sw i c p q Hi Hc Hp Hq).
  Qed.
  (** The padded path. *)
  Lemma pool_padded op plen (data : list V) B C H W kh kw sh sw pad_h pad_w P Q :
    length data = B * (C * (H * W)) -> (forall p, p < P -> p * sh + kh <= H + 2 * pad_h) -> (forall q, q < Q -> q * sw + kw <= W + 2 * pad_w) ->
    exists st, for_up 0 B (fun i st => for_up 0 C (fun c '(padded, res) =>
        let* padded := padding zero padded data pad_h pad_w W H (i * (C * (H * W)) + c * (H * W)) in
        let* res := pool_loops op plen padded 0 (H + 2 * pad_h) (W + 2 * pad_w) kh kw sh sw P Q (i * (C * P * Q) + c * P * Q) res in
        Ok (padded, res)) st)
      (zeros zero ((H + 2 * pad_h) * (W + 2 * pad_w)), zeros zero (B * (C * P * Q))) = Ok st /\
      images st.2 B C P Q (fun i c p q => foldl (run_row op plen) zero
        (window (padded_pixel zero data C H W pad_h pad_w i c) kh kw (p * sh) (q * sw))).
  Proof.
    intros Hdata HP HQ.
    set (L := B * (C * (P * Q))).
    match goal with |- context [for_up 0 B ?f ?s0] => set (body := f); set (s := s0) end.
    assert (HE : eff (run_row op plen) snd (fun st => zpad pad_h pad_w H W st.1) L (for_up 0 B body) (fun j =>
      concat (map (fun i => concat (map (fun c => concat (map (fun p => concat (map (fun h => concat (map (fun q =>
         if decide (j = ((i * C + c) * P + p) * Q + q) then [map (fun w => padded_pixel zero data C H W pad_h pad_w i c h (q * sw + w)) (seq 0 kw)] else [])
         (seq 0 Q))) (seq (p * sh) kh))) (seq 0 P))) (seq 0 C))) (seq 0 B)))).
    { pose proof (fun f d => eff_for_up (St := list V * list V) (run_row op plen) snd (fun st => zpad pad_h pad_w H W st.1) L 0 B f d) as HB.
      rewrite Nat.sub_0_r in HB. apply HB. clear HB. intros i Hi. subst body. cbv beta.
      pose proof (fun f d => eff_for_up (St := list V * list V) (run_row op plen) snd (fun st => zpad pad_h pad_w H W st.1) L 0 C f d) as HB.
      rewrite Nat.sub_0_r in HB. apply HB. clear HB. intros c Hc. cbv beta. intros [padded res] HI HL. cbn [fst snd] in HI, HL.
      destruct (padding_pixels padded data pad_h pad_w H W B C i c Hdata ltac:(lia) ltac:(lia) HI) as (pd & Epd & Hzpd & Hpd).
      rewrite Epd. cbn [obind].
      destruct (pool_loops_eff op plen pd (padded_pixel zero data C H W pad_h pad_w i c) 0 (H + 2 * pad_h) (W + 2 * pad_w) kh kw sh sw P Q B C i c
        HP HQ ltac:(lia) ltac:(lia) Hpd res I HL) as (res' & E' & _ & HL' & HC').
      rewrite E'. cbn [obind]. eexists. split; [done|]. split; [done|]. split; [done|]. exact HC'. }
    destruct (HE s) as (st & E & _ & HL & HC); [apply zpad_zeros|subst s; unfold zeros; cbn [snd]; rewrite replicate_length; lia|].
    exists st. split; [done|]. split; [done|]. intros i c p q Hi Hc Hp Hq. rewrite lin4.
    rewrite (HC _ zero); [|subst s; cbn [snd]; apply lookup_replicate_2; replace (B * (C * P * Q)) with L by lia; apply lin4_lt; done].
    do 2 f_equal. exact (pool_contributions (padded_pixel zero data C H W pad_h pad_w) B C P Q kh kw sh sw i c p q Hi Hc Hp Hq).
  Qed.

  Theorem pool_forward_general op (data : list V) B C H W kh kw s pad_h pad_w P Q :
    length data = B * (C * (H * W)) -> 0 < s -> kh <= H + 2 * pad_h -> kw <= W + 2 * pad_w ->
    positions H kh pad_h s P -> positions W kw pad_w s Q -> ~ (P = 1 /\ Q = 1 /\ W = 1) ->
    exists res, pool_forward zero add mul mx recip big op data B C H W kh kw s s pad_h pad_w = Ok (P, Q, res) /\
      images res B C P Q (fun i c p q => foldl (run_row op (recip (kw * kh))) zero
        (window (padded_pixel zero data C H W pad_h pad_w i c) kh kw (p * s) (q * s))).
  Proof.
    intros Hdata Hs Hkh Hkw HP HQ Hq. unfold pool_forward.
    destruct (get_pq_ok H kh pad_h s Hs Hkh) as (P' & EP & HP' & HP0).
    destruct (get_pq_ok W kw pad_w s Hs Hkw) as (Q' & EQ & HQ' & HQ0).
    rewrite (positions_unique _ _ _ _ _ _ HP' HP) in EP. rewrite (positions_unique _ _ _ _ _ _ HQ' HQ) in EQ. clear P' Q' HP' HQ' HP0 HQ0.
    rewrite EP. cbn [obind]. rewrite EQ. cbn [obind]. rewrite decide_False by done.
    destruct (decide (s = 1 /\ s = 1 /\ pad_h = 0 /\ pad_w = 0)) as [(-> & _ & -> & ->)|H1].
    { destruct (pool_unpadded op (recip (kw * kh)) data B C H W kh kw 1 1 P Q Hdata) as (res & E & Him).
      { intros p Hp. apply HP in Hp. lia. }
      { intros q Hq'. apply HQ in Hq'. lia. }
      exists res. split; [|done].
      match goal with |- (let* res := for_up 0 B ?f ?s0 in _) = _ => assert (for_up 0 B f s0 = Ok res) as ->; [|done] end.
      rewrite <- E. apply for_up_ext. intros i m Hi. apply for_up_ext. intros c m' Hc. unfold pool_loops. apply for_up_ext. intros p m2 Hp.
      rewrite (Nat.mul_1_r p). apply for_up_ext. intros h m3 Hh. apply for_up_ext. intros q m4 Hq'. rewrite (Nat.mul_1_r q). done. }
    destruct (decide (pad_h = 0 /\ pad_w = 0)) as [[-> ->]|H2].
    { destruct (pool_unpadded op (recip (kw * kh)) data B C H W kh kw s s P Q Hdata) as (res & E & Him).
      { intros p Hp. apply HP in Hp. lia. }
      { intros q Hq'. apply HQ in Hq'. lia. }
      exists res. split; [|done].
      match goal with |- (let* res := for_up 0 B ?f ?s0 in _) = _ => assert (for_up 0 B f s0 = Ok res) as ->; [|done] end.
      rewrite <- E. done. }
    destruct (pool_padded op (recip (kw * kh)) data B C H W kh kw s s pad_h pad_w P Q Hdata) as (st & E & Him).
    { intros p Hp. by apply HP in Hp. }
    { intros q Hq'. by apply HQ in Hq'. }
    exists st.2. split; [|done].
    match goal with |- (let* res := for_up 0 B ?f ?s0 in _) = _ => assert (for_up 0 B f s0 = Ok st) as ->; [|done] end.
    rewrite <- E. done.
  Qed.

  (** The quick path. *)
  Lemma pool_forward_quick op (data : list V) B C H kh kw s s' pad_h pad_w :
    length data = B * (C * (H * 1)) ->
    get_pq H kh pad_h s' = Ok 1 -> get_pq 1 kw pad_w s = Ok 1 ->
    exists res, pool_forward zero add mul mx recip big op data B C H 1 kh kw s s' pad_h pad_w = Ok (1, 1, res) /\
      images res B C 1 1 (fun i c p q => run_row op (recip (kw * kh)) (neutral zero big op)
        (map (fun h => pixel zero data C H 1 i c h 0) (seq 0 (kh `min` H)))).
  Proof.
    intros Hdata EP EQ. unfold pool_forward. rewrite EP. cbn [obind]. rewrite EQ. cbn [obind]. rewrite decide_True by done.
    set (g := fun i c => run_row op (recip (kw * kh)) (neutral zero big op) (map (fun h => pixel zero data C H 1 i c h 0) (seq 0 (kh `min` H)))).
    match goal with |- context [for_up 0 B ?f ?s0] => set (body := f); set (m0 := s0) end.
    assert (HL0 : length m0 = B * C). { subst m0. unfold zeros. rewrite replicate_length. lia. }
    destruct (for_up_inv (fun i m => length m = B * C /\ forall i' c', i' < i -> c' < C -> m !! (i' * C + c') = Some (g i' c')) 0 B body m0) as (res & E & HL & HC).
    { lia. }
    { split; [done|]. intros; lia. }
    { intros i m Hi [HL HC]. subst body. cbv beta.
      destruct (for_up_inv (fun c m => length m = B * C /\ forall i' c', i' < i /\ c' < C \/ i' = i /\ c' < c -> m !! (i' * C + c') = Some (g i' c')) 0 C
        (fun c res => let* v := run zero add mul mx op (neutral zero big op) data (i * (C * (H * 1)) + c * H) (kh `min` H) (recip (kw * kh)) in
           wr res (i * C + c) v) m) as (m' & E' & HL' & HC').
      { lia. }
      { split; [done|]. intros i' c' [?|?]; [apply HC; lia|lia]. }
      { intros c m1 Hc [HL1 HC1]. rewrite (run_ok op data (fun h => pixel zero data C H 1 i c h 0)).
        2: { intros k Hk. rewrite <- (lookup_pixel data B C H 1 i c k 0 Hdata) by lia. f_equal. lia. }
        cbn [obind]. assert (i * C + c < B * C) by (apply lin_lt; lia). rewrite wr_Ok by lia. eexists. split; [done|].
        split; [by rewrite insert_length|]. intros i' c' Hic. destruct (decide (i' = i /\ c' = c)) as [[-> ->]|Hne].
        - rewrite list_lookup_insert by lia. done.
        - rewrite list_lookup_insert_ne; [apply HC1; lia|]. intros Eq. apply lin_inj in Eq as [-> ->]; [|lia..]. by apply Hne. }
      exists m'. split; [done|]. split; [done|]. intros i' c' Hi' Hc'. apply HC'. lia. }
    rewrite E. cbn [obind]. exists res. split; [done|]. split; [lia|]. intros i c p q Hi Hc Hp Hq.
    replace (i * (C * (1 * 1)) + c * (1 * 1) + p * 1 + q) with (i * C + c) by lia. by apply HC.
  Qed.
End cells.
