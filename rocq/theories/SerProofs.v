From stdpp Require Import base numbers sorting list list_numbers.
From Coq Require Import Lia NArith.
From Verif Require Import CppBase Mem CSRModel CSRSpec CSRProofs CSRView PipelineModel PipelineSpec SinkSpec SerModel SerSpec.

(** * Little-endian integers *)
Lemma le_length k n : length (le k n) = k.
Proof. revert n. induction k as [|k IH]; intros n; [done|]. cbn [le length]. by rewrite IH. Qed.
Lemma unle_le k n : unle (le k n) = (n mod 256 ^ N.of_nat k)%N.
Proof.
  revert n. induction k as [|k IH]; intros n; cbn [le unle].
  - by rewrite N.mod_1_r.
  - rewrite IH. replace (N.of_nat (S k)) with (N.succ (N.of_nat k)) by lia. rewrite N.pow_succ_r by lia.
    rewrite N.mod_mul_r by (try apply N.pow_nonzero; lia). done.
Qed.
Lemma le_nat_length k n : length (le_nat k n) = k.
Proof. apply le_length. Qed.
Lemma unle_nat_le k n : (N.of_nat n < 256 ^ N.of_nat k)%N -> unle_nat (le_nat k n) = n.
Proof. intros Hn. unfold unle_nat, le_nat. rewrite unle_le, N.mod_small by done. lia. Qed.
Lemma unle_nat_4 n : fits32 n -> unle_nat (le_nat 4 n) = n.
Proof. intros Hn. apply unle_nat_le. exact Hn. Qed.
Lemma unle_nat_8 n : fits64 n -> unle_nat (le_nat 8 n) = n.
Proof. intros Hn. apply unle_nat_le. exact Hn. Qed.

Lemma rdn_Ok {A} (buf : list A) i n : i + n <= length buf -> rdn buf i n = Ok (take n (drop i buf)).
Proof. intros Hn. unfold rdn. by rewrite decide_True. Qed.
Lemma word_concat {A} k (f : A -> list N) l i a rest : (forall a, length (f a) = k) -> l !! i = Some a -> word k i (concat (f <$> l) ++ rest) = f a.
Proof.
  intros Hf Hi. unfold word. revert i Hi. induction l as [|b l IH]; intros i Hi; [done|]. cbn [fmap list_fmap concat].
  destruct i as [|i]; simpl in Hi.
  - inversion Hi; subst. simpl. rewrite drop_0, <- app_assoc. rewrite <- (Hf a). by rewrite take_app.
  - rewrite <- app_assoc. replace (S i * k) with (length (f b) + i * k) by (rewrite Hf; lia). rewrite <- drop_drop, drop_app. by apply IH.
Qed.
Lemma concat_fmap_length {A} k (f : A -> list N) l : (forall a, length (f a) = k) -> length (concat (f <$> l)) = length l * k.
Proof. intros Hf. induction l as [|a l IH]; [done|]. cbn [fmap list_fmap concat length]. rewrite app_length, Hf. fold (f <$> l). rewrite IH. lia. Qed.
Lemma words_length k n mem : length (words k n mem) = n.
Proof. unfold words. by rewrite fmap_length, seq_length. Qed.
Lemma words_lookup k n mem i : i < n -> words k n mem !! i = Some (word k i mem).
Proof. intros Hi. unfold words. rewrite list_lookup_fmap, lookup_seq_lt by done. done. Qed.
Lemma words_concat {A} k (f : A -> list N) l rest : (forall a, length (f a) = k) -> words k (length l) (concat (f <$> l) ++ rest) = f <$> l.
Proof.
  intros Hf. apply list_eq. intros i. destruct (decide (i < length l)) as [Hi|Hi].
  - rewrite words_lookup by done. destruct (lookup_lt_is_Some_2 l i Hi) as [a Ha]. rewrite list_lookup_fmap, Ha. simpl. f_equal. by apply word_concat.
  - rewrite (lookup_ge_None_2 (words _ _ _)) by (rewrite words_length; lia). rewrite (lookup_ge_None_2 (f <$> l)) by (rewrite fmap_length; lia). done.
Qed.
Lemma take_concat_fmap {A} k (f : A -> list N) l n : (forall a, length (f a) = k) -> take (n * k) (concat (f <$> l)) = concat (f <$> take n l).
Proof.
  intros Hf. revert l. induction n as [|n IH]; intros l; [done|]. destruct l as [|a l]; [by destruct (S n * k)|].
  cbn [take fmap list_fmap concat]. fold (f <$> l). fold (f <$> take n l). replace (S n * k) with (length (f a) + n * k) by (rewrite Hf; lia).
  rewrite firstn_app_2. by rewrite IH.
Qed.

(** * Receivers in general *)
(** The bytes [buf] are those of [image] from position [from] on, as far as [image] goes. *)
Definition agrees (image buf : list N) (from : nat) : Prop :=
  from <= length image /\ forall p, p < length buf -> from + p < length image -> buf !! p = image !! (from + p).
Lemma agrees_header image buf hd : agrees image buf 0 -> hd <= length buf -> hd <= length image -> take hd buf = take hd image.
Proof.
  intros [_ Ha] Hb Hi. apply list_eq. intros p. destruct (decide (p < hd)) as [Hp|Hp].
  - rewrite !lookup_take by done. rewrite Ha by lia. done.
  - rewrite !lookup_take_ge by lia. done.
Qed.
Lemma agrees_take image n from pad : from <= length image -> (pad = [] \/ length image <= from + n) -> agrees image (take n (drop from image) ++ pad) from.
Proof.
  intros Hf Hp. split; [done|]. intros p Hlt Hin. destruct (decide (p < n)) as [Hn|Hn].
  - rewrite lookup_app_l by (rewrite take_length, drop_length; lia). rewrite lookup_take by done. by rewrite lookup_drop.
  - destruct Hp as [->|Hp]; [|lia]. rewrite app_nil_r in *. rewrite take_length in Hlt. lia.
Qed.

Section receiver.
Context {O : Type} (hdr : list N -> option O -> outcome (option O)) (deser : list N -> nat -> option O -> nat -> outcome O)
  (flat : O -> list N) (good : O -> Prop) (image : list N) (hd : nat).
(** [good o]: the receiver's object has the shape announced in the header of [image]; [flat o]: its arrays one after the other. *)
Definition patched (o o' : O) (from n : nat) : Prop :=
  forall p, flat o' !! p = if decide (from <= hd + p < from + n) then image !! (hd + p) else flat o !! p.
Definition receiver : Prop :=
  hd <= length image /\ 0 < hd /\
  (forall o, good o -> hd + length (flat o) = length image) /\
  (forall buf, take hd buf = take hd image -> exists o, hdr buf None = Ok (Some o) /\ good o) /\
  (forall buf o from, agrees image buf from -> good o -> (from = 0 -> hd <= length buf) -> (from = 0 \/ hd <= from) ->
     exists o', deser buf (length buf) (Some o) from = Ok o' /\ good o' /\ patched o o' from (length buf)).
Hypothesis HR : receiver.

Lemma deser_chunks_go bufs o from idx :
  good o -> idx <> 0 -> hd <= from -> from + length (concat bufs) <= length image -> drop from image = concat bufs ->
  (forall p, hd + p < from -> flat o !! p = image !! (hd + p)) ->
  exists o' idx', deser_chunks hdr deser (Some o, from, idx) bufs = Ok (Some o', length image, idx') /\ good o' /\ flat o' = drop hd image.
Proof.
  destruct HR as (Hhd & Hpos & Hlen & Hh & Hd).
  revert o from idx. induction bufs as [|b bufs IH]; intros o from idx Hg Hi Hf Hl Him Hfl.
  - cbn [deser_chunks]. simpl in Him, Hl. assert (from = length image). { assert (length (drop from image) = 0) as He by (rewrite Him; done). rewrite drop_length in He. lia. }
    subst from. exists o, idx. split; [done|]. split; [done|]. specialize (Hlen o Hg). apply list_eq. intros p. rewrite lookup_drop. destruct (decide (hd + p < length image)) as [Hp|Hp]; [by apply Hfl|].
    rewrite !lookup_ge_None_2 by lia. done.
  - cbn [deser_chunks concat] in *. rewrite app_length in Hl.
    assert (Hag : agrees image b from). { split; [lia|]. intros p Hp Hin. rewrite <- lookup_drop, Him. by rewrite lookup_app_l. }
    destruct (Hd b o from Hag Hg) as (o' & E & Hg' & Hp); [lia|lia|].
    unfold deser_next. rewrite decide_False by done. cbn [obind]. rewrite E. cbn [obind].
    apply IH; [done|lia|lia|lia| |].
    + rewrite <- drop_drop, Him. by rewrite drop_app.
    + intros p Hpp. rewrite (Hp p). destruct (decide _) as [Hd'|Hd']; [done|]. apply Hfl. lia.
Qed.
(** Chunks delivered in order, of any sizes: the first must contain the header. *)
Lemma deser_chunks_spec b bufs : concat (b :: bufs) = image -> hd <= length b ->
  exists o idx, deser_chunks hdr deser (None, 0, 0) (b :: bufs) = Ok (Some o, length image, idx) /\ good o /\ flat o = drop hd image.
Proof.
  intros Hc Hb. destruct HR as (Hhd & Hpos & Hlen & Hh & Hd). cbn [concat] in Hc.
  assert (Hag : agrees image b 0). { split; [lia|]. intros p Hp Hin. simpl. rewrite <- Hc. by rewrite lookup_app_l. }
  cbn [deser_chunks]. unfold deser_next. rewrite decide_True by done.
  destruct (Hh b (agrees_header _ _ _ Hag Hb Hhd)) as (o & -> & Hg). cbn [obind].
  destruct (Hd b o 0 Hag Hg) as (o' & E & Hg' & Hp); [done|by left|]. rewrite E. cbn [obind].
  apply (deser_chunks_go bufs o'); [done|lia|lia| | |].
  - rewrite <- Hc, app_length. lia.
  - rewrite <- Hc. simpl. by rewrite drop_app.
  - intros p Hpp. rewrite (Hp p). rewrite decide_True by lia. done.
Qed.

(** ** Out of order *)
(** [parts]: ranges (start, length) of the image. *)
Definition part_of (c : nat) (hb : list N) (t : nat * nat) (buf : list N) : Prop :=
  let '(start, n) := t in
  start + n <= length image /\ 0 < n /\ (start = 0 -> hd <= n) /\ (start = 0 \/ hd <= start) /\ fits64 start /\
  exists pad, buf = hb ++ le_nat 8 start ++ take n (drop start image) ++ pad /\ length buf <= hd + 8 + c /\
    (pad = [] \/ start + n = length image) /\ (n = c \/ start + n = length image).
Lemma ooo_recv_part c hb t buf o got : hb = take hd image -> part_of c hb t buf ->
  (match o with None => True | Some o => good o end) ->
  exists o', ooo_recv hd hdr deser (o, got) buf = Ok (Some o', got + (length buf - (hd + 8))) /\ good o' /\
    (forall p, fst t <= hd + p < fst t + snd t -> flat o' !! p = image !! (hd + p)) /\
    (forall o0, o = Some o0 -> forall p, flat o0 !! p = image !! (hd + p) -> flat o' !! p = image !! (hd + p)).
Proof.
  intros Hhb. destruct t as [start n]. intros (Hin & Hn & Hs0 & Hs1 & Hf & pad & Hbuf & Hlb & Hpad & Hc) Ho.
  destruct HR as (Hhd & Hpos & Hlen & Hh & Hd).
  assert (Hlhb : length hb = hd) by (rewrite Hhb, take_length; lia).
  assert (Hinner : drop (hd + 8) buf = take n (drop start image) ++ pad).
  { rewrite Hbuf. rewrite app_assoc. rewrite drop_app_alt; [done|]. rewrite app_length, le_nat_length. lia. }
  assert (Hblen : length buf = hd + 8 + n + length pad). { rewrite Hbuf, !app_length, le_nat_length, take_length, drop_length. lia. }
  assert (Hag : agrees image (drop (hd + 8) buf) start) by (rewrite Hinner; apply agrees_take; [lia|destruct Hpad; [by left|right; lia]]).
  assert (Hil : length (drop (hd + 8) buf) = n + length pad) by (rewrite drop_length; lia).
  assert (Ho1 : exists o1, match o with None => hdr buf None | Some _ => Ok o end = Ok (Some o1) /\ good o1 /\ (forall o0, o = Some o0 -> o1 = o0)).
  { destruct o as [o|].
    - exists o. split; [done|]. split; [done|]. intros o0 Ho0. by injection Ho0.
    - destruct (Hh buf) as (o1 & E1 & Hg1); [|by exists o1].
      rewrite Hbuf, take_app_alt by lia. done. }
  destruct Ho1 as (o1 & E1 & Hg1 & Ho1). unfold ooo_recv. rewrite E1. cbn [obind].
  rewrite rdn_Ok by lia. cbn [obind].
  assert (Hst : unle_nat (take 8 (drop hd buf)) = start).
  { rewrite Hbuf, drop_app_alt by lia. rewrite take_app_alt by (rewrite le_nat_length; done). by apply unle_nat_8. }
  rewrite Hst. replace (length buf - (hd + 8)) with (length (drop (hd + 8) buf)) by (rewrite drop_length; lia).
  destruct (Hd (drop (hd + 8) buf) o1 start Hag Hg1) as (o' & E & Hg' & Hp); [intros; lia|lia|].
  rewrite E. cbn [obind]. exists o'. split; [done|]. split; [done|]. split.
  - intros p Hpp. simpl in Hpp. rewrite (Hp p). rewrite decide_True by lia. done.
  - intros o0 Ho0 p Hpp. rewrite (Ho1 _ Ho0) in *. rewrite (Hp p). destruct (decide _); done.
Qed.

Fixpoint tiles (c from : nat) (ts : list (nat * nat)) : Prop :=
  match ts with
  | [] => from = length image
  | (a, n) :: ts => a = from /\ 0 < n /\ (n = c \/ from + n = length image) /\ from + n <= length image /\ tiles c (from + n) ts
  end.
Lemma tiles_cover c from ts p : tiles c from ts -> from <= p < length image -> exists t, t ∈ ts /\ fst t <= p < fst t + snd t.
Proof.
  revert from. induction ts as [|[a n] ts IH]; intros from; cbn [tiles].
  - lia.
  - intros (-> & Hn & _ & _ & Ht) Hp. destruct (decide (p < from + n)) as [Hlt|Hlt].
    + exists (from, n). split; [left|]. simpl. lia.
    + destruct (IH (from + n) Ht) as (t & Hin & Hr); [lia|]. exists t. split; [by right|done].
Qed.
Lemma tiles_len c from ts : tiles c from ts -> from + sum_list (snd <$> ts) = length image /\ (ts <> [] -> from + (length ts - 1) * c < length image).
Proof.
  revert from. induction ts as [|[a n] ts IH]; intros from; cbn [tiles].
  - intros ->. split; [simpl; lia|done].
  - intros (-> & Hn & Hnc & Hle & Ht). destruct (IH _ Ht) as [H1 H2]. split.
    + cbn. cbn in H1. lia.
    + intros _. cbn [length]. destruct ts as [|t ts]; [simpl; lia|]. specialize (H2 ltac:(done)). destruct Hnc as [->|Hl]; [cbn [length] in *; nia|].
      exfalso. destruct t as [b k]. cbn [tiles] in Ht. destruct Ht as (-> & Hk & _ & Hkl & _). lia.
Qed.

Context (olen : O -> nat) (Holen : forall o, good o -> olen o = length image).

(** What is received after any sequence of parts. *)
Lemma ooo_recv_all_spec c hb ts bufs o got : hb = take hd image -> Forall2 (part_of c hb) ts bufs ->
  (match o with None => True | Some o => good o end) -> (bufs <> [] \/ o <> None) ->
  exists o', ooo_recv_all hd hdr deser (o, got) bufs = Ok (Some o', got + sum_list ((fun b => length b - (hd + 8)) <$> bufs)) /\ good o' /\
    (forall t p, t ∈ ts -> fst t <= hd + p < fst t + snd t -> flat o' !! p = image !! (hd + p)) /\
    (forall o0, o = Some o0 -> forall p, flat o0 !! p = image !! (hd + p) -> flat o' !! p = image !! (hd + p)).
Proof.
  intros Hhb HF. revert o got. induction HF as [|t buf ts bufs Ht HF IH]; intros o got Ho Hne.
  - destruct Hne as [Hne|Hne]; [done|]. destruct o as [o|]; [|done]. exists o. cbn [ooo_recv_all fmap list_fmap sum_list]. rewrite Nat.add_0_r. split; [done|]. split; [done|]. split.
    + intros t p Ht. by apply elem_of_nil in Ht.
    + intros o0 Ho0 p. by injection Ho0 as ->.
  - cbn [ooo_recv_all]. destruct (ooo_recv_part c hb t buf o got Hhb Ht Ho) as (o1 & E1 & Hg1 & Hp1 & Hk1). rewrite E1. cbn [obind].
    destruct (IH (Some o1) (got + (length buf - (hd + 8)))) as (o2 & E2 & Hg2 & Hp2 & Hk2); [done|by right|].
    exists o2. rewrite E2. split; [f_equal; f_equal; cbn; lia|]. split; [done|]. split.
    + intros t' p Hin Hp. apply elem_of_cons in Hin as [->|Hin]; [|by eapply Hp2]. apply (Hk2 o1); [done|]. by apply Hp1.
    + intros o0 Ho0 p Hp. apply (Hk2 o1); [done|]. by apply (Hk1 o0).
Qed.

(** All parts of a tiling, in any order. *)
Lemma ooo_any_order c hb ts bufs bufs' : hb = take hd image -> tiles c 0 ts -> Forall2 (part_of c hb) ts bufs -> bufs' ≡ₚ bufs ->
  (exists o got, ooo_recv_all hd hdr deser (None, 0) bufs' = Ok (Some o, got) /\ good o /\ flat o = drop hd image /\ ooo_has_next olen (Some o, got) = false) /\
  (forall pre, (exists b post, bufs' = pre ++ b :: post) -> exists st, ooo_recv_all hd hdr deser (None, 0) pre = Ok st /\ ooo_has_next olen st = true).
Proof.
  intros Hhb Ht HF Hperm. destruct HR as (Hhd & Hpos & Hlen & Hh & Hd).
  apply Forall2_flip in HF. symmetry in Hperm. destruct (Permutation_Forall2 Hperm HF) as (ts' & Hpt & HF'). apply Forall2_flip in HF'.
  destruct (tiles_len _ _ _ Ht) as [Hsum Hmax]. rewrite Nat.add_0_l in Hsum, Hmax.
  assert (Hts : ts <> []) by (intros ->; cbn in Hsum; lia). specialize (Hmax Hts).
  assert (Hlt : length ts' = length ts) by (by rewrite Hpt). assert (Hlb : length bufs' = length ts') by (symmetry; by eapply Forall2_length).
  assert (Hts0 : length ts <> 0) by (destruct ts; [done|simpl; lia]).
  split.
  - destruct (ooo_recv_all_spec c hb ts' bufs' None 0 Hhb HF') as (o & E & Hg & Hp & _); [done|left; intros ->; simpl in *; lia|].
    exists o. eexists. split; [exact E|]. split; [done|]. specialize (Hlen o Hg). split.
    + apply list_eq. intros p. rewrite lookup_drop. destruct (decide (hd + p < length image)) as [Hlp|Hlp].
      * destruct (tiles_cover _ _ _ (hd + p) Ht) as (t & Hin & Hr); [lia|]. apply (Hp t); [|done]. by rewrite <- Hpt.
      * rewrite !lookup_ge_None_2 by lia. done.
    + unfold ooo_has_next. cbn [fst snd]. apply bool_decide_eq_false. rewrite (Holen o Hg).
      assert (sum_list (snd <$> ts') <= sum_list ((fun b => length b - (hd + 8)) <$> bufs')) as Hle.
      { clear -HF' Hhb Hhd. induction HF' as [|[a n] b ts bs Hp HF IH]; [done|]. cbn. cbn in IH.
        destruct Hp as (Hin & Hn & _ & _ & _ & pad & Hb & _). assert (length b = hd + 8 + n + length pad) as ->; [|lia].
        rewrite Hb, Hhb, !app_length, le_nat_length, !take_length, drop_length. lia. }
      assert (sum_list (snd <$> ts') = sum_list (snd <$> ts)) as Heq by (by rewrite Hpt). lia.
  - intros pre (b & post & Hb). subst bufs'. apply Forall2_app_inv_r in HF' as (ts1 & ts2 & HF1 & HF2 & ->).
    destruct (decide (pre = [])) as [->|Hpre]; [by exists (None, 0)|].
    destruct (ooo_recv_all_spec c hb ts1 pre None 0 Hhb HF1) as (o & E & Hg & _); [done|by left|].
    eexists. split; [exact E|]. unfold ooo_has_next. cbn [fst snd]. apply bool_decide_eq_true. rewrite (Holen o Hg).
    assert (sum_list ((fun b => length b - (hd + 8)) <$> pre) <= length pre * c) as Hle.
    { clear -HF1. induction HF1 as [|[a n] b' ts bs Hp HF IH]; [done|]. cbn. cbn in IH.
      destruct Hp as (_ & _ & _ & _ & _ & pad & _ & Hl & _). lia. }
    rewrite app_length in Hlb. cbn [length] in Hlb. nia.
Qed.

(** The sender: if [ser] cuts pieces out of the image, the loop ends and its chunks are the parts of a tiling. *)
Lemma ooo_makes_spec (header : outcome (list N)) (ser : nat -> nat -> outcome (list N)) c :
  header = Ok (take hd image) -> 0 < hd <= length image -> hd <= c -> fits64 (length image) ->
  (forall from, (from = 0 \/ hd <= from) -> from < length image -> ser c from = Ok (take c (drop from image))) ->
  exists chunks ts, ooo_makes hd (length image) header ser (c + (hd + 8)) 0 chunks /\ tiles c 0 ts /\
    forall bufs, carries (c + (hd + 8)) chunks bufs -> Forall2 (part_of c (take hd image)) ts bufs.
Proof.
  intros Hhdr Hhd Hc H64 Hser.
  enough (forall k from, length image - from <= k -> (from = 0 \/ hd <= from) -> from <= length image ->
    exists chunks ts, ooo_makes hd (length image) header ser (c + (hd + 8)) from chunks /\ tiles c from ts /\
    forall bufs, carries (c + (hd + 8)) chunks bufs -> Forall2 (part_of c (take hd image)) ts bufs) as HH.
  { destruct (HH (length image) 0) as (chunks & ts & H1 & H2 & H3); [lia|by left|lia|]. exists chunks, ts. split; [done|]. split; [done|done]. }
  induction k as [|k IH]; intros from Hk Hf Hle.
  - assert (from = length image) as -> by lia. exists [], []. split; [constructor|]. split; [done|]. intros bufs Hb. inversion Hb. constructor.
  - destruct (decide (from = length image)) as [->|Hne].
    { exists [], []. split; [constructor|]. split; [done|]. intros bufs Hb. inversion Hb. constructor. }
    set (n := length (take c (drop from image))). assert (Hn : n = c `min` (length image - from)) by (unfold n; by rewrite take_length, drop_length).
    assert (Htk : take c (drop from image) = take n (drop from image)).
    { rewrite Hn. destruct (Nat.min_spec c (length image - from)) as [[? ->]|[? ->]]; [done|]. rewrite !take_ge; [done| |]; rewrite drop_length; lia. }
    clearbody n. destruct (IH (from + n)) as (chunks & ts & H1 & H2 & H3); [lia|lia|lia|].
    exists ((take hd image ++ le_nat 8 from ++ take c (drop from image)) :: chunks), ((from, n) :: ts). split; [|split].
    + apply (ooo_more _ _ _ _ _ _ _ (from + n)); [done| |done]. unfold ooo_next. rewrite Hhdr. cbn [obind]. rewrite decide_False by lia.
      replace (c + (hd + 8) - (hd + 8)) with c by lia. rewrite Hser by (done || lia). cbn [obind]. rewrite take_length, drop_length, <- Hn. rewrite decide_False by lia. done.
    + cbn [tiles]. split; [done|]. split; [lia|]. split; [lia|]. split; [lia|done].
    + intros bufs Hb. apply Forall2_cons_inv_l in Hb as (buf & bs & [Hlb [pad Hpad]] & Hrest & ->). constructor; [|by apply H3].
      unfold part_of. split; [lia|]. split; [lia|]. split; [intros ->; lia|]. split; [done|].
      split; [unfold fits64 in *; lia|]. exists pad. split.
      * rewrite Hpad, Htk. by rewrite <- !app_assoc.
      * split; [lia|]. split; [|lia].
        rewrite Hpad, !app_length, le_nat_length, !take_length, drop_length in Hlb. destruct (decide (from + n = length image)) as [He|He]; [by right|left].
        apply length_zero_iff_nil. lia.
Qed.
End receiver.

(** * Senders in order *)
Lemma ser_iter_spec (ser : nat -> nat -> outcome (list N)) image hd c n from : 0 < hd -> hd <= c ->
  (forall from, (from = 0 \/ hd <= from) -> from <= length image -> ser c from = Ok (take c (drop from image))) ->
  (from = 0 \/ hd <= from) -> from <= length image -> hd <= length image -> length image <= from + n * c ->
  exists chunks, ser_iter ser c n from = Ok chunks /\ concat chunks = drop from image /\ length chunks = n /\
    Forall (fun ch => length ch <= c) chunks /\ (n <> 0 -> exists rest, chunks = take c (drop from image) :: rest).
Proof.
  intros Hhd Hc Hser. revert from. induction n as [|n IH]; intros from Hf Hle Hhl Hn; cbn [ser_iter]; [|rewrite Nat.mul_succ_l in Hn].
  - rewrite Hser by done. cbn [obind]. exists []. split; [done|]. split; [|done]. simpl. symmetry. apply drop_ge. lia.
  - rewrite Hser by done. cbn [obind]. assert (Hl : length (take c (drop from image)) = c `min` (length image - from)) by (by rewrite take_length, drop_length).
    destruct (IH (from + length (take c (drop from image)))) as (chunks & E & Hcc & Hlen & HF & _); [rewrite Hl; destruct Hf; lia|lia|done|rewrite Hl; lia|].
    rewrite E. cbn [obind]. eexists. split; [done|]. cbn [concat length]. rewrite Hcc, Hlen. split; [|split; [done|]].
    + rewrite Hl. destruct (Nat.min_spec c (length image - from)) as [[? ->]|[? ->]].
      * rewrite <- drop_drop. apply take_drop.
      * rewrite (drop_ge image (from + (length image - from))) by lia. rewrite app_nil_r. apply take_ge. rewrite drop_length. lia.
    + split; [constructor; [lia|done]|]. intros _. by eexists.
Qed.
Lemma ceil_div_ge x y : 0 < y -> x <= ceil_div x y * y.
Proof. intros Hy. unfold ceil_div. pose proof (Nat.div_mod (x + y - 1) y). pose proof (Nat.mod_upper_bound (x + y - 1) y). nia. Qed.
Lemma ser_chunks_spec (ser : nat -> nat -> outcome (list N)) image hd len c0 : 0 < hd -> hd <= length image <= len -> hd <= c0 ->
  (forall c from, hd <= c -> (from = 0 \/ hd <= from) -> from <= length image -> ser c from = Ok (take c (drop from image))) ->
  exists b bs, ser_chunks hd len ser c0 = Ok (b :: bs) /\ concat (b :: bs) = image /\ hd <= length b /\ Forall (fun ch => length ch <= c0) (b :: bs).
Proof.
  intros Hhd Hl Hc0 Hser. unfold ser_chunks. rewrite decide_False by lia. set (c := if decide (len < c0) then len else c0).
  assert (Hc : hd <= c /\ c <= c0) by (unfold c; destruct (decide (len < c0)); lia). rewrite decide_False by lia.
  destruct (ser_iter_spec ser image hd c (ceil_div len c) 0) as (chunks & E & Hcc & Hlen & HF & Hfirst); [lia|lia|intros; apply Hser; (done || lia)|by left|lia|lia| |].
  - pose proof (ceil_div_ge len c). lia.
  - rewrite E. destruct Hfirst as (rest & ->).
    + intros H0. pose proof (ceil_div_ge len c) as Hcd. rewrite H0 in Hcd. lia.
    + exists (take c (drop 0 image)), rest. split; [done|]. split; [done|]. split; [rewrite take_length, drop_length; lia|].
      eapply Forall_impl; [exact HF|]. simpl. lia.
Qed.

(** * Dense matrices *)
Section dense.
Context {V : Type} `{RepOk V valid}.

Lemma dense_header_length rows cols : length (dense_header (V := V) rows cols) = HD.
Proof. unfold dense_header, df_header, df_body, df_block. rewrite !app_length, !le_nat_length. done. Qed.
Lemma enc_all_length (l : list V) : length (enc_all l) = length l * vsize.
Proof. apply concat_fmap_length. apply rep_len. Qed.
Definition dense_image (a : dmat V) : list N :=
  dense_header (V := V) (m_rows a) (m_cols a) ++ take (m_rows a * m_cols a * vsize) (enc_all (drop (m_off a) (m_buf a))).
(** Enough memory behind getValues(). *)
Definition dense_mem (a : dmat V) : Prop := m_rows a * m_cols a <= length (drop (m_off a) (m_buf a)).
Lemma dense_image_length a : dense_mem a -> length (dense_image a) = dlen (V := V) (m_rows a) (m_cols a).
Proof. intros Hm. unfold dense_image, dlen. rewrite app_length, dense_header_length, take_length, enc_all_length. unfold dense_mem in Hm. nia. Qed.

Lemma dense_ser_spec a chunk from : dense_mem a -> chunk <> 0 -> (from = 0 -> HD <= chunk) -> (from = 0 \/ HD <= from) -> from <= dlen (V := V) (m_rows a) (m_cols a) ->
  dense_ser a chunk from = Ok (take chunk (drop from (dense_image a))).
Proof.
  intros Hm Hc0 Hc Hf Hle. unfold dense_ser, dlen in *. rewrite (decide_True (P := chunk <> 0)) by done.
  set (vals := m_rows a * m_cols a * vsize) in *. set (mem := enc_all (drop (m_off a) (m_buf a))).
  assert (Hml : vals <= length mem) by (unfold vals, mem; rewrite enc_all_length; unfold dense_mem in Hm; nia).
  destruct (decide (from = 0 /\ chunk < HD)) as [Hx|Hx]; [destruct Hx; lia|clear Hx].
  unfold dense_image. fold vals mem. pose proof (dense_header_length (m_rows a) (m_cols a)) as Hhl.
  destruct (decide (from = 0)) as [->|Hf0].
  - specialize (Hc eq_refl). unfold dense_bytes. rewrite (decide_True (P := 0 < HD)) by (unfold HD; lia). cbn [obind]. rewrite Hhl.
    rewrite (decide_False (P := HD < 0)) by (unfold HD; lia). rewrite drop_0. destruct (decide (HD - 0 + vals < chunk)) as [Hb|Hb].
    + rewrite rdn_Ok by lia. cbn [obind]. f_equal. rewrite drop_0. symmetry. apply take_ge. rewrite app_length, Hhl, take_length. lia.
    + rewrite rdn_Ok by lia. cbn [obind]. f_equal. rewrite drop_0. replace chunk with (HD + (chunk - HD)) at 2 by lia.
      rewrite <- Hhl. rewrite firstn_app_2. f_equal. rewrite take_take. f_equal. rewrite Hhl. lia.
  - destruct Hf as [?|Hf]; [done|]. unfold dense_bytes. rewrite (decide_False (P := from < HD)) by lia. cbn [length app].
    assert (Hdrop : drop from (dense_header (V := V) (m_rows a) (m_cols a) ++ take vals mem) = drop (from - HD) (take vals mem)).
    { replace from with (HD + (from - HD)) at 1 by lia. rewrite <- drop_drop. f_equal. }
    rewrite Hdrop. assert (Hst : (if decide (HD < from) then from - HD else 0) = from - HD) by (destruct (decide (HD < from)); lia). rewrite Hst.
    destruct (decide (vals + HD < from + chunk)) as [Hb|Hb].
    + rewrite (decide_False (P := vals + HD < from)) by lia. cbn [obind]. rewrite rdn_Ok by lia. cbn [obind app]. f_equal.
      rewrite (take_ge (drop _ _) chunk) by (rewrite drop_length, take_length; lia). rewrite take_drop_commute. f_equal. f_equal. lia.
    + cbn [obind]. rewrite rdn_Ok by lia. cbn [obind app]. f_equal. rewrite Nat.sub_0_r. rewrite !take_drop_commute. rewrite take_take. f_equal. f_equal. lia.
Qed.

Lemma rd_take {A} (hb buf : list A) n i x : take n buf = hb -> hb !! i = Some x -> rd buf i = Ok x.
Proof. intros <- Hi. apply rd_Ok. apply lookup_take_Some in Hi. tauto. Qed.
Lemma rdn_take {A} (hb buf : list A) n i k : take n buf = hb -> i + k <= length hb -> rdn buf i k = Ok (take k (drop i hb)).
Proof.
  intros <- Hi. rewrite take_length in Hi. rewrite rdn_Ok by lia. f_equal. rewrite <- (take_drop n buf) at 1.
  rewrite drop_app_le by (rewrite take_length; lia). rewrite take_app_le by (rewrite drop_length, take_length; lia). done.
Qed.
Lemma dense_header_parse alloc buf rows cols o : take HD buf = dense_header (V := V) rows cols -> fits32 rows -> fits32 cols ->
  dense_deser_header (V := V) alloc buf o =
    Ok (Some match o with Some o => o | None => mkDO rows cols (alloc (rows * cols * vsize)) end).
Proof.
  intros Ht Hr Hc. unfold dense_deser_header. pose proof (dense_header_length rows cols) as Hl.
  rewrite (rd_take _ _ _ 1 DT_DENSE Ht) by done. cbn [obind]. rewrite decide_False by auto.
  rewrite (rd_take _ _ _ 18 vcode Ht) by done. cbn [obind]. rewrite decide_False by auto.
  rewrite (rdn_take _ _ _ 35 4 Ht) by (rewrite Hl; unfold HD; lia). cbn [obind].
  rewrite (rdn_take _ _ _ 39 4 Ht) by (rewrite Hl; unfold HD; lia). cbn [obind].
  rewrite (rd_take _ _ _ 43 BT_DENSE Ht) by done. cbn [obind]. rewrite decide_False by done. rewrite decide_True by done.
  replace (take 4 (drop 35 (dense_header (V := V) rows cols))) with (le_nat 4 rows) by done.
  replace (take 4 (drop 39 (dense_header (V := V) rows cols))) with (le_nat 4 cols) by done.
  rewrite !unle_nat_4 by done. by destruct o.
Qed.

Lemma dense_receiver alloc a : (forall n, length (alloc n) = n) -> dense_mem a -> fits32 (m_rows a) -> fits32 (m_cols a) ->
  receiver (dense_deser_header (V := V) alloc) (dense_deser (V := V) alloc) do_mem
    (fun o => do_rows o = m_rows a /\ do_cols o = m_cols a /\ length (do_mem o) = m_rows a * m_cols a * vsize) (dense_image a) HD.
Proof.
  intros Hal Hm Hr Hc. pose proof (dense_image_length a Hm) as Hil. pose proof (dense_header_length (m_rows a) (m_cols a)) as Hhl.
  assert (Himg : take HD (dense_image a) = dense_header (V := V) (m_rows a) (m_cols a)) by (unfold dense_image; by rewrite take_app_alt).
  unfold dlen in Hil. set (vals := m_rows a * m_cols a * vsize) in *.
  split; [lia|]. split; [unfold HD; lia|]. split; [intros o (_ & _ & ->); lia|]. split.
  - intros buf Hb. rewrite Himg in Hb. eexists. split; [by apply dense_header_parse|]. cbn. split; [done|]. split; [done|]. apply Hal.
  - intros buf o from Hag (Hor & Hoc & Hol) Hb0 Hf. unfold dense_deser.
    destruct (decide (from = 0 /\ length buf < HD)) as [[? ?]|_]; [lia|].
    assert (Hh : (if decide (from = 0) then dense_deser_header (V := V) alloc buf (Some o) else Ok (Some o)) = Ok (Some o)).
    { destruct (decide (from = 0)) as [->|]; [|done]. rewrite (dense_header_parse alloc buf (m_rows a) (m_cols a)); [done| |done|done]. rewrite <- Himg. apply agrees_header; [done|lia|lia]. }
    rewrite Hh. cbn [obind]. destruct (decide (from <> 0 /\ from < HD)) as [[? ?]|_]; [lia|]. rewrite Hor, Hoc. fold vals.
    set (bidx := if decide (from = 0) then HD else 0). set (off := if decide (from = 0) then 0 else from - HD).
    fold vals in Hol. destruct Hag as [Hle Hag].
    assert (Hn : exists n, dense_bytes (length buf) from bidx vals = Ok n /\ n = length buf `min` (HD + vals - from) - bidx /\ from + bidx = HD + off).
    { unfold dense_bytes, bidx, off. destruct (decide (from = 0)) as [->|Hf0].
      - rewrite decide_True by (unfold HD; lia). eexists. split; [done|]. split; [|lia]. destruct (decide _); lia.
      - rewrite decide_False by lia. destruct (decide (vals + HD < from + length buf)) as [Hb|Hb].
        + rewrite decide_False by lia. eexists. split; [done|]. lia.
        + eexists. split; [done|]. lia. }
    destruct Hn as (n & -> & Hn & Hoff). cbn [obind].
    assert (Hbo : bidx <= length buf /\ bidx <= HD /\ (from = 0 \/ bidx = 0)). { unfold bidx. destruct (decide (from = 0)) as [->|]; lia. }
    destruct (copy_range_spec (do_mem o) off buf bidx n) as (mem & -> & Hml & Hm1 & Hm2); [lia|lia|]. cbn [obind].
    eexists. split; [done|]. cbn. split; [split; [done|]; split; [done|lia]|].
    intros p. destruct (decide (from <= HD + p < from + length buf)) as [Hp|Hp].
    + destruct (decide (HD + p < HD + vals)) as [Hpv|Hpv].
      * assert (off <= p) as Hop by (unfold off, bidx in *; destruct (decide (from = 0)); lia).
        replace p with (off + (p - off)) by lia. rewrite Hm1 by lia. rewrite Hag by lia. f_equal. lia.
      * rewrite (lookup_ge_None_2 (dense_image a)) by lia. apply lookup_ge_None_2. cbn. lia.
    + apply Hm2. lia.
Qed.

Lemma dense_of_image a x o : is_dense a (m_rows a) (m_cols a) x -> contiguous a -> dense_mem a ->
  (forall r c, r < m_rows a -> c < m_cols a -> valid (x r c)) ->
  do_rows o = m_rows a -> do_cols o = m_cols a -> do_mem o = drop HD (dense_image a) -> holds_dense o (m_rows a) (m_cols a) x.
Proof.
  intros Hd Hct Hm Hv Hr Hc Hmem. split; [done|]. split; [done|]. split; [rewrite Hmem, drop_length, dense_image_length by done; unfold dlen; lia|].
  intros r c Hrr Hcc. rewrite Hmem. unfold dense_image. rewrite drop_app_alt by (by rewrite dense_header_length).
  unfold enc_all. rewrite take_concat_fmap by apply rep_len.
  set (i := r * m_cols a + c). assert (Hi : i < m_rows a * m_cols a) by (unfold i; nia).
  destruct Hd as (_ & _ & _ & _ & Hx). specialize (Hx r c Hrr Hcc).
  assert (Hl : take (m_rows a * m_cols a) (drop (m_off a) (m_buf a)) !! i = Some (x r c)).
  { rewrite lookup_take by done. rewrite lookup_drop. replace (m_off a + i) with (m_off a + r * m_skip a + c) by (unfold contiguous in Hct; rewrite Hct; unfold i; lia).
    exact Hx. }
  rewrite <- (app_nil_r (concat _)). rewrite (word_concat _ _ _ _ (x r c)); [|apply rep_len|done]. apply rep_inv. by apply Hv.
Qed.
End dense.

(** * Sparse matrices *)
Section sparse.
Context {V : Type} `{RepOk V valid} `{Val V}.
Implicit Types (b : csrbuf V) (rs : list (row V)).

Lemma csr_header_length rows cols nzb : length (csr_header_bytes (V := V) rows cols nzb) = HS.
Proof. unfold csr_header_bytes, df_header, df_body, df_block. rewrite !app_length, !le_nat_length. done. Qed.
Definition le8s (l : list nat) : list N := concat (le_nat 8 <$> l).
Lemma le8s_length l : length (le8s l) = length l * 8.
Proof. apply concat_fmap_length. apply le_nat_length. Qed.
Definition sparse_image (cols : nat) rs : list N :=
  ((csr_header_bytes (V := V) (length rs) cols (stored rs) ++ le8s (offsets 0 rs)) ++ le8s (concat rs).*1) ++ enc_all (concat rs).*2.
Lemma sparse_image_length cols rs : length (sparse_image cols rs) = slen (V := V) (length rs) (stored rs).
Proof.
  unfold sparse_image, slen. rewrite !app_length, csr_header_length, !le8s_length, enc_all_length, offsets_length, !fmap_length. unfold stored. lia.
Qed.

Lemma csr_nzb_spec b h base rs : csr_reads b h base rs -> csr_nzb b h = Ok (stored rs).
Proof.
  intros HR. unfold csr_nzb. destruct (for_up_inv (fun i n => n = stored (take i rs)) 0 (h_rows h) (fun r n => let* x := csr_row_nnz b h r in Ok (n + x)) 0) as (n & -> & ->).
  - lia.
  - done.
  - intros i n Hi ->. rewrite <- (rd_rows _ _ _ _ HR) in Hi. destruct (lookup_lt_is_Some_2 rs i) as [l Hl]; [lia|].
    rewrite (reads_row_nnz _ _ _ _ _ _ HR Hl). cbn [obind]. eexists. split; [done|]. change (1 + i) with (S i). by rewrite (stored_take_S _ _ _ Hl).
  - rewrite <- (rd_rows _ _ _ _ HR), (take_ge rs (length rs)) by done. done.
Qed.
Lemma offsets_take rs i : i <= length rs -> offsets 0 rs !! i = Some (stored (take i rs)).
Proof. intros Hi. by rewrite offsets_lookup. Qed.
Lemma rebased_spec b h base rs : csr_reads b h base rs -> rebased b h = Ok (offsets 0 rs).
Proof.
  intros HR. unfold rebased. rewrite (rd_off _ _ _ _ HR) by lia. cbn [obind take]. change (stored []) with 0. rewrite Nat.add_0_r.
  destruct (for_up_inv (fun i l => l = take i (offsets 0 rs)) 0 (h_rows h + 1) (fun r l => let* x := roff b h r in Ok (l ++ [x - base])) []) as (l & -> & ->).
  - lia.
  - done.
  - intros i l Hi ->. rewrite <- (rd_rows _ _ _ _ HR) in Hi. rewrite (rd_off _ _ _ _ HR) by lia. cbn [obind]. eexists. split; [done|].
    symmetry. replace (base + stored (take i rs) - base) with (stored (take i rs)) by lia. apply take_S_r. apply offsets_take. lia.
  - f_equal. apply take_ge. rewrite offsets_length, <- (rd_rows _ _ _ _ HR). lia.
Qed.

Lemma ser_section_spec chunk from pre sec src out : take (length sec) src = sec -> length sec <= length src ->
  out = take chunk (drop from pre) ->
  ser_section chunk from (length pre) (length sec) src out = Ok (take chunk (drop from (pre ++ sec))).
Proof.
  intros Hsec Hlen Hout. unfold ser_section. assert (Hol : length out = chunk `min` (length pre - from)) by (by rewrite Hout, take_length, drop_length).
  destruct (decide (from < length pre + length sec)) as [Hin|Hin].
  - destruct (decide (from < length pre)) as [Hf|Hf].
    + rewrite (decide_False (P := length pre < from)) by lia.
      assert (exists n, n = (length sec `min` (chunk - length out)) /\ (if decide (length sec < chunk - length out) then length sec else chunk - length out) = n) as (n & Hn & ->).
      { eexists. split; [done|]. destruct (decide _); lia. }
      rewrite rdn_Ok by lia. cbn [obind]. f_equal. rewrite drop_0. rewrite drop_app_le by lia.
      rewrite firstn_app, drop_length. rewrite <- Hout. f_equal. rewrite <- Hsec. rewrite take_take. rewrite Hol in Hn.
      replace (chunk - (length pre - from)) with (chunk - chunk `min` (length pre - from)) by lia. f_equal. lia.
    + assert (out = []) as -> by (apply length_zero_iff_nil; lia).
      assert ((if decide (length pre < from) then from - length pre else 0) = from - length pre) as -> by (destruct (decide _); lia).
      assert (exists n, n = ((length pre + length sec - from) `min` chunk) /\ (if decide (length sec + length pre - from < chunk) then length sec + length pre - from else chunk - length (@nil N)) = n) as (n & Hn & ->).
      { eexists. split; [done|]. simpl. destruct (decide _); lia. }
      rewrite rdn_Ok by lia. cbn [obind app]. f_equal. rewrite drop_app_ge by lia. rewrite <- Hsec. rewrite !take_drop_commute, take_take. f_equal. f_equal. lia.
  - rewrite Hout. f_equal. rewrite !drop_ge; [done| |]; rewrite ?app_length; lia.
Qed.
Lemma take_full chunk from (pre sec : list N) : chunk <= length (take chunk (drop from pre)) -> take chunk (drop from (pre ++ sec)) = take chunk (drop from pre).
Proof.
  intros Hl. rewrite take_length, drop_length in Hl. destruct (decide (chunk = 0)) as [->|Hc]; [done|].
  rewrite drop_app_le by lia. rewrite take_app_le; [done|]. rewrite drop_length. lia.
Qed.

Lemma csr_ser_spec b h base rs chunk from : csr_reads b h base rs -> HS <= chunk -> (from = 0 \/ HS <= from) ->
  csr_ser b h chunk from = Ok (take chunk (drop from (sparse_image (h_cols h) rs))).
Proof.
  intros HR Hc Hf. unfold csr_ser.
  assert (exists len, csr_len b h = Ok len) as [len ->]. { unfold csr_len. rewrite (csr_nzb_spec _ _ _ _ HR). destruct (csr_isView h); cbn [obind]; by eexists. }
  cbn [obind]. rewrite (decide_True (P := chunk <> 0)) by (unfold HS in Hc; lia). rewrite decide_False by lia.
  unfold csr_header. rewrite (csr_nzb_spec _ _ _ _ HR). cbn [obind].
  set (hb := csr_header_bytes (V := V) (h_rows h) (h_cols h) (stored rs)). assert (Hhl : length hb = HS) by apply csr_header_length.
  assert (Hout0 : (if decide (from = 0) then Ok hb else Ok []) = Ok (take chunk (drop from hb))).
  { destruct (decide (from = 0)) as [->|]; [rewrite drop_0, take_ge by lia; done|]. rewrite drop_ge by lia. by rewrite take_nil. }
  rewrite Hout0. cbn [obind]. rewrite (rebased_spec _ _ _ _ HR). cbn [obind].
  pose proof (rd_off _ _ _ _ HR 0 ltac:(lia)) as Hr0. change (stored (take 0 rs)) with 0 in Hr0. rewrite Nat.add_0_r in Hr0. rewrite Hr0. cbn [obind].
  assert (Hro : length (le8s (offsets 0 rs)) = (h_rows h + 1) * 8). { rewrite le8s_length, offsets_length, <- (rd_rows _ _ _ _ HR). lia. }
  rewrite <- Hro, <- Hhl at 1. fold (le8s (offsets 0 rs)). rewrite (ser_section_spec chunk from hb (le8s (offsets 0 rs))); [|by apply take_ge|done|done].
  cbn [obind]. set (p1 := hb ++ le8s (offsets 0 rs)). 
  assert (Himg : sparse_image (h_cols h) rs = (p1 ++ le8s (concat rs).*1) ++ enc_all (concat rs).*2).
  { unfold sparse_image, p1, hb. by rewrite (rd_rows _ _ _ _ HR). }
  rewrite Himg. destruct (decide (chunk <= length (take chunk (drop from p1)))) as [He|He].
  { rewrite <- app_assoc. by rewrite take_full. }
  assert (Hci : length (le8s (concat rs).*1) = stored rs * 8) by (rewrite le8s_length, fmap_length; done).
  assert (Hva : length (enc_all (concat rs).*2) = stored rs * vsize) by (rewrite enc_all_length, fmap_length; done).
  pose proof (reads_slice_cols _ _ _ _ HR) as Hsc. pose proof (reads_slice_vals _ _ _ _ HR) as Hsv.
  assert (Hlc : stored rs <= length (drop base (bcols b))). { apply (f_equal length) in Hsc. rewrite take_length, fmap_length in Hsc. unfold stored in *. lia. }
  assert (Hlv : stored rs <= length (drop base (bvals b))). { apply (f_equal length) in Hsv. rewrite take_length, fmap_length in Hsv. unfold stored in *. lia. }
  assert (Hp1 : length p1 = HS + (h_rows h + 1) * 8) by (unfold p1; rewrite app_length; lia).
  rewrite ?Hhl, ?Hro, <- Hp1, <- Hci. fold (le8s (drop base (bcols b))).
  rewrite (ser_section_spec chunk from p1 (le8s (concat rs).*1)); [|rewrite Hci; unfold le8s; rewrite take_concat_fmap by apply le_nat_length; by rewrite Hsc|rewrite Hci, le8s_length; lia|done].
  cbn [obind]. set (p2 := p1 ++ le8s (concat rs).*1). destruct (decide (chunk <= length (take chunk (drop from p2)))) as [He2|He2].
  { by rewrite take_full. }
  replace (length p1 + length (le8s (concat rs).*1)) with (length p2) by (unfold p2; rewrite app_length; lia). rewrite <- Hva.
  apply ser_section_spec; [|rewrite Hva, enc_all_length; nia|done].
  rewrite Hva. unfold enc_all. rewrite take_concat_fmap by apply rep_len. by rewrite Hsv.
Qed.

Lemma csr_header_parse buf rows cols nzb o : take HS buf = csr_header_bytes (V := V) rows cols nzb -> fits32 rows -> fits32 cols -> fits64 nzb ->
  csr_deser_header (V := V) buf o = Ok (Some match o with Some o => o | None =>
    mkSO rows cols nzb (replicate ((rows + 1) * 8) 0%N) (replicate (nzb * 8) 0%N) (replicate (nzb * vsize) 0%N) end).
Proof.
  intros Ht Hr Hc Hz. unfold csr_deser_header. pose proof (csr_header_length rows cols nzb) as Hl.
  rewrite (rd_take _ _ _ 1 DT_CSR Ht) by done. cbn [obind]. rewrite decide_False by auto.
  rewrite (rd_take _ _ _ 18 vcode Ht) by done. cbn [obind]. rewrite decide_False by auto.
  rewrite (rdn_take _ _ _ 35 4 Ht) by (rewrite Hl; unfold HS; lia). cbn [obind].
  rewrite (rdn_take _ _ _ 39 4 Ht) by (rewrite Hl; unfold HS; lia). cbn [obind].
  rewrite (rd_take _ _ _ 43 BT_SPARSE Ht) by done. cbn [obind]. rewrite decide_False by done. rewrite decide_True by done.
  rewrite (rdn_take _ _ _ 45 8 Ht) by (rewrite Hl; unfold HS; lia). cbn [obind].
  replace (take 4 (drop 35 (csr_header_bytes (V := V) rows cols nzb))) with (le_nat 4 rows) by done.
  replace (take 4 (drop 39 (csr_header_bytes (V := V) rows cols nzb))) with (le_nat 4 cols) by done.
  replace (take 8 (drop 45 (csr_header_bytes (V := V) rows cols nzb))) with (le_nat 8 nzb) by done.
  rewrite !unle_nat_4, unle_nat_8 by done. by destruct o.
Qed.

Lemma deser_section_spec image buf from ser bidx dst : agrees image buf from -> ser + length dst <= length image ->
  bidx = length buf `min` (ser - from) ->
  exists dst', deser_section buf (length buf) from ser (length dst) bidx dst = Ok (dst', length buf `min` (ser + length dst - from)) /\ length dst' = length dst /\
    forall q, q < length dst -> dst' !! q = if decide (from <= ser + q < from + length buf) then image !! (ser + q) else dst !! q.
Proof.
  intros [Hle Hag] Him Hb. unfold deser_section. set (arr := length dst) in *. set (chunk := length buf) in *.
  destruct (decide (from < ser + arr)) as [Hin|Hin].
  - set (off := if decide (from < ser) then 0 else from - ser).
    set (n := if decide (from < ser) then _ else _).
    assert (Hn : off + n <= arr /\ bidx + n = chunk `min` (ser + arr - from) /\ (n = 0 \/ from + bidx = ser + off)).
    { unfold off, n. destruct (decide (from < ser)); destruct (decide (ser + arr < from + chunk)); lia. }
    destruct Hn as (Hn1 & Hn2 & Hn3).
    destruct (copy_range_spec dst off buf bidx n) as (dst' & -> & Hl & H1' & H2'); [done|fold chunk; lia|]. cbn [obind]. rewrite Hn2.
    exists dst'. split; [done|]. split; [done|]. intros q Hq. destruct (decide (from <= ser + q < from + chunk)) as [Hp|Hp].
    + assert (Hoq : off <= q < off + n). { unfold off, n in *. destruct (decide (from < ser)); destruct (decide (ser + arr < from + chunk)); lia. }
      replace q with (off + (q - off)) at 1 by lia. rewrite H1' by lia. rewrite Hag by (fold chunk; lia). f_equal. lia.
    + apply H2'. intros Hx. destruct Hn3 as [->|Hn3]; lia.
  - exists dst. rewrite Hb. split; [f_equal; f_equal; lia|]. split; [done|]. intros q Hq. destruct (decide _) as [Hp|Hp]; [lia|done].
Qed.

Definition so_flat (o : sobj) : list N := so_ro o ++ so_ci o ++ so_va o.
Definition sobj_shape cols rs (o : sobj) : Prop := so_rows o = length rs /\ so_cols o = cols /\ so_max o = stored rs /\
  length (so_ro o) = (length rs + 1) * 8 /\ length (so_ci o) = stored rs * 8 /\ length (so_va o) = stored rs * vsize.

Lemma lookup_app3 {A} (a b c : list A) p : (a ++ b ++ c) !! p =
  if decide (p < length a) then a !! p else if decide (p < length a + length b) then b !! (p - length a) else c !! (p - length a - length b).
Proof.
  destruct (decide (p < length a)); [by apply lookup_app_l|]. rewrite lookup_app_r by lia. destruct (decide (p < length a + length b)); [by rewrite lookup_app_l by lia|].
  by rewrite lookup_app_r by lia.
Qed.

Lemma sparse_receiver cols rs : fits32 (length rs) -> fits32 cols -> fits64 (stored rs) ->
  receiver (csr_deser_header (V := V)) (csr_deser (V := V)) so_flat (sobj_shape cols rs) (sparse_image cols rs) HS.
Proof.
  intros Hr Hc Hz. pose proof (sparse_image_length cols rs) as Hil. unfold slen in Hil.
  set (A := (length rs + 1) * 8) in *. set (B := stored rs * 8) in *. set (C := stored rs * vsize) in *.
  assert (Himg : take HS (sparse_image cols rs) = csr_header_bytes (V := V) (length rs) cols (stored rs)).
  { unfold sparse_image. rewrite <- !app_assoc. apply take_app_alt. symmetry. apply csr_header_length. }
  split; [lia|]. split; [unfold HS; lia|]. split; [|split].
  - intros o (_ & _ & _ & H1' & H2' & H3'). unfold so_flat. rewrite !app_length. fold A in H1'. fold B in H2'. fold C in H3'. lia.
  - intros buf Hb. rewrite Himg in Hb. eexists. split; [by apply csr_header_parse|]. split; [done|]. split; [done|]. split; [done|]. cbn. by rewrite !replicate_length.
  - intros buf o from Hag (Ho1 & Ho2 & Ho3 & Hl1 & Hl2 & Hl3) Hb0 Hf. unfold csr_deser. fold A in Hl1. fold B in Hl2. fold C in Hl3.
    destruct (decide (from = 0 /\ length buf < HS)) as [[? ?]|_]; [lia|].
    assert (Hh : (if decide (from = 0) then csr_deser_header (V := V) buf (Some o) else Ok (Some o)) = Ok (Some o)).
    { destruct (decide (from = 0)) as [->|]; [|done]. rewrite (csr_header_parse buf (length rs) cols (stored rs)); [done| |done|done|done]. rewrite <- Himg. apply agrees_header; [done|lia|lia]. }
    rewrite Hh. cbn [obind]. destruct (decide (from <> 0 /\ from < HS)) as [[? ?]|_]; [lia|].
    rewrite Ho1, Ho3. fold A. fold B. fold C.
    assert (Hbidx : (if decide (from = 0) then HS else 0) = length buf `min` (HS - from)). { destruct (decide (from = 0)) as [->|]; lia. }
    rewrite Hbidx.
    destruct (deser_section_spec _ buf from HS (length buf `min` (HS - from)) (so_ro o) Hag) as (ro & E1 & Lr & P1); [lia|done|].
    rewrite Hl1 in E1. rewrite E1. cbn [obind].
    assert (Hfin : forall ro' ci' va', length ro' = A -> length ci' = B -> length va' = C ->
      (forall q, q < A -> ro' !! q = if decide (from <= HS + q < from + length buf) then sparse_image cols rs !! (HS + q) else so_ro o !! q) ->
      (forall q, q < B -> ci' !! q = if decide (from <= HS + A + q < from + length buf) then sparse_image cols rs !! (HS + A + q) else so_ci o !! q) ->
      (forall q, q < C -> va' !! q = if decide (from <= HS + A + B + q < from + length buf) then sparse_image cols rs !! (HS + A + B + q) else so_va o !! q) ->
      exists o', Ok (mkSO (length rs) (so_cols o) (stored rs) ro' ci' va') = Ok o' /\ sobj_shape cols rs o' /\ patched so_flat (sparse_image cols rs) HS o o' from (length buf)).
    { intros ro' ci' va' L1 L2 L3 Q1 Q2 Q3. eexists. split; [done|]. split; [by repeat (split; [done|])|].
      intros p. unfold so_flat. cbn [so_ro so_ci so_va]. rewrite !lookup_app3, L1, L2, Hl1, Hl2. destruct (decide (p < A)) as [HA|HA]; [by apply Q1|].
      destruct (decide (p < A + B)) as [HB|HB].
      - rewrite Q2 by lia. by replace (HS + A + (p - A)) with (HS + p) by lia.
      - destruct (decide (p - A - B < C)) as [HC|HC].
        + rewrite Q3 by lia. by replace (HS + A + B + (p - A - B)) with (HS + p) by lia.
        + rewrite (lookup_ge_None_2 va'), (lookup_ge_None_2 (so_va o)), (lookup_ge_None_2 (sparse_image cols rs)) by lia. by destruct (decide (from <= HS + p < from + length buf)). }
    rewrite Hl1 in P1. destruct (decide (length buf <= length buf `min` (HS + A - from))) as [He|He].
    { apply Hfin; [lia|lia|lia|done| |]; intros q Hq; rewrite decide_False by lia; done. }
    destruct (deser_section_spec _ buf from (HS + A) (length buf `min` (HS + A - from)) (so_ci o) Hag) as (ci & E2 & Lc & P2); [lia|done|].
    rewrite Hl2 in E2. rewrite E2. cbn [obind]. rewrite Hl2 in P2.
    destruct (decide (length buf <= length buf `min` (HS + A + B - from))) as [He2|He2].
    { apply Hfin; [lia|lia|lia|done|done|]; intros q Hq; rewrite decide_False by lia; done. }
    destruct (deser_section_spec _ buf from (HS + A + B) (length buf `min` (HS + A + B - from)) (so_va o) Hag) as (va & E3 & Lv & P3); [lia|done|].
    rewrite Hl3 in E3. rewrite E3. cbn [obind]. rewrite Hl3 in P3. apply Hfin; (lia || done).
Qed.

Lemma fmap_dec (l : list V) : Forall valid l -> dec <$> (enc <$> l) = l.
Proof. induction 1 as [|v l Hv Hl IH]; [done|]. cbn. rewrite rep_inv by done. f_equal. exact IH. Qed.
Lemma fmap_unle8 (l : list nat) : Forall fits64 l -> unle_nat <$> (le_nat 8 <$> l) = l.
Proof. induction 1 as [|v l Hv Hl IH]; [done|]. cbn [fmap list_fmap]. rewrite unle_nat_8 by done. f_equal. exact IH. Qed.
Lemma sparse_of_image cols rs o : sobj_shape cols rs o -> so_flat o = drop HS (sparse_image cols rs) ->
  Forall (row_ok cols) rs -> fits32 cols -> fits64 (stored rs) -> Forall valid (concat rs).*2 -> holds_sparse o (length rs) cols rs.
Proof.
  intros (Ho1 & Ho2 & Ho3 & Hl1 & Hl2 & Hl3) Hflat Hok Hc32 H64 Hv.
  unfold sparse_image in Hflat. rewrite <- !app_assoc in Hflat. rewrite drop_app_alt in Hflat by (by rewrite csr_header_length). unfold so_flat in Hflat.
  apply app_inj_1 in Hflat as [E1 Hflat]; [|rewrite le8s_length, offsets_length; lia].
  apply app_inj_1 in Hflat as [E2 E3]; [|rewrite le8s_length, fmap_length; done].
  assert (Hcols : Forall fits64 (concat rs).*1).
  { apply Forall_forall. intros x Hx. apply elem_of_list_fmap in Hx as ([c v] & -> & Hin). apply elem_of_list_In, in_concat in Hin as (l & Hl & Hin).
    apply elem_of_list_In in Hl. rewrite Forall_forall in Hok. destruct (Hok l Hl) as [_ HF]. rewrite Forall_forall in HF.
    assert (c < cols) as Hc by (apply HF; apply elem_of_list_fmap; exists (c, v); split; [done|by apply elem_of_list_In]). unfold fits64, fits32 in *. simpl. lia. }
  assert (Hoffs : Forall fits64 (offsets 0 rs)).
  { apply Forall_lookup. intros i x Hx. assert (i < length (offsets 0 rs)) as Hi by (by eapply lookup_lt_Some). rewrite offsets_length in Hi.
    rewrite offsets_take in Hx by lia. injection Hx as <-. pose proof (stored_take_le rs i). unfold fits64 in *. lia. }
  unfold holds_sparse, as_csr. rewrite Ho1, Ho2, Ho3, E1, E2, E3. unfold le8s, enc_all.
  assert (W1 : words 8 (length rs + 1) (concat (le_nat 8 <$> offsets 0 rs)) = le_nat 8 <$> offsets 0 rs).
  { rewrite <- (offsets_length 0 rs). rewrite <- (app_nil_r (concat _)). apply words_concat. apply le_nat_length. }
  assert (W2 : words 8 (stored rs) (concat (le_nat 8 <$> (concat rs).*1)) = le_nat 8 <$> (concat rs).*1).
  { unfold stored. rewrite <- (fmap_length fst (concat rs)). rewrite <- (app_nil_r (concat (le_nat 8 <$> _))). apply words_concat. apply le_nat_length. }
  assert (W3 : words vsize (stored rs) (concat (enc <$> (concat rs).*2)) = enc <$> (concat rs).*2).
  { unfold stored. rewrite <- (fmap_length snd (concat rs)). rewrite <- (app_nil_r (concat (enc <$> _))). apply words_concat. apply rep_len. }
  rewrite W1, W2, W3, fmap_dec, !fmap_unle8 by done.
  split; [|done]. split; cbn; [|done|lia|lia|by rewrite fmap_length]. split; [done|]. exists [], []. by rewrite !app_nil_r.
Qed.
End sparse.
