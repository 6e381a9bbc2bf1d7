(** Proofs about reading binary segments. *)
From stdpp Require Import base numbers list list_numbers.
From Coq Require Import NArith Lia.
From Verif Require Import CppBase Mem SerModel SerSpec SerProofs HdfsModel HdfsSpec.

(** * Finding the segment *)
(** The number of rows of segments. *)
Fixpoint tot {B} (segs : list (hseg B)) : nat := match segs with [] => 0 | s :: segs' => hs_rows s + tot segs' end.
Lemma find_segment_boundary {B} (segs : list (hseg B)) k seg skipped off mult :
  let start := skipped + tot (take k segs) in
  exists k', k' <= k /\ tot (take k' segs) = tot (take k segs) /\
    find_segment (Some <$> segs) seg skipped start off mult = Ok (seg + k', off).
Proof.
  cbn zeta. revert k seg skipped. induction segs as [|s segs IH]; intros k seg skipped.
  - exists 0. rewrite !take_nil. split; [lia|]. split; [done|]. cbn. rewrite decide_True by lia. f_equal. f_equal. lia.
  - destruct k as [|k].
    + exists 0. split; [done|]. split; [done|]. cbn. rewrite decide_True by lia. f_equal. f_equal. lia.
    + cbn [fmap list_fmap take tot find_segment]. destruct (decide (skipped = _)) as [E|E].
      * exists 0. cbn. split; [lia|]. split; [lia|]. f_equal. f_equal. lia.
      * rewrite decide_False by lia.
        destruct (IH k (S seg) (skipped + hs_rows s)) as (k' & Hk & Hs & E'). exists (S k'). split; [lia|]. split; [cbn; lia|].
        replace (skipped + (hs_rows s + tot (take k segs))) with (skipped + hs_rows s + tot (take k segs)) by lia.
        cbn [fmap list_fmap] in E'. rewrite E'. f_equal. f_equal. lia.
Qed.

Lemma find_segment_inside {B} (segs : list (hseg B)) k seg skipped off mult s d :
  segs !! k = Some s -> 0 < d < hs_rows s ->
  find_segment (Some <$> segs) seg skipped (skipped + tot (take k segs) + d) off mult = Ok (seg + k, off + d * mult).
Proof.
  revert k seg skipped. induction segs as [|s0 segs IH]; intros k seg skipped Hk Hd; [done|].
  destruct k as [|k].
  - injection Hk as ->. cbn. rewrite decide_False by lia. rewrite decide_True by lia. f_equal. f_equal; [lia|]. f_equal. f_equal. lia.
  - cbn [fmap list_fmap take tot find_segment]. cbn in Hk.
    rewrite decide_False by lia. rewrite decide_False by lia.
    replace (skipped + (hs_rows s0 + tot (take k segs)) + d) with (skipped + hs_rows s0 + tot (take k segs) + d) by lia.
    pose proof (IH k (S seg) (skipped + hs_rows s0) Hk Hd) as E. cbn [fmap list_fmap] in E. rewrite E. f_equal. f_equal. lia.
Qed.

(** Copying into the middle of an array. *)
Lemma copy_range_mid {A} (dst src : list A) d n : d + n <= length dst -> n <= length src ->
  copy_range dst d src 0 n = Ok (take d dst ++ take n src ++ drop (d + n) dst).
Proof.
  intros Hd Hs. destruct (copy_range_spec dst d src 0 n) as (b & E & L & H1 & H2); [done|lia|]. rewrite E. f_equal.
  apply list_eq. intros i. destruct (decide (i < d)) as [Hi|Hi].
  - rewrite H2 by lia. rewrite lookup_app_l by (rewrite take_length; lia). by rewrite lookup_take.
  - rewrite lookup_app_r by (rewrite take_length; lia). rewrite take_length, Nat.min_l by lia. destruct (decide (i < d + n)) as [Hn|Hn].
    + rewrite lookup_app_l by (rewrite take_length; lia). rewrite lookup_take by lia. replace i with (d + (i - d)) at 1 by lia. rewrite H1 by lia. done.
    + rewrite lookup_app_r by (rewrite take_length; lia). rewrite take_length, Nat.min_l by lia. rewrite lookup_drop. rewrite H2 by lia. f_equal. lia.
Qed.

Section binary.
Context {V : Type} `{RepOk V valid}.

Lemma deser_at alloc buf chunk (o : dobj) p n :
  let vals := do_rows o * do_cols o * vsize (V := V) in
  p <= vals -> length (do_mem o) = vals -> n = chunk `min` (vals - p) -> n <= length buf ->
  dense_deser (V := V) alloc buf chunk (Some o) (HD + p) = Ok (mkDO (do_rows o) (do_cols o) (take p (do_mem o) ++ take n buf ++ drop (p + n) (do_mem o))).
Proof.
  cbn zeta. intros Hp Hl Hn Hb. unfold dense_deser, dense_bytes. rewrite (decide_False (P := HD + p = 0 /\ chunk < HD)) by (unfold HD; lia).
  rewrite !(decide_False (P := HD + p = 0)) by (unfold HD; lia). cbn [obind].
  rewrite (decide_False (P := HD + p <> 0 /\ HD + p < HD)) by lia. rewrite (decide_False (P := HD + p < HD)) by lia.
  replace (HD + p - HD) with p by lia.
  destruct (decide (do_rows o * do_cols o * vsize (V := V) + HD < HD + p + chunk)) as [Hc|Hc].
  - rewrite decide_False by lia. cbn [obind]. replace (do_rows o * do_cols o * vsize (V := V) + HD - (HD + p)) with n by lia.
    rewrite copy_range_mid by lia. done.
  - cbn [obind]. replace (chunk - 0) with n by lia. rewrite copy_range_mid by lia. done.
Qed.

Lemma deser_at0 alloc buf chunk (o : dobj) n :
  let vals := do_rows o * do_cols o * vsize (V := V) in
  length (do_mem o) = vals -> n = chunk `min` vals -> n <= length buf ->
  dense_deser (V := V) alloc buf chunk (Some o) HD = Ok (mkDO (do_rows o) (do_cols o) (take 0 (do_mem o) ++ take n buf ++ drop (0 + n) (do_mem o))).
Proof. cbn zeta. intros Hl Hn Hb. pose proof (deser_at alloc buf chunk o 0 n) as E. rewrite Nat.add_0_r in E. apply E; lia. Qed.

(** A segment file: a header followed by the bytes [d] of the rows. *)
Definition seg_of (h : list N) (n : nat) (d : list N) : hseg N := mkHS n (h ++ d).
(** The files of segments with the bytes [ds], where a row has [rb] bytes. *)
Definition files (rb : nat) (segs : list (hseg N)) (ds : list (list N)) : Prop :=
  Forall2 (fun s d => exists h, length h = HD /\ s = seg_of h (hs_rows s) d /\ length d = hs_rows s * rb) segs ds.

(** One round at the beginning of a segment. *)
Lemma read_bin_loop_spec num cols rb segs ds : rb = cols * vsize (V := V) -> files rb segs ds ->
  forall parsed mem off, (parsed = 0 -> off = HD) -> parsed <= num -> num * rb <= parsed * rb + length (concat ds) -> (num <= parsed + tot segs) -> length mem = num * rb ->
  exists o, read_bin_loop (V := V) num cols (Some <$> segs) (mkDO num cols mem) parsed off (HD + parsed * rb) = Ok o /\
    do_rows o = num /\ do_cols o = cols /\ do_mem o = take (parsed * rb) mem ++ take ((num - parsed) * rb) (concat ds).
Proof.
  intros Hrb HF. induction HF as [|s d segs ds Hs HF IH]; intros parsed mem off Ho Hp Hlen Hsum Hm.
  - cbn in Hsum. cbn. rewrite decide_False by lia. eexists. split; [done|]. cbn. split; [done|]. split; [done|].
    rewrite take_ge by (cbn in Hlen; lia). rewrite take_nil. by rewrite app_nil_r.
  - cbn [fmap list_fmap read_bin_loop]. destruct (decide (parsed < num)) as [Hlt|Hlt]; cycle 1.
    { eexists. split; [done|]. cbn. split; [done|]. split; [done|]. replace (num - parsed) with 0 by lia. cbn. rewrite app_nil_r. rewrite take_ge; [done|nia]. }
    destruct Hs as (h & Hh & Es & Hd). set (n := hs_rows s) in *.
    assert (Hb : hs_bytes s = h ++ d) by (rewrite Es; done).
    assert (Hfs : length (hs_bytes s) = HD + n * rb) by (rewrite Hb, app_length; lia).
    cbn zeta.
    assert (Eoff : (if decide (parsed = 0) then off else HD) = HD) by (destruct (decide (parsed = 0)); auto). rewrite Eoff.
    rewrite decide_False by lia.
    assert (Edrop : drop HD (hs_bytes s) = d) by (rewrite Hb, <- Hh; apply drop_app).
    rewrite Edrop, Hfs, Hd. replace (HD + n * rb - n * rb) with HD by lia. set (z := replicate HD 0%N).
    assert (Hz : length z = HD) by apply replicate_length.
    set (be := if decide (num - parsed < n) then (num - parsed) * cols * vsize (V := V) else HD + n * rb).
    set (w := be `min` ((num - parsed) * rb)).
    rewrite (deser_at _ _ _ _ _ w); cycle 1.
    + cbn. nia.
    + cbn. rewrite Hm. nia.
    + cbn. unfold w. f_equal. nia.
    + rewrite app_length, Hd, Hz. unfold w, be. destruct (decide (num - parsed < n)); nia.
    + cbn [obind do_rows do_cols do_mem].
      destruct (decide (num - parsed < n)) as [Hpart|Hfull].
      * (* the last segment *)
        assert (Hw : w = (num - parsed) * rb) by (unfold w, be; nia).
        exists (mkDO num cols (take (parsed * rb) mem ++ take w (d ++ z) ++ drop (parsed * rb + w) mem)). split.
        { destruct segs; cbn [fmap list_fmap read_bin_loop]; rewrite decide_False by lia; done. }
        cbn. split; [done|]. split; [done|]. f_equal. rewrite Hw. rewrite (drop_ge mem) by nia. rewrite app_nil_r. rewrite !take_app_le by nia. done.
      * assert (Hw : n * rb <= w) by (unfold w, be; nia).
        unfold be. replace (HD + parsed * rb + (HD + n * rb - HD)) with (HD + (parsed + n) * rb) by nia.
        destruct (IH (parsed + n) (take (parsed * rb) mem ++ take w (d ++ z) ++ drop (parsed * rb + w) mem) HD) as (o & E & Hr & Hc & Hmem).
        -- done.
        -- lia.
        -- cbn [concat] in Hlen. rewrite app_length in Hlen. nia.
        -- unfold n. change (tot (s :: segs)) with (hs_rows s + tot segs) in Hsum. lia.
        -- rewrite !app_length, !take_length, drop_length, app_length, Hd, Hz, Hm.
           assert (w <= HD + n * rb) by (unfold w, be; lia). assert (w <= (num - parsed) * rb) by (unfold w; lia). nia.
        -- exists o. split; [exact E|]. split; [done|]. split; [done|]. rewrite Hmem. cbn [concat].
           assert (Hl1 : length (take (parsed * rb) mem) = parsed * rb) by (rewrite take_length; nia).
           replace ((parsed + n) * rb) with (length (take (parsed * rb) mem) + n * rb) by (rewrite Hl1; lia).
           rewrite firstn_app_2. rewrite <- app_assoc. f_equal.
           rewrite take_app_le by (rewrite take_length, app_length; nia). rewrite take_take. rewrite Nat.min_l by done. rewrite take_app_alt by done.
           replace ((num - parsed) * rb) with (length d + (num - (parsed + n)) * rb) by nia. by rewrite firstn_app_2.
Qed.

(** A range inside one segment. *)
Lemma read_bin_loop_inside num cols rb s rest d k mem : rb = cols * vsize (V := V) -> files rb [s] [d] -> k + num <= hs_rows s -> 0 < k -> length mem = num * rb ->
  read_bin_loop (V := V) num cols (Some s :: rest) (mkDO num cols mem) 0 (HD + k * rb) HD = Ok (mkDO num cols (take (num * rb) (drop (k * rb) d))).
Proof.
  intros Hrb HF Hk Hk0 Hm. inversion HF as [|? ? ? ? (h & Hh & Es & Hd) _]; subst. cbn [read_bin_loop].
  destruct (decide (0 < num)) as [Hn|Hn]; cycle 1.
  { assert (num = 0) as -> by lia. destruct mem; [done|done]. }
  set (n := hs_rows s) in *. set (rb := cols * vsize (V := V)) in *. assert (Hb : hs_bytes s = h ++ d) by (rewrite Es; done). cbn zeta.
  assert (Hfs : length (hs_bytes s) = HD + n * rb) by (rewrite Hb, app_length; lia).
  rewrite (decide_True (P := 0 = 0)) by done. rewrite decide_False by nia.
  assert (Edrop : drop (HD + k * rb) (hs_bytes s) = drop (k * rb) d) by (rewrite Hb, <- drop_drop, <- Hh, drop_app; done).
  rewrite Edrop, Hfs. set (z := replicate _ 0%N). rewrite (decide_True (P := num - 0 < n)) by lia.
  rewrite (deser_at0 _ _ _ _ (num * rb)); cycle 1.
  - cbn. rewrite Hm. unfold rb. lia.
  - cbn. unfold rb. nia.
  - rewrite app_length, drop_length. nia.
  - cbn [obind do_rows do_cols do_mem]. replace (take 0 mem) with (@nil N) by done. cbn [app]. rewrite (drop_ge mem) by lia. rewrite app_nil_r.
    rewrite take_app_le by (rewrite drop_length; nia).
    destruct rest as [|[?|] ?]; cbn [read_bin_loop]; rewrite decide_False by lia; done.
Qed.

(** * Rows that are not read *)
(** [mem'] differs from [mem] from position [p] on only by zeros. *)
Definition zeroed_from (p : nat) (mem mem' : list N) : Prop := length mem' = length mem /\ forall j, p <= j < length mem -> mem' !! j = mem !! j \/ mem' !! j = Some 0%N.
Lemma zeroed_trans p a b c : zeroed_from p a b -> zeroed_from p b c -> zeroed_from p a c.
Proof. intros (L1 & H1) (L2 & H2). split; [lia|]. intros j Hj. destruct (H2 j) as [->|?]; [lia| |by right]. by apply H1. Qed.
(** Copying [n] bytes of [src ++ zeros] to a position such that [src] ends before [p]. *)
Lemma zeroed_copy p (mem src : list N) nz q n : q + length src <= p -> q + n <= length mem -> n <= length src + nz ->
  zeroed_from p mem (take q mem ++ take n (src ++ replicate nz 0%N) ++ drop (q + n) mem).
Proof.
  intros Hp Hq Hn. split.
  - rewrite !app_length, !take_length, drop_length, app_length, replicate_length. lia.
  - intros j Hj. rewrite lookup_app_r by (rewrite take_length; lia). rewrite take_length, Nat.min_l by lia. destruct (decide (j < q + n)) as [Hl|Hl].
    + right. rewrite lookup_app_l by (rewrite take_length, app_length, replicate_length; lia). rewrite lookup_take by lia. rewrite lookup_app_r by lia. apply lookup_replicate_2. lia.
    + left. rewrite lookup_app_r by (rewrite take_length, app_length, replicate_length; lia). rewrite take_length, app_length, replicate_length, Nat.min_l by lia. rewrite lookup_drop. f_equal. lia.
Qed.

Lemma read_bin_loop_behind num cols rb segs ds : rb = cols * vsize (V := V) -> files rb segs ds ->
  forall parsed q mem off, q < parsed -> parsed <= num \/ num <= parsed -> num <= parsed + tot segs -> length mem = num * rb ->
  exists o, read_bin_loop (V := V) num cols (Some <$> segs) (mkDO num cols mem) parsed off (HD + q * rb) = Ok o /\
    do_rows o = num /\ do_cols o = cols /\ zeroed_from ((num - 1) * rb) mem (do_mem o).
Proof.
  intros Hrb HF. induction HF as [|s d segs ds Hs HF IH]; intros parsed q mem off Hq _ Hsum Hm.
  - cbn in Hsum. cbn. rewrite decide_False by lia. eexists. split; [done|]. cbn. split; [done|]. split; [done|]. split; [done|]. by left.
  - cbn [fmap list_fmap read_bin_loop]. destruct (decide (parsed < num)) as [Hlt|Hlt]; cycle 1.
    { eexists. split; [done|]. cbn. split; [done|]. split; [done|]. split; [done|]. by left. }
    destruct Hs as (h & Hh & Es & Hd). cbn [tot] in Hsum. set (n := hs_rows s) in *.
    assert (Hb : hs_bytes s = h ++ d) by (rewrite Es; done).
    assert (Hfs : length (hs_bytes s) = HD + n * rb) by (rewrite Hb, app_length; lia).
    cbn zeta. rewrite (decide_False (P := parsed = 0)) by lia. rewrite decide_False by lia.
    assert (Edrop : drop HD (hs_bytes s) = d) by (rewrite Hb, <- Hh; apply drop_app).
    rewrite Edrop, Hfs, Hd. replace (HD + n * rb - n * rb) with HD by lia.
    set (be := if decide (num - parsed < n) then (num - parsed) * cols * vsize (V := V) else HD + n * rb).
    set (w := be `min` ((num - q) * rb)). assert (Hw : w <= (num - q) * rb) by (unfold w; lia).
    rewrite (deser_at _ _ _ _ _ w); cycle 1.
    + cbn. nia.
    + cbn. rewrite Hm. nia.
    + cbn. unfold w. f_equal. nia.
    + rewrite app_length, Hd, replicate_length. unfold w, be. destruct (decide (num - parsed < n)); nia.
    + cbn [obind do_rows do_cols do_mem].
      destruct (decide (num - parsed < n)) as [Hpart|Hfull].
      * eexists. split.
        { destruct segs; cbn [fmap list_fmap read_bin_loop]; rewrite decide_False by lia; done. }
        cbn [do_rows do_cols do_mem]. split; [done|]. split; [done|].
        assert (Hwe : w <= (num - parsed) * rb) by (unfold w, be; nia).
        assert (Hwd : w <= length d) by nia.
        rewrite take_app_le by done. replace (take w d) with (take w (take w d ++ replicate 0 0%N)) by (cbn; rewrite app_nil_r, take_take; f_equal; lia).
        apply zeroed_copy; rewrite ?take_length; nia.
      * assert (Ebe : be = HD + n * rb) by (unfold be; done).
        replace (HD + q * rb + (be - HD)) with (HD + (q + n) * rb) by nia.
        assert (Hz : zeroed_from ((num - 1) * rb) mem (take (q * rb) mem ++ take w (d ++ replicate HD 0%N) ++ drop (q * rb + w) mem)).
        { apply zeroed_copy; [rewrite Hd; nia|rewrite Hm; nia|]. unfold w, be. lia. }
        set (mem1 := take (q * rb) mem ++ _) in *.
        destruct (IH (parsed + n) (q + n) mem1 HD) as (o & E & Hr & Hc & Hmem); [lia|lia|lia| |].
        { destruct Hz as (-> & _). exact Hm. }
        exists o. split; [exact E|]. split; [done|]. split; [done|]. eapply zeroed_trans; [exact Hz|exact Hmem].
Qed.

(** Starting inside a segment, at its row [k], and going on behind it: the last row is never filled. *)
Lemma read_bin_loop_across num cols rb s segs ds k mem : rb = cols * vsize (V := V) -> files rb (s :: segs) ds -> 0 < k < hs_rows s -> hs_rows s < k + num ->
  num <= hs_rows s + tot segs -> length mem = num * rb ->
  exists o, read_bin_loop (V := V) num cols (Some <$> (s :: segs)) (mkDO num cols mem) 0 (HD + k * rb) HD = Ok o /\
    do_rows o = num /\ do_cols o = cols /\ zeroed_from ((num - 1) * rb) mem (do_mem o).
Proof.
  intros Hrb HF Hk Hnum Htot Hm. inversion HF as [|? d ? ds' (h & Hh & Es & Hd) HF']; subst. cbn [fmap list_fmap read_bin_loop].
  rewrite decide_True by lia. set (n := hs_rows s) in *. set (rb := cols * vsize (V := V)) in *. assert (Hb : hs_bytes s = h ++ d) by (rewrite Es; done). cbn zeta.
  assert (Hfs : length (hs_bytes s) = HD + n * rb) by (rewrite Hb, app_length; lia).
  rewrite (decide_True (P := 0 = 0)) by done. rewrite decide_False by nia.
  assert (Edrop : drop (HD + k * rb) (hs_bytes s) = drop (k * rb) d) by (rewrite Hb, <- drop_drop, <- Hh, drop_app; done).
  assert (Hdl : length (drop (k * rb) d) = (n - k) * rb) by (rewrite drop_length; nia).
  rewrite Edrop, Hfs, Hdl. replace (HD + n * rb - (n - k) * rb) with (HD + k * rb) by nia.
  set (be := if decide (num - 0 < n) then (num - 0) * cols * vsize (V := V) else HD + n * rb).
  set (w := be `min` (num * rb)). assert (Hw : w <= num * rb) by (unfold w; lia).
  rewrite (deser_at0 _ _ _ _ w); cycle 1.
  - cbn. rewrite Hm. unfold rb. lia.
  - cbn. unfold w. f_equal. unfold rb. lia.
  - rewrite app_length, Hdl, replicate_length. unfold w, be, rb. destruct (decide (num - 0 < n)); nia.
  - cbn [obind do_rows do_cols do_mem].
    assert (Hz : zeroed_from ((num - 1) * rb) mem (take 0 mem ++ take w (drop (k * rb) d ++ replicate (HD + k * rb) 0%N) ++ drop (0 + w) mem)).
    { apply zeroed_copy; [rewrite Hdl; nia|rewrite Hm; nia|]. rewrite Hdl. unfold w, be, rb. destruct (decide (num - 0 < n)); nia. }
    destruct (decide (num - 0 < n)) as [Hpart|Hfull].
    + eexists. split.
      { destruct segs; cbn [fmap list_fmap read_bin_loop]; rewrite decide_False by lia; done. }
      done.
    + assert (Ebe : be = HD + n * rb) by (unfold be; done).
      replace (HD + (be - (HD + k * rb))) with (HD + (n - k) * rb) by nia.
      set (mem1 := take 0 mem ++ _) in *.
      destruct (read_bin_loop_behind num cols rb segs ds' eq_refl HF' (0 + n) (n - k) mem1 (HD + k * rb)) as (o & E & Hr & Hc & Hmem); [lia|lia|lia| |].
      { destruct Hz as (-> & _). exact Hm. }
      exists o. split; [exact E|]. split; [done|]. split; [done|]. eapply zeroed_trans; [exact Hz|exact Hmem].
Qed.
End binary.
