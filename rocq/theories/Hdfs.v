(** C73: datasets in several segment files. *)
From stdpp Require Import base numbers list list_numbers.
From Coq Require Import ZArith NArith Lia.
From Verif Require Import CppBase Mem SerModel SerSpec SerProofs Ser CsvModel Csv HdfsModel HdfsSpec HdfsProofs HdfsCsvProofs.
Local Open Scope nat_scope.

(** The row ranges [ranges] follow each other from [start] to [total]. *)
Fixpoint tiles_from (start : nat) (ranges : list (nat * nat)) (total : nat) : Prop :=
  match ranges with [] => start = total | (r, n) :: ranges' => r = start /\ tiles_from (start + n) ranges' total end.

Lemma Forall2_app_split {A B} (P : A -> B -> Prop) l k x y : Forall2 P l k -> Forall2 P x y -> Forall2 P (l ++ x) (k ++ y).
Proof. apply Forall2_app. Qed.
Lemma tot_lengths {B A} (segs : list (hseg B)) (rowss : list (list A)) : hs_rows <$> segs = length <$> rowss -> forall k, tot (take k segs) = length (concat (take k rowss)).
Proof.
  revert rowss. induction segs as [|s segs IH]; intros [|rows rowss] E k; try done.
  - by rewrite !take_nil.
  - cbn in E. injection E as E1 E2. destruct k as [|k]; [by rewrite !take_0|]. cbn [take tot concat]. rewrite app_length, (IH _ E2), E1. done.
Qed.
Lemma length_concat_take {A} (ls : list (list A)) k : length (concat (take k ls)) <= length (concat ls).
Proof. rewrite <- (take_drop k ls) at 2. rewrite concat_app, app_length. lia. Qed.
Lemma drop_concat {A} (ls : list (list A)) k : drop (length (concat (take k ls))) (concat ls) = concat (drop k ls).
Proof. rewrite <- (take_drop k ls) at 2. by rewrite concat_app, drop_app. Qed.

(** * Binary segments *)
Section binary.
Context {V : Type} `{RepOk V valid}.

Lemma enc_all_app (l k : list V) : enc_all (l ++ k) = enc_all l ++ enc_all k.
Proof. unfold enc_all. by rewrite fmap_app, concat_app. Qed.
Lemma take_enc (l : list V) n : take (n * vsize) (enc_all l) = enc_all (take n l).
Proof. apply take_concat_fmap. apply rep_len. Qed.
Lemma drop_enc (l : list V) n : drop (n * vsize) (enc_all l) = enc_all (drop n l).
Proof.
  destruct (decide (n <= length l)) as [Hn|Hn].
  - rewrite <- (take_drop n l) at 1. rewrite enc_all_app. apply drop_app_alt. rewrite enc_all_length, take_length. f_equal. lia.
  - rewrite !drop_ge; [done|lia|]. rewrite enc_all_length. nia.
Qed.
Lemma write_bin_ok (a : dmat V) rows : has_rows a rows -> contiguous a ->
  write_bin a = Ok (mkHS (length rows) (dense_header (V := V) (m_rows a) (m_cols a) ++ enc_all (concat rows))).
Proof.
  intros Hr Hc. pose proof (rows_all a rows Hr Hc) as Ha. pose proof (rows_width a rows Hr) as Hw. unfold write_bin.
  assert (Hmem : dense_mem a).
  { unfold dense_mem. pose proof (f_equal length Ha) as E. rewrite take_length, (concat_width (m_cols a)) in E by done. destruct Hr as (Hn & _). rewrite <- Hn in E. lia. }
  rewrite dense_ser_spec; [|done|unfold dlen, HD; lia|unfold dlen; lia|by left|lia]. cbn [obind]. rewrite drop_0. rewrite take_ge by (rewrite dense_image_length by done; lia).
  unfold dense_image. rewrite take_enc, Ha. destruct Hr as (Hn & _). rewrite Hn. done.
Qed.
Lemma bin_files m (parts : list (dmat V)) rowss : parts_have_rows m parts rowss ->
  exists segs, Forall2 (fun a s => write_bin a = Ok s) parts segs /\ files (m * vsize (V := V)) segs ((fun rows => enc_all (concat rows)) <$> rowss) /\ hs_rows <$> segs = length <$> rowss.
Proof.
  induction 1 as [|a rows parts rowss (Hr & Hm & Hc) _ (segs & HW & HF & HL)].
  - exists []. split; [constructor|]. split; [constructor|done].
  - pose proof (write_bin_ok a rows Hr Hc) as E. eexists (_ :: segs). split; [by constructor|]. split; [|cbn; by rewrite HL].
    cbn [fmap list_fmap]. constructor; [|done]. eexists. split; [apply dense_header_length|]. split; [done|]. cbn [hs_rows].
    rewrite enc_all_length. rewrite (concat_width m); [lia|]. rewrite <- Hm. by apply rows_width.
Qed.
Lemma parts_width m (parts : list (dmat V)) rowss : parts_have_rows m parts rowss -> Forall (fun row => length row = m) (concat rowss).
Proof. induction 1 as [|a rows parts rowss (Hr & Hm & Hc) _ IH]; [constructor|]. cbn. apply Forall_app. split; [|done]. rewrite <- Hm. by apply rows_width. Qed.
Lemma concat_enc (rowss : list (list (list V))) : concat ((fun rows => enc_all (concat rows)) <$> rowss) = enc_all (concat (concat rowss)).
Proof. induction rowss as [|rows rowss IH]; [done|]. cbn [fmap list_fmap concat]. cbn [fmap] in IH. by rewrite IH, concat_app, enc_all_app. Qed.
Lemma obj_of_enc o m rows : Forall (fun row => length row = m) rows -> Forall valid (concat rows) -> do_rows o = length rows -> do_cols o = m -> do_mem o = enc_all (concat rows) -> obj_has_rows o m rows.
Proof.
  intros Hw Hv Hr Hc Hm. split; [done|]. split; [done|]. rewrite Hm. rewrite <- (concat_width m) by done. unfold enc_all. rewrite <- (app_nil_r (concat (enc <$> _))).
  rewrite words_concat by apply rep_len. by apply fmap_dec.
Qed.
Lemma Forall_concat_range {A} (P : A -> Prop) (rows : list (list A)) s n : Forall P (concat rows) -> Forall P (concat (row_range s n rows)).
Proof.
  intros HF. unfold row_range. rewrite <- (take_drop s rows) in HF. rewrite concat_app in HF. apply Forall_app in HF as [_ HF].
  rewrite <- (take_drop n (drop s rows)) in HF. rewrite concat_app in HF. by apply Forall_app in HF as [HF _].
Qed.

(** Whatever the sizes of the segments: if the range of rows starts with a segment, or lies in one segment, exactly these rows are read. *)
Theorem C73_binary m (parts : list (dmat V)) rowss startRow num o :
  parts_have_rows m parts rowss -> Forall valid (concat (concat rowss)) -> startRow + num <= length (concat rowss) ->
  at_boundary startRow rowss \/ in_one_segment startRow num rowss ->
  do_rows o = num -> do_cols o = m -> length (do_mem o) = num * m * vsize (V := V) ->
  exists segs o', Forall2 (fun a s => write_bin a = Ok s) parts segs /\ read_bin (V := V) (Some <$> segs) o startRow = Ok o' /\
    obj_has_rows o' m (row_range startRow num (concat rowss)).
Proof.
  intros HP Hv Htot Hst Hr Hc Hm. pose proof (parts_width m parts rowss HP) as Hw.
  destruct (bin_files m parts rowss HP) as (segs & HW & HF & HL). exists segs.
  destruct o as [orows ocols mem]. cbn [do_rows do_cols do_mem] in *. subst orows ocols.
  assert (Hlen : length (row_range startRow num (concat rowss)) = num) by (unfold row_range; rewrite take_length, drop_length; lia).
  assert (Hwr : Forall (fun row => length row = m) (row_range startRow num (concat rowss))) by (unfold row_range; by apply Forall_take, Forall_drop).
  pose proof (Forall_concat_range valid (concat rowss) startRow num Hv) as Hvr.
  assert (Hcase : at_boundary startRow rowss \/ exists k rows d, rowss !! k = Some rows /\ startRow = length (concat (take k rowss)) + d /\ 0 < d /\ d + num <= length rows /\ d < length rows).
  { destruct Hst as [?|(k & rows & Hk & Hlo & Hhi)]; [by left|].
    destruct (decide (startRow = length (concat (take k rowss)))) as [E|E]; [left; by exists k|].
    destruct (decide (startRow = length (concat (take (S k) rowss)))) as [E'|E']; [left; by exists (S k)|].
    rewrite (take_S_r _ _ _ Hk), concat_app, app_length in E'. cbn [concat] in E'. rewrite app_nil_r in E'.
    right. exists k, rows, (startRow - length (concat (take k rowss))). split; [done|]. lia. }
  destruct Hcase as [(k & Hk)|(k & rows & d & Hk & Es & Hd0 & Hd & Hd')].
  - destruct (find_segment_boundary segs k 0 0 HD (m * vsize (V := V))) as (k' & Hle & Ek & Ef). cbn zeta in Ef. cbn [Nat.add] in Ef.
    rewrite (tot_lengths segs rowss HL k), <- Hk in Ef.
    rewrite !(tot_lengths segs rowss HL) in Ek. rewrite <- Hk in Ek.
    unfold read_bin. cbn [do_cols do_rows]. rewrite Ef. cbn [obind]. rewrite <- fmap_drop.
    assert (HFd : files (m * vsize (V := V)) (drop k' segs) ((fun rows => enc_all (concat rows)) <$> drop k' rowss)) by (rewrite fmap_drop; by apply Forall2_drop).
    assert (Hdr : drop startRow (concat rowss) = concat (drop k' rowss)) by (rewrite <- Ek; apply drop_concat).
    assert (Htd : tot (drop k' segs) = length (concat (drop k' rowss))).
    { rewrite <- (take_ge (drop k' segs) (length segs)) by (rewrite drop_length; lia). rewrite (tot_lengths _ (drop k' rowss)) by (rewrite !fmap_drop, HL; done).
      rewrite take_ge; [done|]. rewrite drop_length. apply (f_equal length) in HL. rewrite !fmap_length in HL. lia. }
    assert (Hdl : num <= length (concat (drop k' rowss))) by (rewrite <- Hdr, drop_length; lia).
    assert (Hwd : Forall (fun row => length row = m) (concat (drop k' rowss))) by (rewrite <- Hdr; by apply Forall_drop).
    destruct (read_bin_loop_spec num m (m * vsize (V := V)) (drop k' segs) _ eq_refl HFd 0 mem HD) as (o' & E & Hor & Hoc & Hom).
    + done.
    + lia.
    + rewrite concat_enc, enc_all_length, (concat_width m) by done. rewrite Nat.mul_0_l, <- Nat.mul_assoc. by apply Nat.mul_le_mono_r.
    + rewrite Htd. lia.
    + lia.
    + exists o'. split; [done|]. rewrite Nat.mul_0_l, Nat.add_0_r in E. split; [exact E|]. apply obj_of_enc; try done; [by rewrite Hlen|].
      rewrite Hom. cbn [Nat.mul]. rewrite take_0. cbn [app]. rewrite Nat.sub_0_r, concat_enc. rewrite Nat.mul_assoc, take_enc, take_concat_rows by done.
      unfold row_range. by rewrite Hdr.
  - pose proof (f_equal (fun l => l !! k) HL) as El. cbn in El. rewrite !list_lookup_fmap, Hk in El. cbn in El.
    destruct (segs !! k) as [s|] eqn:Hs; [|done]. cbn in El. injection El as El.
    assert (Hds : 0 < d < hs_rows s) by lia. assert (Ef := find_segment_inside segs k 0 0 HD (m * vsize (V := V)) s d Hs Hds). cbn [Nat.add] in Ef. rewrite (tot_lengths segs rowss HL k), <- Es in Ef.
    unfold read_bin. cbn [do_cols do_rows]. rewrite Ef. cbn [obind]. rewrite <- fmap_drop.
    rewrite (drop_S _ _ _ Hs). cbn [fmap list_fmap].
    assert (HF1 : files (m * vsize (V := V)) [s] [enc_all (concat rows)]).
    { constructor; [|constructor]. destruct (Forall2_lookup_l _ _ _ k s HF Hs) as (y & Hy & HP'). rewrite list_lookup_fmap, Hk in Hy. injection Hy as <-. exact HP'. }
    rewrite (read_bin_loop_inside num m _ s _ (enc_all (concat rows)) d mem eq_refl HF1); [|lia|done|lia].
    eexists. split; [done|]. split; [done|]. 
    assert (Hwk : Forall (fun row => length row = m) rows).
    { rewrite <- (take_drop_middle _ _ _ Hk), concat_app in Hw. apply Forall_app in Hw as [_ Hw]. cbn [concat] in Hw. by apply Forall_app in Hw as [Hw _]. }
    apply obj_of_enc; try done. cbn [do_mem]. rewrite !Nat.mul_assoc, drop_enc, take_enc, drop_concat_rows by done.
    rewrite take_concat_rows by (by apply Forall_drop). f_equal. f_equal. unfold row_range. rewrite Es, <- drop_drop, drop_concat, (drop_S _ _ _ Hk). cbn [concat].
    rewrite drop_app_le by lia. rewrite take_app_le by (rewrite drop_length; lia). done.
Qed.

(** If the range starts inside a segment and goes on in the next one, then its last row is not read: every byte of the last row of the result is
    zero or what the memory of the result contained before. *)
Theorem C73_binary_across_refuted m (parts : list (dmat V)) rowss startRow num o k rows d :
  parts_have_rows m parts rowss -> startRow + num <= length (concat rowss) ->
  rowss !! k = Some rows -> startRow = length (concat (take k rowss)) + d -> 0 < d < length rows -> length rows < d + num ->
  do_rows o = num -> do_cols o = m -> length (do_mem o) = num * m * vsize (V := V) ->
  exists segs o', Forall2 (fun a s => write_bin a = Ok s) parts segs /\ read_bin (V := V) (Some <$> segs) o startRow = Ok o' /\
    forall j, (num - 1) * (m * vsize (V := V)) <= j < num * (m * vsize (V := V)) -> do_mem o' !! j = do_mem o !! j \/ do_mem o' !! j = Some 0%N.
Proof.
  intros HP Htot Hk Es Hd Hd' Hr Hc Hm.
  destruct (bin_files m parts rowss HP) as (segs & HW & HF & HL). exists segs.
  destruct o as [orows ocols mem]. cbn [do_rows do_cols do_mem] in *. subst orows ocols.
  pose proof (f_equal (fun l => l !! k) HL) as El. cbn in El. rewrite !list_lookup_fmap, Hk in El. cbn in El.
  destruct (segs !! k) as [s|] eqn:Hs; [|done]. cbn in El. injection El as El.
  assert (Hds : 0 < d < hs_rows s) by lia. assert (Ef := find_segment_inside segs k 0 0 HD (m * vsize (V := V)) s d Hs Hds). cbn [Nat.add] in Ef. rewrite (tot_lengths segs rowss HL k), <- Es in Ef.
  unfold read_bin. cbn [do_cols do_rows]. rewrite Ef. cbn [obind]. rewrite <- fmap_drop.
  rewrite (drop_S _ _ _ Hs).
  assert (HFd : files (m * vsize (V := V)) (s :: drop (S k) segs) (drop k ((fun rows => enc_all (concat rows)) <$> rowss))) by (rewrite <- (drop_S _ _ _ Hs); by apply Forall2_drop).
  assert (Hts : hs_rows s + tot (drop (S k) segs) = length (concat (drop k rowss))).
  { change (hs_rows s + tot (drop (S k) segs)) with (tot (s :: drop (S k) segs)). rewrite <- (drop_S _ _ _ Hs).
    rewrite <- (take_ge (drop k segs) (length segs)) by (rewrite drop_length; lia). rewrite (tot_lengths _ (drop k rowss)) by (rewrite !fmap_drop, HL; done).
    rewrite take_ge; [done|]. rewrite drop_length. apply (f_equal length) in HL. rewrite !fmap_length in HL. lia. }
  destruct (read_bin_loop_across num m _ s (drop (S k) segs) _ d mem eq_refl HFd) as (o' & E & _ & _ & Hz).
  - lia.
  - lia.
  - rewrite Hts. rewrite <- drop_concat, drop_length. lia.
  - lia.
  - exists o'. split; [done|]. split; [exact E|]. destruct Hz as (_ & Hz). intros j Hj. apply Hz. lia.
Qed.
End binary.

(** * CSV segments *)
Section csv.
Context {V : Type} (conv : list byte -> outcome V) (pr : V -> list byte) (valid : V -> Prop).

Lemma csv_files m (parts : list (dmat V)) rowss : parts_have_rows m parts rowss ->
  Forall2 (fun a s => write_hdfs_csv pr a = Ok s) parts ((fun rows => mkHS (length rows) (csv_text pr rows)) <$> rowss).
Proof. induction 1 as [|a rows parts rowss (Hr & Hm & Hc) _ IH]; [constructor|]. cbn. constructor; [by apply write_csv_ok|done]. Qed.
Lemma in_some_segment {A} (rowss : list (list A)) n : n < length (concat rowss) ->
  exists k rows d, rowss !! k = Some rows /\ n = length (concat (take k rowss)) + d /\ d < length rows.
Proof.
  revert n. induction rowss as [|rows rowss IH]; intros n Hn; [cbn in Hn; lia|]. cbn [concat] in Hn. rewrite app_length in Hn.
  destruct (decide (n < length rows)) as [Hl|Hl].
  - exists 0, rows, n. done.
  - destruct (IH (n - length rows)) as (k & r & d & Hk & E & Hd); [lia|]. exists (S k), r, d. split; [done|]. split; [|done]. cbn [take concat]. rewrite app_length. lia.
Qed.

(** Whatever the sizes of the segments, as long as the text of each fits in the buffer of the reader: any range of rows is read exactly. *)
Theorem C73_csv m (parts : list (dmat V)) rowss startRow num junk mem : csv_repr conv pr valid ->
  parts_have_rows m parts rowss -> Forall (Forall valid) (concat rowss) ->
  N.of_nat (length junk) = BUF -> Forall (fun rows => (N.of_nat (length (csv_text pr rows)) <= BUF)%N) rowss ->
  0 < num -> startRow + num <= length (concat rowss) -> length mem = num * m ->
  exists segs, Forall2 (fun a s => write_hdfs_csv pr a = Ok s) parts segs /\
    read_hdfs_csv conv junk COMMA (Some <$> segs) mem num m startRow = Ok (concat (row_range startRow num (concat rowss))).
Proof.
  intros Hrep HP Hv Hj Hfit Hn Htot Hm. exists ((fun rows => mkHS (length rows) (csv_text pr rows)) <$> rowss). split; [by apply (csv_files m)|].
  assert (Hw : Forall (fun row => length row = m) (concat rowss)).
  { clear -HP. induction HP as [|a rows parts rowss (Hr & Hm & Hc) _ IH]; [constructor|]. cbn. apply Forall_app. split; [|done]. rewrite <- Hm. by apply rows_width. }
  assert (HFF : Forall (fun rows => Forall (fun row => Forall valid row /\ length row = m) rows /\ length (csv_text pr rows) <= length junk) rowss).
  { clear -Hv Hw Hfit Hj. induction rowss as [|rows rowss IH]; [constructor|]. cbn [concat] in *. apply Forall_app in Hv as [Hv1 Hv]. apply Forall_app in Hw as [Hw1 Hw]. apply Forall_cons in Hfit as [Hf1 Hfit].
    constructor; [|by apply IH]. split; [|lia]. apply Forall_and. done. }
  set (segs := _ <$> rowss). assert (HL : hs_rows <$> segs = length <$> rowss) by (unfold segs; rewrite <- list_fmap_compose; done).
  unfold read_hdfs_csv. rewrite decide_False by lia.
  destruct (in_some_segment rowss startRow) as (k & rows & d & Hk & Es & Hd); [lia|].
  assert (Hs : segs !! k = Some (mkHS (length rows) (csv_text pr rows))) by (unfold segs; rewrite list_lookup_fmap, Hk; done).
  assert (Hdir : forall k, drop k (Some <$> segs) = (fun rows => Some (mkHS (length rows) (csv_text pr rows))) <$> drop k rowss).
  { intros j. unfold segs. rewrite <- list_fmap_compose, fmap_drop. done. }
  destruct (decide (d = 0)) as [->|Hd0].
  - destruct (find_segment_boundary segs k 0 0 0 1) as (k' & Hle & Ek & Ef). cbn zeta in Ef. cbn [Nat.add] in Ef.
    rewrite (tot_lengths segs rowss HL k) in Ef. rewrite !(tot_lengths segs rowss HL) in Ek. rewrite Nat.add_0_r in Es. rewrite <- Es in Ef, Ek.
    rewrite Ef. cbn [obind]. rewrite Hdir. unfold row_range. assert (Hdr : drop startRow (concat rowss) = concat (drop k' rowss)) by (rewrite <- Ek; apply drop_concat).
    change mem with ([] ++ mem). rewrite (read_csv_loop_ok conv pr valid Hrep); [|by apply Forall_drop|by left|lia| |done|rewrite Nat.sub_0_r; done].
    + rewrite Nat.sub_0_r, Hdr. done.
    + rewrite <- Hdr, drop_length. lia.
  - assert (Hds : 0 < d < hs_rows (mkHS (length rows) (csv_text pr rows))) by (cbn; lia).
    assert (Ef := find_segment_inside segs k 0 0 0 1 _ d Hs Hds). cbn [Nat.add] in Ef. rewrite (tot_lengths segs rowss HL k), <- Es in Ef.
    rewrite Ef. cbn [obind]. rewrite Hdir. rewrite Nat.mul_1_r. unfold row_range. rewrite (drop_S _ _ _ Hk).
    rewrite (read_csv_loop_inside conv pr valid Hrep); [|rewrite <- (drop_S _ _ _ Hk); by apply Forall_drop|done|done| |done].
    + do 3 f_equal. rewrite Es, <- drop_drop, drop_concat, (drop_S _ _ _ Hk). done.
    + rewrite <- (drop_S _ _ _ Hk), <- drop_concat, drop_length. lia.
Qed.

(** A segment whose text does not fit in the buffer: if the first buffer contains at least one whole row, then reading the row that does not end in it
    accesses memory behind the buffer. *)
Theorem C73_csv_large_refuted m pre row post junk num mem more : csv_repr conv pr valid ->
  Forall (fun row => Forall valid row /\ length row = m) (pre ++ row :: post) -> pre <> [] ->
  length (csv_text pr pre) <= length junk < length (csv_text pr (pre ++ [row])) -> length pre < num -> length mem = num * m ->
  read_hdfs_csv conv junk COMMA (Some (mkHS (length (pre ++ row :: post)) (csv_text pr (pre ++ row :: post))) :: more) mem num m 0 = UB.
Proof.
  intros Hrep HF Hpre Hlen Hnum Hm. unfold read_hdfs_csv. rewrite decide_False by lia. cbn [find_segment]. rewrite decide_True by done. cbn [obind drop read_csv_loop]. rewrite decide_True by lia. cbn [hs_rows hs_bytes].
  apply Forall_app in HF as [HFp HF]. apply Forall_cons in HF as [[Hvr Hlr] HF].
  set (file := csv_text pr (pre ++ row :: post)).
  assert (Ef : file = csv_text pr pre ++ csv_line pr row ++ (LF : byte) :: csv_text pr post).
  { unfold file, csv_text. rewrite fmap_app, concat_app. cbn. by rewrite <- app_assoc. }
  assert (Ep : length (csv_text pr (pre ++ [row])) = length (csv_text pr pre) + length (csv_line pr row) + 1).
  { unfold csv_text. rewrite fmap_app, concat_app, app_length. cbn. rewrite app_nil_r, app_length. cbn. lia. }
  rewrite Ep in Hlen. set (tl := take (length junk - length (csv_text pr pre)) (csv_line pr row)).
  assert (Etk : take (length junk) file = csv_text pr pre ++ tl).
  { rewrite Ef. rewrite take_app_ge by lia. f_equal. rewrite take_app_le by lia. done. }
  assert (Hltl : length tl = length junk - length (csv_text pr pre)) by (unfold tl; rewrite take_length; lia).
  assert (Hlf : (LF : byte) ∉ tl). { intros Hx. apply (csv_line_lf conv pr valid Hrep row Hvr). unfold tl in Hx. rewrite <- (take_drop (length junk - length (csv_text pr pre)) (csv_line pr row)). apply elem_of_app. by left. }
  destruct pre as [|row0 pre]; [done|]. apply Forall_cons in HFp as [[Hv0 Hl0] HFp].
  assert (Hpos : 0 < length junk) by (rewrite csv_text_cons, app_length in Hlen; cbn [length] in Hlen; unfold byte in *; lia).
  assert (Hfl : length junk <= length file) by (rewrite Ef, !app_length; cbn [length]; unfold byte in *; lia).
  assert (Etl : length (take (length junk) file) = length junk) by (rewrite take_length; lia).
  match goal with |- obind ?X _ = UB => assert (E : X = UB); [|by rewrite E] end.
  replace (length ((row0 :: pre) ++ row :: post)) with (S (length pre + S (length post))) by (rewrite app_length; cbn; lia). cbn [read_seg_rows].
  rewrite get_line_load by lia. rewrite Etl, Etk, drop_all, app_nil_r. rewrite csv_text_cons in *.
  set (st0 := mkLS _ (Some 0) _ _).
  destruct (get_line_in (S (length (l_rest (mkLS junk None 0 file)))) st0 0 (csv_line pr row0) (csv_text pr pre) tl []) as (st' & E & Hc' & Hd' & Hn' & _ & Hb').
  - done.
  - unfold st0. cbn [l_buf]. by rewrite drop_0.
  - unfold st0. cbn [l_n]. lia.
  - by apply (csv_line_lf conv pr valid Hrep).
  - rewrite E. cbn [obind app]. rewrite decide_False by lia. cbn [Nat.mul].
    change mem with ([] ++ mem). rewrite (parse_row_ok conv pr valid Hrep); [|done|done|done|nia]. cbn [obind app].
    rewrite decide_False by (cbn [length] in Hnum; lia).
    assert (Hbl : length (l_buf st') = length junk). { rewrite Hb'. unfold st0. cbn [l_buf]. rewrite !app_length in *. cbn [length] in *. lia. }
    apply (read_seg_rows_ub conv pr valid Hrep num m pre HFp (S (length post)) 1 st' 1 row0 (drop m mem) (0 + length (csv_line pr row0) + 1) tl); try done.
    + lia.
    + rewrite Hn', Hbl. done.
    + rewrite Hbl. done.
    + left. lia.
    + lia.
    + rewrite drop_length. rewrite Nat.mul_sub_distr_r; lia.
Qed.
End csv.

(** * Distributed writing and reading *)
Section distributed.
Context {V : Type}.
Lemma row_view_rows (a : dmat V) rows r n : has_rows a rows -> r + n <= length rows -> has_rows (row_view a r n) (row_range r n rows).
Proof.
  intros (Hn & Hr) Hle. split; [unfold row_range; rewrite take_length, drop_length; cbn; lia|]. intros i row Hi. unfold row_range in Hi.
  apply lookup_take_Some in Hi as [Hi Hin]. rewrite lookup_drop in Hi. destruct (Hr _ _ Hi) as (Hl & Ht). cbn. split; [done|].
  replace (m_off a + r * m_skip a + i * m_skip a) with (m_off a + (r + i) * m_skip a) by lia. done.
Qed.
Lemma tiles_concat (rows : list (list V)) ranges : forall start, start <= length rows -> tiles_from start ranges (length rows) ->
  Forall (fun p => p.1 + p.2 <= length rows) ranges /\ concat ((fun p => row_range p.1 p.2 rows) <$> ranges) = drop start rows.
Proof.
  induction ranges as [|[r n] ranges IH]; intros start Hs Ht.
  - cbn in Ht. split; [constructor|]. cbn. rewrite drop_ge by lia. done.
  - cbn [tiles_from] in Ht. destruct Ht as (-> & Ht).
    assert (Hle : start + n <= length rows).
    { clear IH Hs. revert Ht. generalize (start + n). induction ranges as [|[r' n'] ranges IH]; intros p Hp; cbn in Hp; [lia|]. destruct Hp as [-> Hp]. apply IH in Hp. lia. }
    destruct (IH (start + n) Hle Ht) as (HF & HC). split; [by constructor|]. cbn [fmap list_fmap concat fst snd]. cbn [fmap] in HC. rewrite HC. unfold row_range. rewrite <- drop_drop. apply take_drop.
Qed.
Lemma dist_write_parts {B} (write : dmat V -> outcome (hseg B)) (a : dmat V) ranges segs :
  Forall2 (fun p s => write p = Ok s) ((fun p => row_view a p.1 p.2) <$> ranges) segs -> dist_write write a (Some <$> ranges) = Ok (Some <$> segs).
Proof.
  revert segs. induction ranges as [|[r n] ranges IH]; intros segs HF; cbn in HF.
  - inversion HF. done.
  - inversion HF as [|? s ? segs' E HF']; subst. cbn. cbn in E. rewrite E. cbn. rewrite (IH segs' HF'). done.
Qed.
Lemma parts_of_tiles (a : dmat V) rows ranges : has_rows a rows -> contiguous a -> tiles_from 0 ranges (length rows) ->
  parts_have_rows (m_cols a) ((fun p => row_view a p.1 p.2) <$> ranges) ((fun p => row_range p.1 p.2 rows) <$> ranges) /\ concat ((fun p => row_range p.1 p.2 rows) <$> ranges) = rows.
Proof.
  intros Hr Hc Ht. destruct (tiles_concat rows ranges 0 ltac:(lia) Ht) as (HF & HC). rewrite drop_0 in HC. split; [|done].
  clear -Hr Hc HF. induction HF as [|[r n] ranges Hle HF IH]; [constructor|]. cbn. constructor; [|done]. split; [by apply row_view_rows|]. done.
Qed.

(** A matrix that is distributed over workers, in any partition, and written as CSV: any worker can read any range of rows. *)
Theorem C73_distributed_csv (conv : list byte -> outcome V) pr valid (a : dmat V) rows ranges startRow num junk mem : csv_repr conv pr valid ->
  has_rows a rows -> contiguous a -> Forall (Forall valid) rows -> tiles_from 0 ranges (length rows) ->
  N.of_nat (length junk) = BUF -> Forall (fun p => (N.of_nat (length (csv_text pr (row_range p.1 p.2 rows))) <= BUF)%N) ranges ->
  0 < num -> startRow + num <= length rows -> length mem = num * m_cols a ->
  exists dir, write_hdfs (write_hdfs_csv pr) true a (Some <$> ranges) = Ok dir /\
    read_hdfs_csv conv junk COMMA dir mem num (m_cols a) startRow = Ok (concat (row_range startRow num rows)).
Proof.
  intros Hrep Hr Hc Hv Ht Hj Hfit Hn Htot Hm. destruct (parts_of_tiles a rows ranges Hr Hc Ht) as (HP & HC).
  destruct (C73_csv conv pr valid (m_cols a) _ _ startRow num junk mem Hrep HP) as (segs & HW & E); try done; rewrite ?HC; try done.
  - by apply Forall_fmap.
  - exists (Some <$> segs). split; [by apply dist_write_parts|]. by rewrite HC in E.
Qed.
(** Written as binary segments: each worker can read the rows that one worker wrote. *)
Theorem C73_distributed_binary `{RepOk V valid} (a : dmat V) rows ranges r n o :
  has_rows a rows -> contiguous a -> Forall valid (concat rows) -> tiles_from 0 ranges (length rows) -> (r, n) ∈ ranges ->
  do_rows o = n -> do_cols o = m_cols a -> length (do_mem o) = n * m_cols a * vsize (V := V) ->
  exists dir o', write_hdfs write_bin true a (Some <$> ranges) = Ok dir /\ read_bin (V := V) dir o r = Ok o' /\ obj_has_rows o' (m_cols a) (row_range r n rows).
Proof.
  intros Hr Hc Hv Ht Hin Hon Hoc Hom. destruct (parts_of_tiles a rows ranges Hr Hc Ht) as (HP & HC).
  destruct (tiles_concat rows ranges 0 ltac:(lia) Ht) as (HF & _). pose proof (proj1 (Forall_forall _ _) HF _ Hin) as Hle. cbn in Hle.
  assert (Hb : at_boundary r ((fun p => row_range p.1 p.2 rows) <$> ranges)).
  { clear -Ht Hin HF. assert (G : forall start, tiles_from start ranges (length rows) -> exists k, r = start + length (concat (take k ((fun p => row_range p.1 p.2 rows) <$> ranges)))); [|by apply (G 0)].
    clear Ht. induction ranges as [|[r' n'] ranges IH]; intros start Ht; [by apply elem_of_nil in Hin|]. cbn [tiles_from] in Ht. destruct Ht as (-> & Ht). apply Forall_cons in HF as [Hle HF].
    apply elem_of_cons in Hin as [E|Hin].
    - injection E as -> ->. exists 0. cbn. lia.
    - destruct (IH Hin HF _ Ht) as (k & Ek). exists (S k). cbn [fmap list_fmap take concat]. rewrite app_length. cbn [fmap] in Ek. unfold row_range at 1. rewrite take_length, drop_length. cbn in *. lia. }
  destruct (C73_binary (m_cols a) _ _ r n o HP) as (segs & o' & HW & E & Ho); rewrite ?HC; try done; [by left|].
  exists (Some <$> segs), o'. split; [by apply dist_write_parts|]. split; [done|]. by rewrite HC in Ho.
Qed.
(** A matrix that has not been distributed to any worker: in distributed mode no segment is written, and reading accesses a null pointer. *)
Theorem C73_unplaced_refuted {B} (write : dmat V -> outcome (hseg B)) (a : dmat V) k :
  exists dir, write_hdfs write true a (replicate k None) = Ok dir /\ (forall s, Some s ∉ dir) /\
    forall startRow off mult, 0 < startRow -> find_segment dir 0 0 startRow off mult = UB.
Proof.
  exists (replicate k None). split; [|split].
  - cbn. induction k as [|k IH]; [done|]. cbn. by rewrite IH.
  - intros s Hs. apply elem_of_replicate in Hs as [? _]. done.
  - intros startRow off mult Hs. destruct k; cbn; by rewrite decide_False by lia.
Qed.
End distributed.
(** Nor can the rows be read from the first one on. *)
Theorem C73_unplaced_read_refuted {V} `{Rep V} (conv : list byte -> outcome V) k num m junk mem o : 0 < num -> do_rows o = num ->
  read_hdfs_csv conv junk COMMA (replicate k None) mem num m 0 = UB /\ read_bin (V := V) (replicate k None) o 0 = UB.
Proof.
  intros Hn Ho. split.
  - unfold read_hdfs_csv. rewrite decide_False by lia. assert (E : find_segment (replicate k (@None (hseg byte))) 0 0 0 0 1 = Ok (0, 0)) by (by destruct k). rewrite E. cbn [obind]. rewrite drop_0.
    destruct k; cbn [replicate read_csv_loop]; by rewrite decide_True by lia.
  - unfold read_bin. assert (E : find_segment (replicate k (@None (hseg N))) 0 0 0 HD (do_cols o * vsize (V := V)) = Ok (0, HD)) by (by destruct k). rewrite E. cbn [obind]. rewrite drop_0.
    destruct k; cbn [replicate read_bin_loop]; by rewrite decide_True by lia.
Qed.

(** * Values *)
(** Integers of 32 bits, as ReadHDFSCsv converts them (utils.h 66-71): the text is followed by the terminating NUL. *)
Definition conv_int (t : list byte) : outcome Z := atoi (t ++ [NUL]).
Lemma int_repr : csv_repr conv_int print_dec (fun z => - 2 ^ 31 <= z < 2 ^ 31)%Z.
Proof.
  intros z Hz. split; [|split; [|split]].
  - intros Hx. apply print_dec_chars in Hx as [?|?]; done.
  - intros Hx. apply print_dec_chars in Hx as [?|?]; done.
  - by apply atoi_print.
  - intros rest. unfold conv_int. rewrite <- app_assoc. by apply (atoi_print z COMMA (rest ++ [NUL])).
Qed.
(** A matrix with more than 2^19 rows and one column of zeros is written, but cannot be read. *)
Theorem C73_csv_large_witness n junk mem : (2 ^ 19 < N.of_nat n)%N -> N.of_nat (length junk) = BUF -> length mem = n ->
  let a := mkDM (replicate n 0%Z) 0 n 1 1 in
  has_rows a (replicate n [0%Z]) /\ contiguous a /\
  exists s, write_hdfs_csv print_dec a = Ok s /\ read_hdfs_csv conv_int junk COMMA [Some s] mem n 1 0 = UB.
Proof.
  intros Hn Hj Hm a. assert (Hr : has_rows a (replicate n [0%Z])).
  { split; [cbn; by rewrite replicate_length|]. intros r row E. apply lookup_replicate in E as [-> Hlt]. split; [done|]. cbn. rewrite drop_replicate. replace (n - r * 1) with (S (n - r * 1 - 1)) by lia. done. }
  assert (Hc : contiguous a) by done. split; [done|]. split; [done|]. eexists. split; [by apply write_csv_ok|].
  assert (Ht : forall k, length (csv_text print_dec (replicate k [0%Z])) = 2 * k).
  { induction k as [|k IH]; [done|]. change (replicate (S k) [0%Z]) with ([0%Z] :: replicate k [0%Z]). rewrite csv_text_cons, app_length. cbn [length]. rewrite IH. change (length (csv_line print_dec [0%Z])) with 1. lia. }
  set (h := N.to_nat (2 ^ 19)). assert (Hh : N.of_nat h = (2 ^ 19)%N) by (unfold h; apply N2Nat.id).
  assert (Hjn : length junk = 2 * h). { unfold BUF in Hj. change (2 ^ 20)%N with (2 * 2 ^ 19)%N in Hj. rewrite <- Hh in Hj. lia. }
  assert (En : exists k, n = h + S k) by (exists (n - h - 1); lia). destruct En as (k & En). clearbody h.
  assert (Er : replicate n [0%Z] = replicate h [0%Z] ++ [0%Z] :: replicate k [0%Z]) by (rewrite En, replicate_add; done).
  rewrite Er. apply (C73_csv_large_refuted conv_int print_dec _ 1 _ _ _ junk n mem [] int_repr).
  - rewrite <- Er. apply Forall_replicate. split; [|done]. constructor; [lia|constructor].
  - destruct h; [lia|done].
  - change [[0%Z]] with (replicate 1 [0%Z]). rewrite <- replicate_add, !Ht. lia.
  - rewrite replicate_length. lia.
  - lia.
Qed.

(** * Where rows or values are lost *)
Definition ex_a : dmat N := mkDM [1; 2; 3; 4; 5; 6]%N 0 6 1 1.
Definition ex_rows : list (list N) := [[1]; [2]; [3]; [4]; [5]; [6]]%N.
Lemma ex_a_rows : has_rows ex_a ex_rows.
Proof. split; [done|]. intros r row E. do 6 (destruct r as [|r]; [injection E as <-; done|]). done. Qed.
(** Six rows, written by two workers and read by three: the second reader gets row 2 and a zero. *)
Theorem C73_binary_repartition_refuted : let R := rep_uint 1 3 in
  exists dir o, tiles_from 0 [(0, 3); (3, 3)] 6 /\ tiles_from 0 [(0, 2); (2, 2); (4, 2)] 6 /\ write_hdfs write_bin true ex_a [Some (0, 3); Some (3, 3)] = Ok dir /\
    read_bin (V := N) dir (mkDO 2 1 [77; 77]%N) 2 = Ok o /\ do_mem o = [3; 0]%N /\ row_range 2 2 ex_rows = [[3]; [4]]%N.
Proof. cbn zeta. eexists _, _. split; [by cbn|]. split; [by cbn|]. split; [vm_compute; reflexivity|]. split; [vm_compute; reflexivity|]. split; [vm_compute; reflexivity|]. done. Qed.
(** A column of a matrix with two columns: the writer does not step over the other column. *)
Theorem C73_csv_view_refuted : exists (a : dmat Z) rows s, has_rows a rows /\ write_hdfs_csv print_dec a = Ok s /\
  forall junk mem, N.of_nat (length junk) = BUF -> length mem = 2 -> read_hdfs_csv conv_int junk COMMA [Some s] mem 2 1 0 = Ok [1; 2]%Z /\ concat rows = [1; 3]%Z.
Proof.
  exists (mkDM [1; 2; 3; 4]%Z 0 2 1 2), [[1]; [3]]%Z, (mkHS 2 [49; 10; 50; 10]). split; [|split; [vm_compute; reflexivity|]].
  - split; [done|]. intros r row E. do 2 (destruct r as [|r]; [injection E as <-; done|]). done.
  - intros junk mem Hj Hm. split; [|done].
    destruct (C73_csv conv_int print_dec _ 1 [mkDM [1; 2]%Z 0 2 1 1] [[[1]; [2]]]%Z 0 2 junk mem int_repr) as (segs & HW & E); try done; try lia.
    + constructor; [|constructor]. split; [|done]. split; [done|]. intros r row E. do 2 (destruct r as [|r]; [injection E as <-; done|]). done.
    + cbn. repeat (constructor; [constructor; [lia|constructor]|]). constructor.
    + constructor; [|constructor]. by vm_compute.
    + inversion HW as [|? s ? segs' Hs Hnil]; subst. inversion Hnil; subst. vm_compute in Hs. injection Hs as <-. exact E.
Qed.
(** Values of type int8_t are written as characters: the matrix with the value 53 is read as 5. *)
Theorem C73_csv_int8_refuted : exists s, write_hdfs_csv print_int8 (mkDM [53]%Z 0 1 1 1) = Ok s /\
  forall junk mem, N.of_nat (length junk) = BUF -> length mem = 1 -> read_hdfs_csv conv_int junk COMMA [Some s] mem 1 1 0 = Ok [5]%Z.
Proof.
  exists (mkHS 1 [53; 10]). split; [vm_compute; reflexivity|]. intros junk mem Hj Hm.
  destruct (C73_csv conv_int print_dec _ 1 [mkDM [5]%Z 0 1 1 1] [[[5]]]%Z 0 1 junk mem int_repr) as (segs & HW & E); try done; try lia.
  - constructor; [|constructor]. split; [|done]. split; [done|]. intros r row E. do 1 (destruct r as [|r]; [injection E as <-; done|]). done.
  - cbn. repeat (constructor; [constructor; [lia|constructor]|]). constructor.
  - constructor; [|constructor]. by vm_compute.
  - inversion HW as [|? s ? segs' Hs Hnil]; subst. inversion Hnil; subst. vm_compute in Hs. injection Hs as <-. exact E.
Qed.
(** Doubles are written with six significant digits: different matrices give the same file. *)
Theorem C73_csv_double_refuted : exists s, write_hdfs_csv print_g6 (mkDM [1234567]%Z 0 1 1 1) = Ok s /\ write_hdfs_csv print_g6 (mkDM [1234568]%Z 0 1 1 1) = Ok s /\
  hs_bytes s = [49; 46; 50; 51; 52; 53; 55; 101; 43; 48; 54; 10] (* 1.23457e+06 *).
Proof. eexists. split; [vm_compute; reflexivity|]. split; vm_compute; reflexivity. Qed.

(** * Examples that meet the hypotheses *)
Example C73_binary_example : let R := rep_uint 1 3 in exists o, read_bin (V := N) [Some (mkHS 3 (dense_header (V := N) 3 1 ++ [1; 2; 3]%N)); Some (mkHS 3 (dense_header (V := N) 3 1 ++ [4; 5; 6]%N))] (mkDO 2 1 [77; 77]%N) 1 = Ok o /\
  obj_has_rows o 1 (row_range 1 2 ex_rows) /\ in_one_segment 1 2 [[[1]; [2]; [3]]; [[4]; [5]; [6]]]%N /\ at_boundary 3 [[[1]; [2]; [3]]; [[4]; [5]; [6]]]%N.
Proof.
  cbn zeta. eexists. split; [vm_compute; reflexivity|]. split; [split; [done|]; split; [done|]; vm_compute; reflexivity|]. split.
  - exists 0, [[1]; [2]; [3]]%N. split; [done|]. cbn. lia.
  - by exists 1.
Qed.

Print Assumptions C73_binary.
Print Assumptions C73_binary_across_refuted.
Print Assumptions C73_csv.
Print Assumptions C73_csv_large_refuted.
Print Assumptions C73_csv_large_witness.
Print Assumptions C73_distributed_csv.
Print Assumptions C73_distributed_binary.
