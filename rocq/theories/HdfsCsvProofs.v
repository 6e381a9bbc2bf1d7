(** Proofs about writing and reading CSV segments. *)
From stdpp Require Import base numbers list list_numbers.
From Coq Require Import Lia.
From Verif Require Import CppBase Mem SerModel SerSpec SerProofs CsvModel HdfsModel HdfsSpec HdfsProofs.

Lemma rows_concat {V} (a : dmat V) rows : has_rows a rows -> contiguous a -> forall r, r <= length rows ->
  take (r * m_cols a) (drop (m_off a) (m_buf a)) = concat (take r rows).
Proof.
  intros (Hn & Hr) Hc r. induction r as [|r IH]; intros Hle; [done|].
  destruct (lookup_lt_is_Some_2 rows r) as (row & Hrow); [lia|]. destruct (Hr r row Hrow) as (Hl & Ht).
  rewrite (take_S_r _ _ _ Hrow), concat_app. cbn [concat]. rewrite app_nil_r. rewrite <- IH by lia.
  replace (S r * m_cols a) with (r * m_cols a + m_cols a) by lia. rewrite <- take_take_drop. f_equal. rewrite drop_drop. unfold contiguous in Hc. rewrite Hc in Ht. exact Ht.
Qed.
Lemma rows_all {V} (a : dmat V) rows : has_rows a rows -> contiguous a -> take (m_rows a * m_cols a) (drop (m_off a) (m_buf a)) = concat rows.
Proof. intros Hr Hc. destruct (Hr) as (Hn & _). rewrite Hn. rewrite (rows_concat a rows Hr Hc) by done. by rewrite take_ge by lia. Qed.
Lemma rows_width {V} (a : dmat V) rows : has_rows a rows -> Forall (fun row => length row = m_cols a) rows.
Proof. intros (_ & Hr). apply Forall_lookup. intros r row E. by destruct (Hr r row E). Qed.
Lemma concat_width {V} m (rows : list (list V)) : Forall (fun row => length row = m) rows -> length (concat rows) = length rows * m.
Proof. induction 1 as [|row rows E _ IH]; [done|]. cbn [concat length]. rewrite app_length, IH, E. lia. Qed.
Lemma take_concat_rows {V} m (rows : list (list V)) j : Forall (fun row => length row = m) rows -> take (j * m) (concat rows) = concat (take j rows).
Proof.
  intros HF. revert j. induction HF as [|row rows E _ IH]; intros j; [cbn; by rewrite !take_nil|]. destruct j as [|j]; [done|].
  cbn [concat take]. replace (S j * m) with (length row + j * m) by lia. by rewrite firstn_app_2, IH.
Qed.
Lemma drop_concat_rows {V} m (rows : list (list V)) j : Forall (fun row => length row = m) rows -> drop (j * m) (concat rows) = concat (drop j rows).
Proof.
  intros HF. revert j. induction HF as [|row rows E _ IH]; intros j; [cbn; by rewrite !drop_nil|]. destruct j as [|j]; [done|].
  cbn [concat drop]. replace (S j * m) with (length row + j * m) by lia. rewrite <- drop_drop, drop_app. apply IH.
Qed.

(** * Writing *)
Section write.
Context {V : Type} (pr : V -> list byte).
Lemma write_row (buf : list V) off m row : forall j out cell, j + length row = m -> take (length row) (drop (off + cell) buf) = row ->
  forn (length row) j (fun j (s : list byte * nat) =>
      let '(out, cell) := s in
      let* v := rd buf (off + cell) in
      Ok (out ++ pr v ++ (if decide (j < m - 1) then [COMMA] else []), S cell)) (out, cell) = Ok (out ++ csv_line pr row, cell + length row).
Proof.
  induction row as [|v row IH]; intros j out cell Hm Ht.
  - cbn. rewrite app_nil_r. f_equal. f_equal. lia.
  - cbn [length forn]. assert (Hv : buf !! (off + cell) = Some v).
    { replace (off + cell) with (off + cell + 0) by lia. rewrite <- lookup_drop. rewrite <- (lookup_take _ (length (v :: row))) by (cbn; lia). by rewrite Ht. }
    rewrite (rd_Ok _ _ _ Hv). cbn [obind]. rewrite IH.
    + f_equal. f_equal; [|cbn; lia]. cbn [csv_line]. rewrite <- !app_assoc. do 2 f_equal. destruct row as [|w row].
      * cbn [length] in Hm. by rewrite decide_False by lia.
      * cbn [length] in Hm. by rewrite decide_True by lia.
    + cbn [length] in Hm. lia.
    + rewrite (drop_S _ _ _ Hv) in Ht. cbn [length firstn] in Ht. injection Ht as Ht. replace (off + S cell) with (S (off + cell)) by lia. exact Ht.
Qed.
Lemma write_rows (a : dmat V) rows : forall i out cell, Forall (fun row => length row = m_cols a) rows -> take (length rows * m_cols a) (drop (m_off a + cell) (m_buf a)) = concat rows ->
  forn (length rows) i (fun i (s : list byte * nat) =>
    let* (out, cell) := for_up 0 (m_cols a) (fun j (s : list byte * nat) =>
      let '(out, cell) := s in
      let* v := rd (m_buf a) (m_off a + cell) in
      Ok (out ++ pr v ++ (if decide (j < m_cols a - 1) then [COMMA] else []), S cell)) s in
    Ok (out ++ [LF], cell)) (out, cell) = Ok (out ++ csv_text pr rows, cell + length rows * m_cols a).
Proof.
  induction rows as [|row rows IH]; intros i out cell HF Ht.
  - cbn. rewrite app_nil_r. f_equal. f_equal. lia.
  - apply Forall_cons in HF as [Hl HF]. cbn [length forn]. unfold for_up at 1. rewrite Nat.sub_0_r. rewrite <- Hl at 1.
    cbn [length concat] in Ht.
    rewrite write_row.
    + cbn [obind]. rewrite IH.
      * f_equal. f_equal; [|lia]. unfold csv_text. cbn [fmap list_fmap concat]. by rewrite <- !app_assoc.
      * done.
      * replace (S (length rows) * m_cols a) with (length row + length rows * m_cols a) in Ht by lia. rewrite <- take_take_drop in Ht.
        assert (E : length (take (length row) (drop (m_off a + cell) (m_buf a))) = length row).
        { set (L := drop (m_off a + cell) (m_buf a)) in *. pose proof (f_equal length Ht) as El. rewrite !app_length, !take_length, drop_length, (concat_width (m_cols a)) in El by done. rewrite take_length. lia. }
        apply app_inj_1 in Ht as [_ Ht]; [|done]. rewrite drop_drop in Ht. replace (m_off a + (cell + length row)) with (m_off a + cell + length row) by lia. exact Ht.
    + lia.
    + replace (S (length rows) * m_cols a) with (length row + length rows * m_cols a) in Ht by lia. rewrite <- take_take_drop in Ht.
      set (L := drop (m_off a + cell) (m_buf a)) in *. pose proof (f_equal length Ht) as El. rewrite !app_length, !take_length, drop_length, (concat_width (m_cols a)) in El by done.
      apply app_inj_1 in Ht as [Ht _]; [exact Ht|]. rewrite take_length. lia.
Qed.
Lemma write_csv_ok (a : dmat V) rows : has_rows a rows -> contiguous a -> write_hdfs_csv pr a = Ok (mkHS (length rows) (csv_text pr rows)).
Proof.
  intros Hr Hc. pose proof (rows_all a rows Hr Hc) as Ha. pose proof (rows_width a rows Hr) as Hw. destruct Hr as (Hn & _). unfold write_hdfs_csv. unfold for_up at 1. rewrite Nat.sub_0_r, Hn.
  rewrite write_rows; [done|done|]. rewrite Nat.add_0_r. by rewrite <- Hn.
Qed.
End write.

(** * Reading lines *)
Ltac bytes := unfold byte in *.
Lemma memchr_found (buf : list nat) p n (line rest : list nat) : drop p buf = line ++ LF :: rest -> (LF : byte) ∉ line -> length line < n -> memchr_lf buf p n = Ok (Some (p + length line)).
Proof.
  revert p n. induction line as [|c line IH]; intros p n Hd Hl Hn; (destruct n as [|n]; [cbn in Hn; lia|]); cbn [memchr_lf]; bytes.
  - rewrite (rd_Ok _ _ LF); [|replace p with (p + 0) by lia; rewrite <- lookup_drop, Hd; done]. cbn [obind]. rewrite decide_True by done. f_equal. f_equal. cbn. lia.
  - rewrite (rd_Ok _ _ c); [|replace p with (p + 0) by lia; rewrite <- lookup_drop, Hd; done]. cbn [obind].
    apply not_elem_of_cons in Hl as [Hc Hl]. rewrite decide_False by congruence. rewrite (IH (S p)).
    + f_equal. f_equal. cbn. lia.
    + replace (S p) with (p + 1) by lia. rewrite <- drop_drop, Hd. done.
    + done.
    + cbn in Hn. lia.
Qed.
Lemma memchr_ub (buf : list nat) p n : (LF : byte) ∉ drop p buf -> length (drop p buf) < n -> memchr_lf buf p n = UB.
Proof.
  remember (drop p buf) as t eqn:Et. revert p n Et. induction t as [|c t IH]; intros p n Et Hl Hn; (destruct n as [|n]; [cbn in Hn; lia|]); cbn [memchr_lf]; bytes.
  - unfold rd. rewrite lookup_ge_None_2; [done|]. apply (f_equal length) in Et. rewrite drop_length in Et. cbn in Et. lia.
  - assert (Hc : buf !! p = Some c) by (replace p with (p + 0) by lia; rewrite <- lookup_drop, <- Et; done).
    rewrite (rd_Ok _ _ c) by done. cbn [obind]. apply not_elem_of_cons in Hl as [Hcl Hl]. rewrite decide_False by congruence. apply IH; [|done|cbn in Hn; lia].
    rewrite (drop_S _ _ _ Hc) in Et. by injection Et.
Qed.
Lemma get_line_in fuel st p (line more stale acc : list byte) : l_cur st = Some p -> drop p (l_buf st) = (line ++ LF :: more) ++ stale -> length (line ++ LF :: more) <= l_n st -> (LF : byte) ∉ line ->
  exists st', get_line (S fuel) st acc = Ok (st', acc ++ line) /\ l_cur st' = Some (p + length line + 1) /\ drop (p + length line + 1) (l_buf st') = more ++ stale /\ l_n st' = l_n st /\ l_rest st' = l_rest st /\ l_buf st' = l_buf st.
Proof.
  intros Hc Hd Hn Hl. cbn [get_line]. rewrite Hc. cbn [obind]. bytes.
  assert (Em : memchr_lf (l_buf st) p (l_n st) = Ok (Some (p + length line))).
  { apply (memchr_found _ _ _ line (more ++ stale)); [bytes; by rewrite Hd, <- app_assoc|done|]. rewrite app_length in Hn. cbn in Hn. lia. }
  rewrite Em.
  cbn [obind]. replace (p + length line - p) with (length line) by lia.
  assert (Hlen : p + length line <= length (l_buf st)). { apply (f_equal (@length nat)) in Hd. rewrite drop_length, !app_length in Hd. cbn [length] in Hd. bytes. lia. }
  rewrite rdn_Ok by done. cbn [obind]. rewrite Hd. rewrite <- !app_assoc. rewrite take_app.
  eexists. split; [done|]. cbn [l_cur l_buf l_n l_rest]. split; [f_equal; lia|]. split; [|done].
  replace (p + length line + 1) with (p + (length line + 1)) by lia. rewrite <- drop_drop, Hd. rewrite <- drop_drop, <- !app_assoc, drop_app. done.
Qed.
(** The first line. *)
Lemma get_line_load fuel (junk file line : list byte) : 0 < length file -> 0 < length junk ->
  get_line (S fuel) (mkLS junk None 0 file) line =
  get_line (S fuel) (mkLS (take (length junk) file ++ drop (length (take (length junk) file)) junk) (Some 0) (length (take (length junk) file)) (drop (length junk) file)) line.
Proof.
  intros Hf Hj. cbn [get_line l_cur l_buf l_rest l_n]. rewrite decide_False by (rewrite take_length; lia). cbn [obind l_buf l_n l_rest]. done.
Qed.

(** The text [rest] follows: in the buffer from [cur] on, or nothing has been read and it is the rest of the file, which fits in the buffer. *)
Definition ready (st : linest) (rest : list byte) : Prop :=
  match l_cur st with
  | Some p => exists stale, drop p (l_buf st) = rest ++ stale /\ length rest <= l_n st
  | None => l_rest st = rest /\ length rest <= length (l_buf st) /\ l_n st = 0
  end.
Lemma get_line_ready fuel st (line more acc : list byte) : ready st (line ++ LF :: more) -> (LF : byte) ∉ line ->
  exists st', get_line (S fuel) st acc = Ok (st', acc ++ line) /\ ready st' more.
Proof.
  intros Hst Hl. assert (Hin : forall st p, l_cur st = Some p -> ready st (line ++ LF :: more) -> exists st', get_line (S fuel) st acc = Ok (st', acc ++ line) /\ ready st' more).
  { clear st Hst. intros st p Hc Hst. unfold ready in Hst. rewrite Hc in Hst. destruct Hst as (stale & Hd & Hn).
    destruct (get_line_in fuel st p line more stale acc Hc Hd Hn Hl) as (st' & E & Hc' & Hd' & Hn' & Hr' & Hb'). exists st'. split; [done|].
    unfold ready. rewrite Hc'. exists stale. split; [done|]. rewrite Hn'. rewrite app_length in Hn. cbn in Hn. lia. }
  destruct (l_cur st) as [p|] eqn:Hc; [by apply (Hin st p)|].
  unfold ready in Hst. rewrite Hc in Hst. destruct Hst as (Hr & Hj & Hn0). destruct st as [junk cur n file]. cbn [l_cur l_rest l_buf l_n] in *. subst cur file n.
  assert (Hpos : 0 < length (line ++ LF :: more)) by (rewrite app_length; cbn; lia).
  rewrite get_line_load by lia. rewrite (take_ge (line ++ _)) by lia. eapply Hin; [done|]. unfold ready. cbn [l_cur l_buf l_n]. exists (drop (length (line ++ LF :: more)) junk). done.
Qed.

(** * Cells *)
Section read.
Context {V : Type} (conv : list byte -> outcome V) (pr : V -> list byte) (valid : V -> Prop).
Context (Hrep : csv_repr conv pr valid).

Lemma skip_field_found delim (t : list byte) rest : delim ∉ t -> skip_field delim (t ++ delim :: rest) = Ok rest.
Proof.
  induction t as [|c t IH]; intros Ht; cbn.
  - by rewrite Nat.eqb_refl.
  - apply not_elem_of_cons in Ht as [Hc Ht]. rewrite (proj2 (Nat.eqb_neq _ _)) by congruence. auto.
Qed.
Lemma parse_cells m idx row : forall c pre rest, Forall valid row -> c + length row = m -> idx + c = length pre -> length row <= length rest ->
  exists pos, forn (length row) c (fun c (s : list byte * list V) =>
    let '(pos, mem) := s in
    let* v := conv pos in
    let* mem := wr mem (idx + c) v in
    if decide (c < m - 1) then let* pos := skip_field COMMA pos in Ok (pos, mem) else Ok (pos, mem)) (csv_line pr row, pre ++ rest)
    = Ok (pos, pre ++ row ++ drop (length row) rest).
Proof.
  induction row as [|v row IH]; intros c pre rest HF Hm Hi Hr.
  - cbn. eauto.
  - apply Forall_cons in HF as [Hv HF]. destruct (Hrep v Hv) as (Hcm & Hlf & Hc0 & Hc1). cbn [length forn csv_line].
    destruct rest as [|x rest]; [cbn in Hr; lia|]. cbn [length] in *.
    assert (Ew : wr (pre ++ x :: rest) (idx + c) v = Ok ((pre ++ [v]) ++ rest)).
    { rewrite wr_Ok by (rewrite app_length; cbn; lia). f_equal. rewrite Hi. rewrite insert_app_r_alt by lia. rewrite Nat.sub_diag. cbn. by rewrite <- app_assoc. }
    destruct row as [|w row].
    + rewrite app_nil_r, Hc0. cbn [obind]. rewrite Ew. cbn [obind length] in *. rewrite decide_False by lia. cbn. eexists. by rewrite <- app_assoc.
    + rewrite Hc1. cbn [obind]. rewrite Ew. cbn [obind]. rewrite decide_True by (cbn [length] in Hm; lia). rewrite skip_field_found by done. cbn [obind].
      destruct (IH (S c) (pre ++ [v]) rest HF) as (pos & E); [lia|rewrite app_length; cbn; lia|lia|]. exists pos. etransitivity; [exact E|]. by rewrite <- app_assoc.
Qed.
Lemma parse_row_ok m idx row pre rest : Forall valid row -> length row = m -> idx = length pre -> m <= length rest ->
  parse_row conv COMMA m (csv_line pr row) idx (pre ++ rest) = Ok (pre ++ row ++ drop m rest).
Proof.
  intros HF Hm Hi Hr. unfold parse_row, for_up. rewrite Nat.sub_0_r. destruct (parse_cells m idx row 0 pre rest HF) as (pos & E); [lia|lia|lia|]. rewrite Hm in E.
  rewrite E. done.
Qed.
Lemma csv_line_lf row : Forall valid row -> (LF : byte) ∉ csv_line pr row.
Proof.
  induction 1 as [|v row Hv HF IH]; [apply not_elem_of_nil|]. destruct (Hrep v Hv) as (Hcm & Hlf & _). cbn [csv_line]. rewrite elem_of_app. intros [Hx|Hx]; [done|].
  destruct row; [by apply elem_of_nil in Hx|]. apply elem_of_cons in Hx as [Hx|Hx]; done.
Qed.
Lemma csv_text_cons row rows : csv_text pr (row :: rows) = (csv_line pr row ++ LF :: csv_text pr rows).
Proof. unfold csv_text. cbn. by rewrite <- app_assoc. Qed.

(** * One segment *)
Notation good m rows := (Forall (fun row => Forall valid row /\ length row = m) rows).
Lemma read_seg_rows_ok num m within rows : good m rows -> forall r st parsed dn mem,
  parsed < num -> ready st (csv_text pr rows) ->
  length dn = parsed * m -> length mem = (num - parsed) * m ->
  let taken := take (num - parsed) (drop (if decide (parsed = 0) then within - r else 0) rows) in
  read_seg_rows conv COMMA num m within (length rows) r st parsed (dn ++ mem) = Ok (parsed + length taken, dn ++ concat taken ++ drop (length (concat taken)) mem).
Proof.
  induction 1 as [|row rows [Hv Hl] HF IH]; intros r st parsed dn mem Hp Hst Hdn Hmem; cbn zeta.
  - rewrite drop_nil, take_nil. cbn. f_equal. f_equal; lia.
  - cbn [length read_seg_rows]. rewrite csv_text_cons in Hst.
    destruct (get_line_ready (S (length (l_rest st))) st _ _ [] Hst) as (st' & E & Hst'); [by apply csv_line_lf|].
    rewrite E. cbn [obind app].
    destruct (decide (parsed = 0 /\ r < within)) as [(-> & Hw)|Hw].
    + rewrite IH by done. rewrite !decide_True by done. replace (within - r) with (S (within - S r)) by lia. done.
    + assert (Hk : (if decide (parsed = 0) then within - r else 0) = 0) by (destruct (decide (parsed = 0)); lia). rewrite Hk. cbn [drop].
      rewrite parse_row_ok; [|done|done|lia|nia]. cbn [obind].
      destruct (num - parsed) as [|k] eqn:Ek; [lia|]. cbn [take concat length].
      destruct (decide (S parsed = num)) as [He|He].
      * assert (k = 0) as -> by lia. rewrite take_0. cbn [concat length]. f_equal. f_equal; [lia|]. rewrite app_nil_r. by rewrite Hl.
      * rewrite app_assoc. rewrite IH; [|lia|done|rewrite app_length; lia|rewrite drop_length; nia].
        rewrite (decide_False (P := S parsed = 0)) by lia. replace (num - S parsed) with k by lia. rewrite drop_0.
        f_equal. f_equal; [lia|]. rewrite <- !app_assoc. do 3 f_equal. rewrite drop_drop, app_length. by rewrite Hl.
Qed.
Lemma read_segment junk num m within rows parsed dn mem : good m rows -> length (csv_text pr rows) <= length junk -> parsed < num ->
  length dn = parsed * m -> length mem = (num - parsed) * m ->
  let taken := take (num - parsed) (drop (if decide (parsed = 0) then within else 0) rows) in
  read_seg_rows conv COMMA num m within (length rows) 0 (mkLS junk None 0 (csv_text pr rows)) parsed (dn ++ mem) = Ok (parsed + length taken, dn ++ concat taken ++ drop (length (concat taken)) mem).
Proof.
  intros HF Hj Hp Hdn Hmem. pose proof (read_seg_rows_ok num m within rows HF 0 (mkLS junk None 0 (csv_text pr rows)) parsed dn mem) as E.
  rewrite Nat.sub_0_r in E. by apply E.
Qed.

(** * All segments *)
Lemma read_csv_loop_ok junk num m within rowss : Forall (fun rows => good m rows /\ length (csv_text pr rows) <= length junk) rowss ->
  forall parsed dn mem, (within = 0 \/ 0 < parsed) -> parsed <= num -> num <= parsed + length (concat rowss) -> length dn = parsed * m -> length mem = (num - parsed) * m ->
  read_csv_loop conv junk COMMA num m within ((fun rows => Some (mkHS (length rows) (csv_text pr rows))) <$> rowss) parsed (dn ++ mem) = Ok (dn ++ concat (take (num - parsed) (concat rowss))).
Proof.
  induction 1 as [|rows rowss [HF Hj] HFF IH]; intros parsed dn mem Hw Hp Hn Hdn Hmem.
  - cbn in Hn. cbn. rewrite decide_False by lia. rewrite take_nil. cbn. replace (num - parsed) with 0 in Hmem by lia. destruct mem; [done|done].
  - cbn [fmap list_fmap read_csv_loop]. destruct (decide (parsed < num)) as [Hlt|Hlt]; cycle 1.
    { replace (num - parsed) with 0 in * by lia. destruct mem; [done|done]. }
    cbn [hs_rows hs_bytes]. rewrite read_segment by done. cbn [obind].
    assert (Hk : (if decide (parsed = 0) then within else 0) = 0) by (destruct (decide (parsed = 0)); lia). rewrite Hk, drop_0.
    set (taken := take (num - parsed) rows). assert (Ht : length taken <= num - parsed) by (unfold taken; rewrite take_length; lia).
    assert (Hgt : Forall (fun row => length row = m) taken). { apply Forall_take. eapply Forall_impl; [exact HF|]. by intros row []. }
    pose proof (concat_width m taken Hgt) as Hct.
    cbn [concat] in *. rewrite app_length in Hn.
    rewrite app_assoc. destruct (decide (num - parsed <= length rows)) as [Hle|Hle].
    + assert (El : length taken = num - parsed) by (unfold taken; rewrite take_length; lia).
      rewrite (drop_ge mem) by nia. rewrite app_nil_r. rewrite take_app_le by done. fold taken.
      destruct (rowss); cbn [fmap list_fmap read_csv_loop]; rewrite decide_False by lia; done.
    + assert (El : taken = rows) by (unfold taken; apply take_ge; lia). rewrite El in *.
      rewrite IH; [|lia|lia|lia|rewrite app_length; nia|rewrite drop_length; nia].
      rewrite <- app_assoc. f_equal. f_equal. rewrite (take_app_ge rows) by lia. rewrite concat_app. do 3 f_equal. lia.
Qed.
(** Starting inside the first segment. *)
Lemma read_csv_loop_inside junk num m within rows rowss mem : Forall (fun rows => good m rows /\ length (csv_text pr rows) <= length junk) (rows :: rowss) ->
  within < length rows -> 0 < num -> within + num <= length (concat (rows :: rowss)) -> length mem = num * m ->
  read_csv_loop conv junk COMMA num m within ((fun rows => Some (mkHS (length rows) (csv_text pr rows))) <$> (rows :: rowss)) 0 mem = Ok (concat (take num (drop within (concat (rows :: rowss))))).
Proof.
  intros HFF Hw Hn Htot Hmem. apply Forall_cons in HFF as [[HF Hj] HFF]. cbn [fmap list_fmap read_csv_loop]. rewrite decide_True by lia. cbn [hs_rows hs_bytes].
  change mem with ([] ++ mem) at 1. rewrite read_segment; [|done|done|done|done|rewrite Nat.sub_0_r; done]. rewrite decide_True by done. cbn [obind]. rewrite Nat.sub_0_r.
  set (taken := take num (drop within rows)). assert (Ht : length taken <= num) by (unfold taken; rewrite take_length; lia).
  assert (Hgt : Forall (fun row => length row = m) taken). { apply Forall_take, Forall_drop. eapply Forall_impl; [exact HF|]. by intros row []. }
  pose proof (concat_width m taken Hgt) as Hct. cbn [concat] in *. rewrite app_length in Htot.
  rewrite drop_app_le by lia. assert (Hdl : length (drop within rows) = length rows - within) by apply drop_length.
  cbn [app]. destruct (decide (num <= length rows - within)) as [Hle|Hle].
  - assert (El : length taken = num) by (unfold taken; rewrite take_length; lia). rewrite El.
    rewrite (drop_ge mem) by nia. rewrite app_nil_r. rewrite take_app_le by lia. fold taken.
    destruct (rowss); cbn [fmap list_fmap read_csv_loop]; rewrite decide_False by lia; done.
  - assert (El : taken = drop within rows) by (unfold taken; apply take_ge; lia).
    rewrite read_csv_loop_ok; [|done|rewrite El; lia|lia|rewrite El; lia|lia|rewrite drop_length; nia].
    f_equal. rewrite El. rewrite take_app_ge by lia. rewrite concat_app. done.
Qed.

(** * A row that crosses the end of the buffer *)
Lemma read_seg_rows_ub num m rows : good m rows -> forall cnt r st parsed dn mem p tail, 
  0 < cnt -> parsed + length rows < num -> l_cur st = Some p -> drop p (l_buf st) = csv_text pr rows ++ tail -> (LF : byte) ∉ tail -> l_n st = length (l_buf st) -> 0 < length (l_buf st) -> 0 < p \/ rows <> [] ->
  length dn = parsed * m -> length mem = (num - parsed) * m ->
  read_seg_rows conv COMMA num m 0 (length rows + cnt) r st parsed (dn ++ mem) = UB.
Proof.
  induction 1 as [|row rows [Hv Hl] HF IH]; intros cnt r st parsed dn mem p tail Hcnt Hp Hc Hd Ht Hn HB Hpos Hdn Hmem.
  - destruct cnt as [|cnt]; [lia|]. cbn [length Nat.add read_seg_rows]. destruct Hpos as [Hpos|?]; [|done]. cbn in Hd.
    assert (E : get_line (S (S (length (l_rest st)))) st [] = UB).
    { cbn [get_line]. rewrite Hc. cbn [obind]. bytes. rewrite memchr_ub; [done|by rewrite Hd|]. rewrite Hn. rewrite drop_length. lia. }
    rewrite E. done.
  - cbn [length Nat.add read_seg_rows]. rewrite csv_text_cons in Hd.
    destruct (get_line_in (S (length (l_rest st))) st p _ _ tail [] Hc Hd) as (st' & E & Hc' & Hd' & Hn' & Hr' & Hb'); [|by apply csv_line_lf|].
    { rewrite Hn. apply (f_equal length) in Hd. rewrite drop_length, app_length in Hd. lia. }
    rewrite E. cbn [obind app]. rewrite decide_False by lia. cbn [length] in Hp. rewrite parse_row_ok; [|done|done|lia|nia]. cbn [obind].
    rewrite decide_False by lia. rewrite app_assoc. apply (IH cnt _ _ _ _ _ (p + length (csv_line pr row) + 1) tail); try done.
    + lia.
    + by rewrite Hn', Hb'.
    + by rewrite Hb'.
    + lia.
    + rewrite app_length. lia.
    + rewrite drop_length. nia.
Qed.
End read.
