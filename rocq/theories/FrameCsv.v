(** C81: a frame written to a CSV file (with its meta data file) and read back. *)
From stdpp Require Import base numbers list.
From Coq Require Import ZArith Znumtheory Lia Zpow_facts.
From Verif Require Import CppBase CsvModel Csv PromoteModel PromoteSpec PromoteProofs FrameCsvModel FrameCsvSpec FrameCsvProofs.
Open Scope Z_scope.

Lemma schema_types {A B} (l : list A) (k : list B) : length l = length k -> map snd (zip l k) = k /\ map fst (zip l k) = l.
Proof.
  revert k. induction l as [|a l IH]; intros [|b k] H; try done. cbn in H |- *. destruct (IH k ltac:(lia)) as [-> ->]. done.
Qed.
Lemma write_read utf8 junk ts labels rows rows' : ts <> [] -> rows <> [] -> length labels = length ts -> forallb utf8 labels = true ->
  Forall2 (reads_row ts) rows rows' ->
  exists m file, write_frame utf8 (mkFrame ts labels rows) = Ok (m, file) /\ read_frame junk m file = Ok (mkFrame ts labels rows').
Proof.
  intros Hts Hrows Hl Hu H. destruct (rows_ok junk ts rows rows' Hts H) as (b & Hw & Hr). destruct (schema_types labels ts Hl) as [Ht Hlb].
  exists (mkMeta (length rows) (length ts) (zip labels ts)), b. unfold write_frame, write_meta. cbn [f_labels f_rows f_types]. rewrite Hu. cbn [obind]. rewrite Hw. split; [done|].
  unfold read_frame. cbn [mt_rows mt_cols mt_schema]. rewrite decide_False by (by destruct rows). rewrite decide_False by (by destruct ts). rewrite Ht, Hlb.
  specialize (Hr 0%nat 0%nat). rewrite Nat.add_0_r in Hr. cbn [seq map] in Hr. rewrite app_nil_r in Hr. rewrite Hr. done.
Qed.

(** The property: types, labels and rows come back. *)
Theorem C81_round_trip utf8 junk f : f_rows f <> [] -> f_types f <> [] -> length (f_labels f) = length (f_types f) ->
  (forall l, l ∈ f_labels f -> utf8 l = true) -> safe_rows (f_types f) (f_rows f) ->
  exists m file, write_frame utf8 f = Ok (m, file) /\ read_frame junk m file = Ok f.
Proof.
  destruct f as [ts labels rows]. cbn [f_rows f_types f_labels]. intros Hr Ht Hl Hu Hs. apply write_read; try done.
  - apply forallb_forall. intros l Hin. apply Hu. by apply elem_of_list_In.
  - unfold safe_rows in Hs. induction Hs as [|vs rows Hv Hs IH]; [done|]. constructor; [by apply reads_row_safe|]. destruct rows; [constructor|]. by apply IH.
Qed.

(** With any floating-point numbers: they come back rounded to six decimal
    places, everything else as it was. *)
Theorem C81_six_places utf8 junk ts labels rows : rows <> [] -> ts <> [] -> length labels = length ts ->
  (forall l, l ∈ labels -> utf8 l = true) -> Forall (Forall2 printable ts) rows ->
  exists m file rows', write_frame utf8 (mkFrame ts labels rows) = Ok (m, file) /\ read_frame junk m file = Ok (mkFrame ts labels rows') /\
    Forall2 (row_comes_back ts) rows rows'.
Proof.
  intros Hr Ht Hl Hu Hs.
  assert (Hcell : forall t v, printable t v -> exists w, reads t v w /\ comes_back t v w).
  { intros t v Hv. destruct v as [z|x|s]; [exists (CInt z); split; [by apply reads_safe|done]| |exists (CStr s); split; [by apply reads_safe|done]].
    cbn [printable] in Hv. exists (CFlt (back t x)). split; [by apply reads_flt|]. cbn [comes_back]. rewrite one_eq. pose proof one_pos as Hone.
    destruct (flt_pk t Hv) as (Hp & Hk & _ & _). unfold back. set (p := prec _) in *. set (k := kmin _) in *. set (N := rne (Z.abs x * 10 ^ 6) one).
    pose proof (rne_close (Z.abs x * 10 ^ 6) one Hone) as Hc. fold N in Hc.
    assert (Hg : forall n, is_flt t (rnd p k (n * one) (10 ^ 6)) /\ forall u, is_flt t u -> Z.abs (rnd p k (n * one) (10 ^ 6) * 10 ^ 6 - n * one) <= Z.abs (u * 10 ^ 6 - n * one)).
    { intros n. split; [apply flt_bits; [done|]; by apply rnd_has_bits|]. intros u Hu'. apply flt_bits in Hu'; [|done]. by apply rnd_nearest. }
    change (10 ^ 6) with 1000000 in *. case_decide.
    - exists (- N). rewrite <- rnd_opp. replace (- (N * one)) with ((- N) * one) by ring. split; [replace (Z.abs x) with (- x) in Hc by lia; clearbody N; lia|]. apply Hg.
    - exists N. split; [replace (Z.abs x) with x in Hc by lia; clearbody N; lia|]. apply Hg. }
  assert (Hrow : forall vs, Forall2 printable ts vs -> exists ws, reads_row ts vs ws /\ row_comes_back ts vs ws).
  { clear -Hcell. intros vs H. induction H as [|t v ts vs Hv _ (ws & IH1 & IH2)]; [exists []; split; constructor|].
    destruct (Hcell t v Hv) as (w & H1 & H2). exists (w :: ws). split; by constructor. }
  assert (Hrows : exists rows', Forall2 (reads_row ts) rows rows' /\ Forall2 (row_comes_back ts) rows rows').
  { clear -Hrow Hs. induction Hs as [|vs rows Hv _ (rows' & IH1 & IH2)]; [exists []; split; constructor|].
    destruct (Hrow vs Hv) as (ws & H1 & H2). exists (ws :: rows'). split; by constructor. }
  destruct Hrows as (rows' & H1 & H2).
  destruct (write_read utf8 junk ts labels rows rows' Ht Hr Hl) as (m & file & E1 & E2); [|done|eauto 6].
  apply forallb_forall. intros l Hin. apply Hu. by apply elem_of_list_In.
Qed.

(** Every decimal number of six places below the bound has a floating-point
    number that stands for it. *)
Theorem C81_every_short_decimal t n : is_flt_type t -> Z.abs n < 2 ^ (significand t - 1) -> exists x, stands_for t x n.
Proof.
  intros Ht Hn. destruct (flt_pk t Ht) as (Hp & Hk & Hsig & Hkm). rewrite <- Hsig in Hn. rewrite one_eq in Hkm. pose proof one_pos as Hone.
  assert (Hk2 : kmin (flt_type t) <= 1068) by (destruct Ht; subst t; vm_compute; discriminate).
  set (p := prec (flt_type t)) in *. set (k := kmin (flt_type t)) in *.
  set (x := rnd p k (n * one) (10 ^ 6)). exists x. unfold stands_for. rewrite one_eq.
  assert (Hx : is_flt t x) by (apply flt_bits; [done|]; by apply rnd_has_bits). split; [done|].
  assert (Hnear : forall u, is_flt t u -> Z.abs (x * 10 ^ 6 - n * one) <= Z.abs (u * 10 ^ 6 - n * one)).
  { intros u Hu. apply flt_bits in Hu; [|done]. by apply rnd_nearest. }
  intros y Hy Hne. pose proof (Hnear y Hy) as Hle. clearbody x.
  assert (Heq : Z.abs (x * 10 ^ 6 - n * one) <> Z.abs (y * 10 ^ 6 - n * one)); [|lia]. intros Heq.
  change (10 ^ 6) with 1000000 in *.
  assert (Hsum : (x + y) * 1000000 = 2 * n * one) by lia.
  assert (Ho : one = 64 * 2 ^ 1068). { rewrite <- one_eq. change 1074 with (6 + 1068). rewrite Z.pow_add_r by lia. reflexivity. }
  assert (Hpp : 0 < 2 ^ 1068) by (apply Z.pow_pos_nonneg; lia). set (P := 2 ^ 1068) in *.
  assert (Hd : (15625 | n)).
  { assert (Hdiv : (15625 | 2 * P * n)) by (exists (x + y); lia).
    apply Z.gauss in Hdiv; [done|]. apply Zgcd_1_rel_prime. apply rel_prime_mult; [apply Zgcd_1_rel_prime; reflexivity|].
    unfold P. apply Zpow_facts.rel_prime_Zpower_r; [lia|]. apply Zgcd_1_rel_prime; reflexivity. }
  destruct Hd as [n' ->].
  assert (Hu : is_flt t (n' * P)).
  { apply flt_bits; [done|]. exists n', 1068. fold p k. split; [|split; [done|reflexivity]].
    assert (2 ^ (p - 1) <= 2 ^ p) by (apply Z.pow_le_mono_r; lia). lia. }
  specialize (Hnear _ Hu). rewrite Ho in *. lia.
Qed.

(** ** What does not come back *)
Lemma atoi_print_big z e rest : ~ (- 2 ^ 31 <= z < 2 ^ 31) -> 0 <= z -> is_digit e = false -> atoi (print_dec z ++ e :: rest) = UB.
Proof.
  intros Hz Hz0 He. destruct (print_dec_digits z Hz0) as (H1 & H2 & H3). unfold atoi.
  destruct (print_dec z) as [|d ds]; [done|]. cbn [app skip_space].
  assert (Hd : is_digit d = true) by (by inversion H1). unfold is_digit in Hd. rewrite andb_true_iff, !Nat.leb_le in Hd.
  assert (Es : is_space d = false). { unfold is_space. apply orb_false_iff. rewrite Nat.eqb_neq, andb_false_iff, !Nat.leb_gt. lia. } rewrite Es.
  rewrite (proj2 (Nat.eqb_neq d 45%nat)), (proj2 (Nat.eqb_neq d 43%nat)) by lia. change (d :: ds ++ e :: rest) with ((d :: ds) ++ e :: rest).
  rewrite digits_val_app by done. rewrite H2. by rewrite decide_False.
Qed.
Lemma atoi_print_neg z e rest : ~ (- 2 ^ 31 <= z < 2 ^ 31) -> z < 0 -> is_digit e = false -> atoi (print_dec z ++ e :: rest) = UB.
Proof.
  intros Hz Hz0 He. destruct (print_dec_digits (- z) ltac:(lia)) as (_ & H2 & _). unfold print_dec in H2. rewrite (proj2 (Z.ltb_ge (- z) 0)) in H2 by lia.
  unfold atoi, print_dec. rewrite (proj2 (Z.ltb_lt z 0)) by lia. cbn [app skip_space]. change (is_space 45%nat) with false. cbn iota. change (45 =? 45)%nat with true. cbn iota.
  rewrite digits_val_app by done. rewrite H2. rewrite Z.opp_involutive. by rewrite decide_False.
Qed.

(** An integer that does not fit an int makes reading undefined behaviour,
    although the column's type holds it. *)
Theorem C81_big_integers_refuted utf8 junk t ts labels z vs rows m file : is_int_type t -> ~ (- 2 ^ 31 <= z < 2 ^ 31) ->
  length labels = S (length ts) -> write_frame utf8 (mkFrame (t :: ts) labels ((CInt z :: vs) :: rows)) = Ok (m, file) -> read_frame junk m file = UB.
Proof.
  intros Ht Hz Hl Hw. unfold write_frame, write_meta in Hw. cbn [f_labels f_rows f_types] in Hw.
  destruct (forallb utf8 labels); cbn [obind] in Hw; [|discriminate Hw].
  destruct (write_rows (t :: ts) ((CInt z :: vs) :: rows)) as [b| |] eqn:Eb; cbn [obind] in Hw; [|discriminate Hw|discriminate Hw]. injection Hw as <- <-.
  assert (Hpc : print_cell t (CInt z) = Ok (print_dec z)). { unfold is_int_type in Ht. repeat (apply elem_of_cons in Ht as [->|Ht]; [reflexivity|]). by apply elem_of_nil in Ht. }
  cbn [write_rows write_row] in Eb. rewrite Hpc in Eb. cbn [obind] in Eb. destruct (write_row ts vs) as [b1| |]; cbn [obind] in Eb; [|discriminate Eb|discriminate Eb].
  destruct (write_rows (t :: ts) rows) as [b2| |]; cbn [obind] in Eb; [|discriminate Eb|discriminate Eb]. injection Eb as <-.
  destruct (schema_types labels (t :: ts) Hl) as [Hts Hlb].
  unfold read_frame. cbn [mt_rows mt_cols mt_schema length]. rewrite !decide_False by done. rewrite Hts.
  assert (He : exists e rest, (match ts with [] => [10%nat] | _ => [44%nat] end ++ b1) ++ b2 = e :: rest /\ is_digit e = false).
  { destruct ts; cbn [app]; eexists _, _; (split; [reflexivity|reflexivity]). }
  destruct He as (e & rest & He & Hde). rewrite <- app_assoc. unfold line, byte in *. rewrite He.
  assert (Hnc : LF ∉ print_dec z). { intros Hin. apply print_dec_chars in Hin as [Hin|Hin]; discriminate Hin. }
  destruct (lines_nonempty (print_dec z ++ e :: rest)) as (cur & ls & El). { intros [_ ?]%app_nil. done. }
  destruct (lines_prefix (print_dec z) e rest cur ls Hnc El) as (p & -> & Hp). apply lines_head in Hp as (p' & -> & _).
  cbn [read_rows]. unfold line, byte in *. rewrite El. cbn [read_row].
  assert (Hat : atoi (print_dec z ++ e :: p') = UB). { destruct (decide (0 <= z)); [by apply atoi_print_big|apply atoi_print_neg; [done|lia|done]]. }
  assert (Hrc : read_cell t ls (print_dec z ++ e :: p') = UB).
  { assert (Hrc : read_cell t ls (print_dec z ++ e :: p') = let* u := atoi (print_dec z ++ e :: p') in Ok (CInt (to_int (int_type t) u), Some (print_dec z ++ e :: p'), ls)).
    { unfold is_int_type in Ht. repeat (apply elem_of_cons in Ht as [->|Ht]; [reflexivity|]). by apply elem_of_nil in Ht. }
    etransitivity; [exact Hrc|]. rewrite Hat. done. }
  unfold line, byte in *. rewrite Hrc. done.
Qed.

(** Numbers of at most half a millionth come back as 0. *)
Theorem C81_small_numbers_refuted utf8 junk t label x : is_flt_type t -> utf8 label = true -> 2 * Z.abs x * 10 ^ 6 <= 2 ^ 1074 ->
  exists m file, write_frame utf8 (mkFrame [t] [label] [[CFlt x]]) = Ok (m, file) /\ read_frame junk m file = Ok (mkFrame [t] [label] [[CFlt 0]]).
Proof.
  intros Ht Hu Hx. rewrite one_eq in Hx. pose proof one_pos as Hone. apply write_read; [done|done|done|cbn; by rewrite Hu|].
  constructor; [|constructor]. constructor; [|constructor].
  assert (Hb : back t x = 0); [|rewrite <- Hb; by apply reads_flt].
  assert (Hr : rne (Z.abs x * 10 ^ 6) one = 0).
  { unfold rne. change (10 ^ 6) with 1000000 in *. rewrite Z.div_small, Z.mod_small by lia. case_decide; [done|]. rewrite decide_False by lia. reflexivity. }
  unfold back. rewrite Hr. change (0 * one) with 0. unfold rnd. change (Z.sgn 0) with 0. case_decide; lia.
Qed.

(** A frame with a column of fixed-size strings cannot be written. *)
Theorem C81_fixed_strings_refuted utf8 ts labels vs rows : CFIX16 ∈ ts -> Forall2 typed ts vs -> Forall (Forall2 typed ts) rows ->
  write_frame utf8 (mkFrame ts labels (vs :: rows)) = Throw.
Proof.
  intros Hin Hv Hs. unfold write_frame, write_meta. cbn [f_labels f_rows f_types]. destruct (forallb utf8 labels); [|done]. cbn [obind].
  assert (Hrow : write_row ts vs = Throw); [|cbn [write_rows]; rewrite Hrow; done].
  clear -Hin Hv. induction Hv as [|t v ts vs Ht Hv IH]; [by apply elem_of_nil in Hin|]. cbn [write_row].
  destruct (decide (t = CFIX16)) as [->|Hne]; [done|]. apply elem_of_cons in Hin as [Hin|Hin]; [congruence|]. rewrite (IH Hin).
  assert (Hp : exists b, print_cell t v = Ok b); [|destruct Hp as [b ->]; done].
  destruct v as [z|x|s]; cbn [typed] in Ht.
  - destruct Ht as [Ht _]. exists (print_dec z). unfold is_int_type in Ht. repeat (apply elem_of_cons in Ht as [->|Ht]; [reflexivity|]). by apply elem_of_nil in Ht.
  - destruct Ht as [[->| ->] _]; by eexists.
  - destruct Ht as [->| ->]; [by eexists|done].
Qed.

(** A frame without rows is written but cannot be read. *)
Theorem C81_no_rows_refuted utf8 junk ts labels : (forall l, l ∈ labels -> utf8 l = true) ->
  exists m file, write_frame utf8 (mkFrame ts labels []) = Ok (m, file) /\ read_frame junk m file = Throw.
Proof.
  intros Hu. unfold write_frame, write_meta. cbn [f_labels f_rows f_types].
  assert (Hf : forallb utf8 labels = true). { apply forallb_forall. intros l Hin. apply Hu. by apply elem_of_list_In. }
  rewrite Hf. cbn [obind write_rows]. eexists _, _. split; [reflexivity|]. done.
Qed.

(** A label that is not UTF-8 makes writing fail. *)
Theorem C81_labels_refuted utf8 f l : l ∈ f_labels f -> utf8 l = false -> write_frame utf8 f = Throw.
Proof.
  intros Hl Hu. unfold write_frame, write_meta.
  destruct (forallb utf8 (f_labels f)) eqn:E; [|done]. rewrite forallb_forall in E. apply elem_of_list_In in Hl. rewrite (E l Hl) in Hu. discriminate Hu.
Qed.

(** A file that lost its last rows is accepted: the missing rows are whatever the
    memory contained. *)
Theorem C81_lost_rows_refuted utf8 junk ts labels rows lost : rows ++ lost <> [] -> ts <> [] -> length labels = length ts ->
  (forall l, l ∈ labels -> utf8 l = true) -> safe_rows ts (rows ++ lost) ->
  exists m file1 file2, write_frame utf8 (mkFrame ts labels (rows ++ lost)) = Ok (m, file1 ++ file2) /\
    (lost <> [] -> file2 <> []) /\
    read_frame junk m file1 = Ok (mkFrame ts labels (rows ++ map junk (seq (length rows) (length lost)))).
Proof.
  intros Hne Ht Hl Hu Hs.
  assert (Hsafe : forall rs, Forall (Forall2 safe_cell ts) rs -> Forall2 (reads_row ts) rs rs).
  { intros rs H. induction H; constructor; [by apply reads_row_safe|done]. }
  apply Forall_app in Hs as [Hs1 Hs2].
  destruct (rows_ok junk ts rows rows Ht (Hsafe _ Hs1)) as (b1 & Hw1 & Hr1). destruct (rows_ok junk ts lost lost Ht (Hsafe _ Hs2)) as (b2 & Hw2 & _).
  destruct (schema_types labels ts Hl) as [Hts Hlb].
  exists (mkMeta (length (rows ++ lost)) (length ts) (zip labels ts)), b1, b2.
  assert (Hf : forallb utf8 labels = true). { apply forallb_forall. intros l Hin. apply Hu. by apply elem_of_list_In. }
  assert (Happ : forall r1 r2 c1 c2, write_rows ts r1 = Ok c1 -> write_rows ts r2 = Ok c2 -> write_rows ts (r1 ++ r2) = Ok (c1 ++ c2)).
  { clear. intros r1 r2 c1 c2. revert c1. induction r1 as [|r r1 IH]; intros c1; cbn [app write_rows]; [by intros [= <-]|].
    destruct (write_row ts r) as [c| |]; cbn [obind]; [|done|done]. destruct (write_rows ts r1) as [c'| |]; cbn [obind]; [|done|done].
    intros [= <-] H2. rewrite (IH c' eq_refl H2). cbn [obind]. by rewrite app_assoc. }
  split; [|split].
  - unfold write_frame, write_meta. cbn [f_labels f_rows f_types]. rewrite Hf. cbn [obind]. rewrite (Happ _ _ _ _ Hw1 Hw2). done.
  - intros Hlost ->. destruct lost as [|r lost]; [done|]. cbn [write_rows] in Hw2. destruct (write_row ts r) as [c| |] eqn:Ec; cbn [obind] in Hw2; [|discriminate Hw2|discriminate Hw2].
    destruct (write_rows ts lost); cbn [obind] in Hw2; [|discriminate Hw2|discriminate Hw2]. injection Hw2 as Hc. apply app_nil in Hc as [-> _]. by eapply write_row_nonempty.
  - unfold read_frame. cbn [mt_rows mt_cols mt_schema]. rewrite decide_False by (by destruct (rows ++ lost)). rewrite decide_False by (by destruct ts). rewrite Hts, Hlb.
    rewrite app_length, Hr1. done.
Qed.

(** ** Non-vacuity *)
(** A frame with a signed and an unsigned integer column, 0.1 and -2.5, and
    strings with a comma, a line feed and quotes. *)
Theorem C81_round_trip_nonvacuous : exists x, stands_for CF64 x 100000 /\
  let rows := [[CInt (-128); CFlt x; CStr [97; 44; 10; 34]%nat; CInt 255]; [CInt 127; CFlt (-5 * 2 ^ 1073); CStr []; CInt 0]] in
  safe_rows [CI8; CF64; CSTR; CU8] rows /\
  forall junk, exists m file, write_frame (fun _ => true) (mkFrame [CI8; CF64; CSTR; CU8] [[97]; [98]; [99]; [100]]%nat rows) = Ok (m, file) /\
    read_frame junk m file = Ok (mkFrame [CI8; CF64; CSTR; CU8] [[97]; [98]; [99]; [100]]%nat rows).
Proof.
  destruct (C81_every_short_decimal CF64 100000) as [x Hx]; [by right|reflexivity|]. exists x. split; [done|]. cbv zeta.
  assert (Hint : forall t z, is_int_type t -> fst (int_range t) <= z <= snd (int_range t) -> - 2 ^ 31 <= z < 2 ^ 31 -> safe_cell t (CInt z)) by (intros; cbn; tauto).
  assert (Hs : safe_rows [CI8; CF64; CSTR; CU8] [[CInt (-128); CFlt x; CStr [97; 44; 10; 34]%nat; CInt 255]; [CInt 127; CFlt (-5 * 2 ^ 1073); CStr []; CInt 0]]).
  { assert (C1 : safe_cell CF64 (CFlt x)). { split; [by right|]. left. exists 100000. split; [reflexivity|done]. }
    assert (C2 : safe_cell CF64 (CFlt (-5 * 2 ^ 1073))).
    { split; [by right|]. right. split.
      - exists (-5), 1073. split; [reflexivity|]. split; [discriminate|reflexivity].
      - exists (-160). change 1074 with (Z.succ 1073). rewrite Z.pow_succ_r by lia. ring. }
    assert (C3 : safe_cell CSTR (CStr [97; 44; 10; 34]%nat)).
    { split; [done|]. split; [|intros _; split; [|split]].
      - repeat (apply not_elem_of_cons; split; [discriminate|]). apply not_elem_of_nil.
      - repeat (apply not_elem_of_cons; split; [discriminate|]). apply not_elem_of_nil.
      - intros s1 s2 E. do 4 (destruct s1 as [|? s1]; [discriminate E|injection E as _ E]). destruct s1; discriminate E.
      - intros s1 E. do 4 (destruct s1 as [|? s1]; [discriminate E|injection E as _ E]). destruct s1; discriminate E. }
    assert (C4 : safe_cell CSTR (CStr [])).
    { split; [done|]. split; [apply not_elem_of_nil|]. intros [H|[H|[H|H]]]; by apply elem_of_nil in H. }
    assert (I1 : is_int_type CI8) by (apply elem_of_list_In; cbn; tauto). assert (I2 : is_int_type CU8) by (apply elem_of_list_In; cbn; tauto).
    unfold safe_rows. repeat (apply Forall_cons; split; [|]); [| |apply Forall_nil; done];
      repeat (apply Forall2_cons; split; [first [assumption|apply Hint; [assumption|cbn; lia|lia]]|]); apply Forall2_nil; done. }
  split; [exact Hs|]. intros junk. apply (C81_round_trip (fun _ => true) junk (mkFrame _ _ _)); [discriminate|discriminate|reflexivity|reflexivity|exact Hs].
Qed.

Print Assumptions C81_round_trip.
Print Assumptions C81_six_places.
Print Assumptions C81_every_short_decimal.
Print Assumptions C81_big_integers_refuted.
Print Assumptions C81_small_numbers_refuted.
Print Assumptions C81_fixed_strings_refuted.
Print Assumptions C81_no_rows_refuted.
Print Assumptions C81_labels_refuted.
Print Assumptions C81_lost_rows_refuted.
Print Assumptions C81_round_trip_nonvacuous.
