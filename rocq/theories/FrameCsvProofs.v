(** Lemmas about writing frames to CSV files and reading them back. *)
From stdpp Require Import base numbers list.
From Coq Require Import ZArith Lia.
From Verif Require Import CppBase CsvModel Csv PromoteModel PromoteSpec PromoteProofs FrameCsvModel FrameCsvSpec.
Open Scope Z_scope.

(** ** Decimal numbers *)
Lemma rne_unique a d m : 0 < d -> 2 * Z.abs (a - m * d) < d -> rne a d = m.
Proof.
  intros Hd Hm. pose proof (Z.div_mod a d ltac:(lia)) as Hdm. pose proof (Z.mod_pos_bound a d Hd) as Hr. unfold rne.
  set (q := a / d) in *. set (r := a mod d) in *. rewrite Hdm in Hm.
  assert (m = q \/ m = q + 1) as [->| ->] by nia.
  - rewrite decide_True by nia. done.
  - rewrite decide_False by nia. rewrite decide_True by nia. done.
Qed.
Lemma rne_nonneg a d : 0 < d -> 0 <= a -> 0 <= rne a d.
Proof. intros Hd Ha. pose proof (rne_bounds a d Hd). pose proof (Z.div_pos a d Ha Hd). lia. Qed.
Lemma rne_close a d : 0 < d -> 2 * Z.abs (rne a d * d - a) <= d.
Proof.
  intros Hd. pose proof (Z.div_mod a d ltac:(lia)) as Hdm. pose proof (Z.mod_pos_bound a d Hd) as Hr. unfold rne.
  set (q := a / d) in *. set (r := a mod d) in *. rewrite Hdm.
  repeat case_decide; [nia|nia|]. destruct (Z.even q); nia.
Qed.
Lemma rnd_opp p k n d : rnd p k (- n) d = - rnd p k n d.
Proof. unfold rnd. rewrite Z.abs_opp, Z.sgn_opp. ring. Qed.
Lemma rnd_nonneg p k n d : 0 <= k -> 0 < d -> 0 <= n -> 0 <= rnd p k n d.
Proof.
  intros Hk Hd Hn. unfold rnd. set (K := Z.max _ _). assert (HK : 0 <= K) by (unfold K; lia).
  pose proof (Z.pow_pos_nonneg 2 K ltac:(lia) HK). pose proof (rne_nonneg (Z.abs n) (d * 2 ^ K) ltac:(nia) ltac:(lia)).
  pose proof (Z.sgn_nonneg n). apply Z.mul_nonneg_nonneg; [apply Z.mul_nonneg_nonneg; [tauto|done]|lia].
Qed.

Lemma dec_digits_all fuel : forall n acc, Forall (fun c => is_digit c = true) acc -> Forall (fun c => is_digit c = true) (dec_digits fuel n acc).
Proof.
  induction fuel as [|f IH]; intros n acc H; [done|]. cbn [dec_digits].
  destruct (digit_ok (n mod 10)) as [D1 _]; [apply Z.mod_pos_bound; lia|].
  destruct (n <? 10); [by constructor|]. apply IH. by constructor.
Qed.
Lemma print_dec_digits n : 0 <= n -> Forall (fun c => is_digit c = true) (print_dec n) /\ digits_val (print_dec n) 0 = n /\ print_dec n <> [].
Proof.
  intros Hn. unfold print_dec. rewrite (proj2 (Z.ltb_ge n 0)) by lia. split; [by apply dec_digits_all|]. split.
  - destruct (dec_digits_val (S (Z.to_nat (Z.log2 n))) n [] 0) as (k & _ & _ & _ & ->); [split; [lia|apply log2_fuel; lia]|]. cbn [digits_val]. lia.
  - destruct (dec_digits_first (S (Z.to_nat (Z.log2 n))) n [] ltac:(done)) as (d & ds & -> & _). done.
Qed.
Lemma dlen_app s e rest : Forall (fun c => is_digit c = true) s -> is_digit e = false -> dlen (s ++ e :: rest) = length s.
Proof.
  intros Hs He. induction Hs as [|c s Hc Hs IH]; cbn [app dlen length]; [by rewrite He|]. rewrite Hc, IH. done.
Qed.
Lemma digits_val_digits s t a : Forall (fun c => is_digit c = true) s -> digits_val (s ++ t) a = digits_val t (digits_val s a).
Proof.
  intros Hs. revert a. induction Hs as [|c s Hc Hs IH]; intros a; cbn [app digits_val]; [done|]. rewrite Hc. apply IH.
Qed.
Lemma pad_digits k : forall r a, 0 <= r < 10 ^ Z.of_nat k ->
  Forall (fun c => is_digit c = true) (pad k r) /\ length (pad k r) = k /\ digits_val (pad k r) a = a * 10 ^ Z.of_nat k + r.
Proof.
  induction k as [|k IH]; intros r a Hr.
  - cbn [pad length digits_val]. change (10 ^ Z.of_nat 0) with 1 in *. split; [done|]. split; [done|]. lia.
  - rewrite Nat2Z.inj_succ, Z.pow_succ_r in * by lia. cbn [pad].
    destruct (digit_ok (r mod 10)) as [D1 D2]; [apply Z.mod_pos_bound; lia|].
    pose proof (Z.div_mod r 10 ltac:(lia)). pose proof (Z.mod_pos_bound r 10 ltac:(lia)).
    destruct (IH (r / 10) a) as (H1 & H2 & H3). { split; [apply Z.div_pos; lia|apply Z.div_lt_upper_bound; lia]. }
    split; [apply Forall_app; split; [done|by constructor]|]. split; [rewrite app_length, H2; cbn; lia|].
    rewrite digits_val_digits by done. cbn [digits_val]. rewrite D1, D2, H3. lia.
Qed.

(** What is read for a printed floating-point number. *)
Definition back (t : ctype) (x : Z) : Z :=
  let y := rnd (prec (flt_type t)) (kmin (flt_type t)) (rne (Z.abs x * 10 ^ 6) one * one) (10 ^ 6) in
  if decide (x < 0) then - y else y.
Lemma strtod_abs_print p k n e rest : 0 <= n -> is_digit e = false ->
  strtod_abs p k (print_dec (n / 10 ^ 6) ++ [46%nat] ++ pad 6 (n mod 10 ^ 6) ++ e :: rest) = rnd p k (n * one) (10 ^ 6).
Proof.
  intros Hn He. destruct (print_dec_digits (n / 10 ^ 6)) as (H1 & H2 & _). { apply Z.div_pos; [lia|reflexivity]. }
  destruct (pad_digits 6 (n mod 10 ^ 6) (n / 10 ^ 6)) as (P1 & P2 & P3). { apply Z.mod_pos_bound. reflexivity. }
  unfold strtod_abs. cbn [app]. rewrite digits_val_app by reflexivity. rewrite H2.
  rewrite dlen_app by (done || reflexivity). rewrite drop_app. change (Nat.eqb 46 46) with true. cbn iota.
  rewrite digits_val_app by done. rewrite P3. rewrite dlen_app by done. rewrite P2.
  change (Z.of_nat 6) with 6. f_equal. f_equal. pose proof (Z.div_mod n (10 ^ 6) ltac:(discriminate)). lia.
Qed.
Lemma strtod_print t x e rest : is_digit e = false ->
  strtod (prec (flt_type t)) (kmin (flt_type t)) (print_f x ++ e :: rest) = back t x.
Proof.
  intros He. unfold strtod, back, print_f. set (n := rne (Z.abs x * 10 ^ 6) one).
  assert (Hn : 0 <= n) by (apply rne_nonneg; [apply one_pos|lia]).
  case_decide.
  - cbn [app skip_space]. change (is_space 45%nat) with false. cbn iota. change (Nat.eqb 45 45) with true. cbn iota.
    rewrite <- app_assoc. cbn [app]. rewrite <- strtod_abs_print with (e := e) (rest := rest) by done. cbn [app]. done.
  - cbn [app]. destruct (print_dec_digits (n / 10 ^ 6)) as (H1 & _ & H3). { apply Z.div_pos; [lia|reflexivity]. }
    rewrite <- (strtod_abs_print (prec (flt_type t)) (kmin (flt_type t)) n e rest) by done. rewrite <- app_assoc. cbn [app].
    destruct (print_dec (n / 10 ^ 6)) as [|d ds]; [done|]. cbn [app skip_space].
    assert (Hd : is_digit d = true) by (by inversion H1).
    unfold is_digit in Hd. rewrite andb_true_iff, !Nat.leb_le in Hd.
    assert (Es : is_space d = false). { unfold is_space. apply orb_false_iff. rewrite Nat.eqb_neq, andb_false_iff, !Nat.leb_gt. lia. } rewrite Es.
    rewrite (proj2 (Nat.eqb_neq d 45%nat)), (proj2 (Nat.eqb_neq d 43%nat)) by lia. done.
Qed.
Lemma print_f_chars x c : c ∈ print_f x -> c = 45%nat \/ c = 46%nat \/ is_digit c = true.
Proof.
  unfold print_f. set (n := rne (Z.abs x * 10 ^ 6) one).
  destruct (pad_digits 6 (n mod 10 ^ 6) 0) as (P1 & _). { apply Z.mod_pos_bound. reflexivity. }
  intros [H|[H|[H|H]%elem_of_app]%elem_of_app]%elem_of_app.
  - case_decide; [apply elem_of_list_singleton in H; tauto|by apply elem_of_nil in H].
  - apply print_dec_chars in H. tauto.
  - apply elem_of_list_singleton in H. tauto.
  - rewrite Forall_forall in P1. right; right. by apply P1.
Qed.

(** ** Cells *)
Definition reads (t : ctype) (v w : cell) : Prop :=
  exists b, print_cell t v = Ok b /\ forall e rest cur ls, e = 44%nat \/ e = 10%nat -> lines_of (b ++ e :: rest) = cur :: ls ->
    exists s p ls', read_cell t ls cur = Ok (w, Some (s ++ p), ls') /\ 44%nat ∉ s /\ lines_of (e :: rest) = p :: ls'.

Lemma reads_int t z : is_int_type t -> fst (int_range t) <= z <= snd (int_range t) -> - 2 ^ 31 <= z < 2 ^ 31 -> reads t (CInt z) (CInt z).
Proof.
  intros Ht Hr Hz. exists (print_dec z).
  assert (Hnc : forall c, c = 44%nat \/ c = 10%nat -> c ∉ print_dec z).
  { intros c Hc Hin. apply print_dec_chars in Hin as [->|Hin]; [lia|]. destruct Hc as [->| ->]; discriminate Hin. }
  assert (Hid : to_int (int_type t) z = z).
  { assert (Hlh : lo (int_type t) = fst (int_range t) /\ hi (int_type t) = snd (int_range t)).
    { unfold is_int_type in Ht. repeat (apply elem_of_cons in Ht as [->|Ht]; [split; reflexivity|]). by apply elem_of_nil in Ht. }
    destruct Hlh as [Hlo Hhi]. apply to_int_id; [destruct t; reflexivity|]. rewrite Hlo, Hhi. exact Hr. }
  split.
  { unfold is_int_type in Ht. repeat (apply elem_of_cons in Ht as [->|Ht]; [reflexivity|]). by apply elem_of_nil in Ht. }
  intros e rest cur ls He Hl. destruct (lines_prefix (print_dec z) e rest cur ls (Hnc 10%nat ltac:(by right)) Hl) as (p & -> & Hp).
  exists (print_dec z), p, ls. split; [|split; [apply Hnc; by left|done]].
  pose proof Hp as Hp2. apply lines_head in Hp2 as (p' & -> & _).
  assert (Hat : atoi (print_dec z ++ e :: p') = Ok z). { apply atoi_print; [done|]. destruct He as [->| ->]; reflexivity. }
  assert (Hrc : read_cell t ls (print_dec z ++ e :: p') = let* u := atoi (print_dec z ++ e :: p') in Ok (CInt (to_int (int_type t) u), Some (print_dec z ++ e :: p'), ls)).
  { unfold is_int_type in Ht. repeat (apply elem_of_cons in Ht as [->|Ht]; [reflexivity|]). by apply elem_of_nil in Ht. }
  etransitivity; [exact Hrc|]. rewrite Hat. cbn [obind]. rewrite Hid. done.
Qed.
Lemma reads_flt t x : is_flt_type t -> reads t (CFlt x) (CFlt (back t x)).
Proof.
  intros Ht. exists (print_f x).
  assert (Hnc : forall c, c = 44%nat \/ c = 10%nat -> c ∉ print_f x).
  { intros c Hc Hin. apply print_f_chars in Hin as [->|[->|Hin]]; [lia|lia|]. destruct Hc as [->| ->]; discriminate Hin. }
  split; [by destruct Ht as [->| ->]|].
  intros e rest cur ls He Hl. destruct (lines_prefix (print_f x) e rest cur ls (Hnc 10%nat ltac:(by right)) Hl) as (p & -> & Hp).
  exists (print_f x), p, ls. split; [|split; [apply Hnc; by left|done]].
  pose proof Hp as Hp2. apply lines_head in Hp2 as (p' & -> & _).
  rewrite <- (strtod_print t x e p') by (destruct He as [->| ->]; reflexivity).
  by destruct Ht as [->| ->].
Qed.
Lemma reads_str s : csv_safe s -> reads CSTR (CStr s) (CStr s).
Proof.
  intros Hs. exists (print_str s). split; [done|]. intros e rest cur ls He Hl.
  destruct (read_field s cur ls e rest Hs He Hl) as (p & ls' & E & Hp). exists [], p, ls'.
  cbn [read_cell app]. change 44%nat with COMMA. rewrite E. cbn [obind]. split; [done|]. split; [apply not_elem_of_nil|done].
Qed.

(** ** Rows *)
Inductive reads_row : list ctype -> list cell -> list cell -> Prop :=
| rr_nil : reads_row [] [] []
| rr_cons t ts v vs w ws : reads t v w -> reads_row ts vs ws -> reads_row (t :: ts) (v :: vs) (w :: ws).
Lemma write_row_total ts vs ws : reads_row ts vs ws -> exists b, write_row ts vs = Ok b.
Proof.
  induction 1 as [|t ts v vs w ws (b & Hb & _) _ (b' & IH)]; [by exists []|]. cbn [write_row]. rewrite Hb, IH. cbn [obind]. eauto.
Qed.
Lemma write_row_nonempty ts vs b : ts <> [] -> write_row ts vs = Ok b -> b <> [].
Proof.
  destruct ts as [|t ts]; [done|]. intros _. cbn [write_row]. destruct vs as [|v vs]; [done|].
  destruct (print_cell t v); [|done|done]. cbn [obind]. destruct (write_row ts vs); [|done|done]. cbn [obind]. intros [= <-] H.
  apply app_nil in H as [_ H]. apply app_nil in H as [H _]. by destruct ts.
Qed.
Lemma read_row_ok ts vs ws : reads_row ts vs ws -> ts <> [] -> forall b rest cur ls, write_row ts vs = Ok b -> lines_of (b ++ rest) = cur :: ls ->
  read_row ts ls cur = Ok (ws, lines_of rest).
Proof.
  induction 1 as [|t ts v vs w ws (b0 & Hb0 & Hr) Hrs IH]; intros Hne b rest cur ls Hw Hl; [done|].
  cbn [write_row] in Hw. rewrite Hb0 in Hw. cbn [obind] in Hw. destruct (write_row ts vs) as [b1| |] eqn:E1; cbn [obind] in Hw; [|discriminate Hw|discriminate Hw].
  injection Hw as <-. destruct Hrs as [|t2 ts v2 vs w2 ws Hr2 Hrs].
  - cbn [write_row] in E1. injection E1 as <-. rewrite app_nil_r, <- app_assoc in Hl. cbn [app] in Hl.
    destruct (Hr 10%nat rest cur ls ltac:(by right) Hl) as (s & p & ls' & Hrc & _ & Hp). cbn [read_row]. rewrite Hrc. cbn [obind].
    change 10%nat with LF in Hp. rewrite lines_LF in Hp. injection Hp as _ <-. done.
  - rewrite <- !app_assoc in Hl. cbn [app] in Hl.
    destruct (Hr 44%nat (b1 ++ rest) cur ls ltac:(by left) Hl) as (s & p & ls' & Hrc & Hs & Hp).
    apply lines_head in Hp as (p' & -> & Hp & _). specialize (Hp ltac:(done)).
    assert (Hb1 : b1 <> []) by (eapply write_row_nonempty; [|exact E1]; done).
    specialize (Hp ltac:(intros [? _]%app_nil; done)).
    specialize (IH ltac:(done) b1 rest p' ls' eq_refl Hp).
    remember (t2 :: ts) as ts2 eqn:Ets. cbn [read_row]. rewrite Hrc. cbn [obind]. rewrite Ets. cbn iota. rewrite <- Ets.
    assert (Hsk : skip_field 44%nat (s ++ 44%nat :: p') = Ok p') by (by apply skip_field_ok). unfold line, byte in *. rewrite Hsk. cbn [obind]. rewrite IH. done.
Qed.
Lemma rows_ok junk ts rows rows' : ts <> [] -> Forall2 (reads_row ts) rows rows' ->
  exists b, write_rows ts rows = Ok b /\ forall n r, read_rows junk ts (length rows + n) r (lines_of b) = Ok (rows' ++ map junk (seq (r + length rows) n)).
Proof.
  intros Hts H. induction H as [|vs ws rows rows' H _ (b & IH1 & IH2)].
  - exists []. split; [done|]. intros [|n] r; [done|]. cbn [length lines_of]. rewrite Nat.add_0_r. done.
  - destruct (write_row_total ts vs ws H) as (b0 & E0). exists (b0 ++ b). cbn [write_rows]. rewrite E0, IH1. split; [done|]. intros n r.
    cbn [length Nat.add read_rows].
    destruct (lines_nonempty (b0 ++ b)) as (cur & ls & El). { intros [? _]%app_nil. by eapply write_row_nonempty. }
    rewrite El. rewrite (read_row_ok ts vs ws H Hts b0 b cur ls E0 El). cbn [obind]. rewrite IH2. cbn [obind app]. rewrite Nat.add_succ_r. done.
Qed.

(** ** Floating-point numbers that survive *)
Lemma flt_bits t x : is_flt_type t -> is_flt t x <-> has_bits (prec (flt_type t)) (kmin (flt_type t)) x.
Proof. intros [->| ->]; unfold is_flt; [apply (holds_float F32)|apply (holds_float F64)]; tauto. Qed.
Lemma flt_pk t : is_flt_type t -> 0 < prec (flt_type t) /\ 0 <= kmin (flt_type t) /\ prec (flt_type t) = significand t /\ 10 ^ 6 * 2 ^ kmin (flt_type t) < 2 ^ 1074.
Proof. intros [->| ->]; vm_compute; repeat split; discriminate. Qed.
Lemma has_bits_abs p k x : has_bits p k x -> has_bits p k (Z.abs x).
Proof.
  intros (m & j & Hm & Hj & ->). exists (Z.abs m), j. split; [lia|]. split; [done|]. rewrite Z.abs_mul. f_equal. apply Z.abs_eq, Z.pow_nonneg. lia.
Qed.
Lemma back_exact t x m : is_flt_type t -> is_flt t x -> 64 * x = m * 2 ^ 1074 -> back t x = x.
Proof.
  intros Ht Hx Hm. rewrite one_eq in Hm. pose proof one_pos. destruct (flt_pk t Ht) as (Hp & Hk & _ & _). apply flt_bits in Hx; [|done]. unfold back.
  assert (Ha : 64 * Z.abs x = Z.abs m * one). { rewrite <- (Z.abs_eq 64), <- (Z.abs_eq one) at 1 by lia. rewrite <- !Z.abs_mul. by rewrite Hm. }
  assert (HN : Z.abs x * 10 ^ 6 = (Z.abs m * 15625) * one). { change (10 ^ 6) with (64 * 15625). lia. }
  rewrite HN, rne_exact by done. rewrite <- HN. rewrite rnd_exact; [|done|done|reflexivity|by apply has_bits_abs]. case_decide; lia.
Qed.
Lemma back_six t x n : is_flt_type t -> Z.abs n < 2 ^ (significand t - 1) -> stands_for t x n -> back t x = x.
Proof.
  intros Ht Hn [Hx Hs]. rewrite one_eq in Hs. pose proof one_pos as Hone. destruct (flt_pk t Ht) as (Hp & Hk & Hsig & Hkm). rewrite one_eq in Hkm.
  pose proof Hx as Hxb. apply flt_bits in Hxb; [|done].
  set (p := prec (flt_type t)) in *. set (k := kmin (flt_type t)) in *.
  (* x is the rounding of the decimal number *)
  assert (HR : rnd p k (n * one) (10 ^ 6) = x).
  { destruct (decide (rnd p k (n * one) (10 ^ 6) = x)) as [|Hne]; [done|]. exfalso.
    pose proof (rnd_nearest p k (n * one) (10 ^ 6) x Hp Hk ltac:(reflexivity) Hxb).
    assert (Hy : is_flt t (rnd p k (n * one) (10 ^ 6))) by (apply flt_bits; [done|]; by apply rnd_has_bits).
    specialize (Hs _ Hy Hne). lia. }
  (* it is less than half a millionth away *)
  assert (Hclose : 2 * Z.abs (x * 10 ^ 6 - n * one) < one).
  { rewrite <- HR. unfold rnd. set (a := Z.abs (n * one)). set (K := Z.max k _).
    assert (HK : 0 <= K) by (unfold K; lia). pose proof (Z.pow_pos_nonneg 2 K ltac:(lia) HK) as HP.
    assert (HD : 0 < 10 ^ 6 * 2 ^ K) by (change (10 ^ 6) with 1000000; lia).
    pose proof (rne_close a (10 ^ 6 * 2 ^ K) HD) as Hc.
    assert (Hsg : Z.abs (Z.sgn (n * one) * rne a (10 ^ 6 * 2 ^ K) * 2 ^ K * 10 ^ 6 - n * one) <= Z.abs (rne a (10 ^ 6 * 2 ^ K) * (10 ^ 6 * 2 ^ K) - a)).
    { assert (Hno : n * one = Z.sgn (n * one) * a) by (unfold a; destruct (n * one); cbn; lia).
      assert (Hg : forall s b N r P D, N = s * b -> s * r * P * D - N = s * (r * (D * P) - b)) by (intros; subst; ring).
      rewrite (Hg _ a) by done. rewrite Z.abs_mul. assert (Z.abs (Z.sgn (n * one)) <= 1) by (destruct (n * one); cbn; lia). nia. }
    assert (Hlt : 10 ^ 6 * 2 ^ K < one); [|lia].
    destruct (Z.max_spec k (Z.log2 (a / 10 ^ 6) + 1 - p)) as [[Hlt Hmax]|[_ Hmax]]; fold K in Hmax; [|rewrite Hmax; done].
    assert (Hpos : 0 < a / 10 ^ 6). { destruct (decide (0 < a / 10 ^ 6)); [done|]. rewrite (Z.log2_nonpos (a / 10 ^ 6)) in Hlt by lia. lia. }
    destruct (Z.log2_spec (a / 10 ^ 6) Hpos) as [Hlog _].
    replace (Z.log2 (a / 10 ^ 6)) with ((p - 1) + K) in Hlog by lia. rewrite Z.pow_add_r in Hlog by lia.
    pose proof (Z.mul_div_le a (10 ^ 6) ltac:(reflexivity)) as Hml. rewrite <- Hsig in Hn.
    pose proof (Z.pow_pos_nonneg 2 (p - 1) ltac:(lia) ltac:(lia)) as HQ. set (Q := 2 ^ (p - 1)) in *. set (P := 2 ^ K) in *.
    assert (Ha : a = Z.abs n * one) by (unfold a; rewrite Z.abs_mul, (Z.abs_eq one) by lia; done).
    change (10 ^ 6) with 1000000 in *.
    assert (1000000 * (Q * P) <= Z.abs n * one) by lia.
    assert (Q * (1000000 * P) < Q * one) by nia. nia. }
  (* signs *)
  assert (Hrne : rne (Z.abs x * 10 ^ 6) one = Z.abs n).
  { apply rne_unique; [done|]. assert (Z.abs (Z.abs x * 10 ^ 6 - Z.abs n * one) <= Z.abs (x * 10 ^ 6 - n * one)); [|lia].
    change (10 ^ 6) with 1000000. rewrite <- (Z.abs_eq one) at 1 by lia. rewrite <- Z.abs_mul. lia. }
  unfold back. fold p k. rewrite Hrne.
  pose proof (rnd_nonneg p k (Z.abs n * one) (10 ^ 6) Hk ltac:(reflexivity) ltac:(nia)) as Hnn.
  destruct (decide (0 <= n)) as [Hn0|Hn0].
  - rewrite Z.abs_eq in * by done. rewrite HR in *. case_decide; lia.
  - replace (Z.abs n * one) with (- (n * one)) in * by nia. rewrite rnd_opp, HR in *. case_decide; lia.
Qed.
Lemma reads_safe t v : safe_cell t v -> reads t v v.
Proof.
  destruct v as [z|x|s]; cbn [safe_cell].
  - intros (? & ? & ?). by apply reads_int.
  - intros (Ht & [(n & Hn & Hs)|(Hx & m & Hm)]).
    + rewrite <- (back_six t x n Ht Hn Hs) at 2. by apply reads_flt.
    + rewrite <- (back_exact t x m Ht Hx Hm) at 2. by apply reads_flt.
  - intros (-> & Hs). by apply reads_str.
Qed.
Lemma reads_row_safe ts vs : Forall2 safe_cell ts vs -> reads_row ts vs vs.
Proof. induction 1; constructor; [by apply reads_safe|done]. Qed.
