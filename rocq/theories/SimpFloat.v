(** Facts about IEEE 754 arithmetic ([Coq.Floats.SpecFloat]) that the simplifications need: addition and multiplication commute, multiplication by -1 is exact. *)
From Coq Require Import Floats.SpecFloat.
From stdpp Require Import base numbers list.
From Verif Require Import CppBase SimpSpec.
Local Open Scope Z_scope.

Lemma SFmul_comm p e x y : SFmul p e x y = SFmul p e y x.
Proof.
  destruct x as [sx|sx| |sx mx ex], y as [sy|sy| |sy my ey]; cbn [SFmul]; try reflexivity; try (f_equal; apply xorb_comm).
  by rewrite (xorb_comm sx sy), (Pos.mul_comm mx my), (Z.add_comm ex ey).
Qed.
Lemma SFadd_comm p e x y : SFadd p e x y = SFadd p e y x.
Proof.
  destruct x as [sx|sx| |sx mx ex], y as [sy|sy| |sy my ey]; cbn [SFadd]; try reflexivity; try (destruct sx, sy; reflexivity).
  by rewrite (Z.min_comm ex ey), Z.add_comm.
Qed.
Lemma SFopp_involutive x : SFopp (SFopp x) = x.
Proof. destruct x; cbn; rewrite ?negb_involutive; reflexivity. Qed.
Lemma SFsub_add p e x y : SFsub p e x y = SFadd p e (SFopp y) x.
Proof.
  rewrite SFadd_comm. destruct x as [sx|sx| |sx mx ex], y as [sy|sy| |sy my ey]; cbn [SFadd SFsub SFopp]; try reflexivity.
  f_equal. destruct sy; cbn [negb cond_Zopp]; lia.
Qed.

(** ** Rounding a number that needs none *)

Lemma iter_pos_nat {A} (f : A -> A) n x : SpecFloat.iter_pos f n x = Nat.iter (Pos.to_nat n) f x.
Proof.
  revert x; induction n as [n IH|n IH|]; intros x; cbn [SpecFloat.iter_pos].
  - rewrite !IH, Pos2Nat.inj_xI. rewrite <- Nat.iter_add. replace (S (2 * Pos.to_nat n)) with (Pos.to_nat n + Pos.to_nat n + 1)%nat by lia.
    rewrite (Nat.iter_add _ 1). reflexivity.
  - rewrite !IH, Pos2Nat.inj_xO, <- Nat.iter_add. f_equal; lia.
  - reflexivity.
Qed.
Lemma digits_shift m k : Zpos (digits2_pos (Nat.iter k xO m)) = Zpos (digits2_pos m) + Z.of_nat k.
Proof. induction k as [|k IH]; cbn [Nat.iter nat_rect digits2_pos]; [lia|]. unfold Nat.iter in IH. rewrite Pos2Z.inj_succ, IH. lia. Qed.
Lemma shr_shift m k : Nat.iter k shr_1 (Build_shr_record (Zpos (Nat.iter k xO m)) false false) = Build_shr_record (Zpos m) false false.
Proof.
  induction k as [|k IH]; [reflexivity|].
  replace (S k) with (k + 1)%nat by lia. rewrite Nat.iter_add.
  replace (Nat.iter 1 shr_1 _) with (Build_shr_record (Zpos (Nat.iter k xO m)) false false); [done|].
  rewrite (Nat.add_comm k 1), Nat.iter_add. reflexivity.
Qed.
Lemma round_exact p emx s m e k : bounded p emx m e = true -> binary_round_aux p emx s (Zpos (Nat.iter k xO m)) (e - Z.of_nat k) loc_Exact = S754_finite s m e.
Proof.
  intros Hb. unfold bounded, canonical_mantissa in Hb. apply andb_prop in Hb as [Hc Hle]. apply Zeq_bool_eq in Hc.
  unfold binary_round_aux, shr_fexp. cbn [Zdigits2]. rewrite digits_shift.
  replace (Zpos (digits2_pos m) + Z.of_nat k + (e - Z.of_nat k)) with (Zpos (digits2_pos m) + e) by lia. rewrite Hc.
  replace (e - (e - Z.of_nat k)) with (Z.of_nat k) by lia.
  assert (Hs : shr (shr_record_of_loc (Zpos (Nat.iter k xO m)) loc_Exact) (e - Z.of_nat k) (Z.of_nat k) = (Build_shr_record (Zpos m) false false, e)).
  { destruct k as [|k]; cbn [shr Z.of_nat shr_record_of_loc].
    - rewrite Z.sub_0_r. reflexivity.
    - apply pair_equal_spec; split; [|lia]. rewrite iter_pos_nat. rewrite SuccNat2Pos.id_succ. apply shr_shift. }
  rewrite Hs. cbn [shr_m loc_of_shr_record round_nearest_even Zdigits2]. rewrite Hc, Z.sub_diag. cbn [shr shr_record_of_loc shr_m]. by rewrite Hle.
Qed.
Lemma normalize_exact p emx s m e z : bounded p emx m e = true -> binary_normalize p emx (cond_Zopp s (Zpos m)) e z = S754_finite s m e.
Proof.
  intros Hb. assert (Hr : binary_round p emx s m e = S754_finite s m e).
  { unfold binary_round. pose proof Hb as Hb'. unfold bounded, canonical_mantissa in Hb'. apply andb_prop in Hb' as [Hc _]. apply Zeq_bool_eq in Hc.
    unfold shl_align. rewrite Hc, Z.sub_diag. pose proof (round_exact p emx s m e 0 Hb) as H. cbn [Nat.iter nat_rect Z.of_nat] in H. by rewrite Z.sub_0_r in H. }
  destruct s; cbn [cond_Zopp Z.opp binary_normalize]; exact Hr.
Qed.
Lemma round_opp p emx s m e : binary_round p emx (negb s) m e = SFopp (binary_round p emx s m e).
Proof.
  unfold binary_round. destruct (shl_align _ _ _) as [mz ez]. unfold binary_round_aux. destruct (shr_fexp _ _ _ _ _) as [r1 e1].
  destruct (shr_fexp _ _ _ _ _) as [r2 e2]. destruct (shr_m r2); try reflexivity. by destruct (_ <=? _).
Qed.
Lemma normalize_opp p emx z e s s' : z <> 0 -> binary_normalize p emx (- z) e s = SFopp (binary_normalize p emx z e s').
Proof. intros Hz. destruct z as [|m|m]; [done| |]; cbn [Z.opp binary_normalize]; [apply (round_opp p emx false)|apply (round_opp p emx true)]. Qed.

(** multiplication by -1 only changes the sign *)
Lemma SFmul_minus_one t x : is_flt t = true -> valid_binary (prec t) (emax t) x = true ->
  SFmul (prec t) (emax t) x (binary_normalize (prec t) (emax t) (-1) 0 false) = SFopp x.
Proof.
  intros Ht Hx.
  assert (H1 : binary_normalize (prec t) (emax t) (-1) 0 false = S754_finite true (Nat.iter (Z.to_nat (prec t - 1)) xO 1%positive) (1 - prec t)) by (destruct t; try done).
  rewrite H1. clear H1.
  destruct x as [sx|sx| |sx mx ex]; cbn [SFmul SFopp]; try (rewrite xorb_true_r; reflexivity); [reflexivity|].
  rewrite xorb_true_r.
  replace (mx * Nat.iter (Z.to_nat (prec t - 1)) xO 1)%positive with (Nat.iter (Z.to_nat (prec t - 1)) xO mx)
    by (rewrite Pos.mul_comm; destruct t; done).
  replace (ex + (1 - prec t)) with (ex - Z.of_nat (Z.to_nat (prec t - 1))) by (destruct t; try done; cbn; lia).
  by apply round_exact.
Qed.
