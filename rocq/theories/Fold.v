(** C56: folding operations on constant integers at compile time gives what the kernels compute. *)
From stdpp Require Import base numbers list.
From Coq Require Import ZArith Lia.
From Verif Require Import CppBase FoldModel.
Local Open Scope Z_scope.

(** * Specification *)
(** The number a constant stands for *)
Definition val (c : const) : Z := if is_signed (fst c) then sval (width (fst c)) (snd c) else snd c.
(** The bits fit the type *)
Definition wf (c : const) : Prop := 0 <= snd c < 2 ^ width (fst c).
(** A negative number would be converted to a wider unsigned type *)
Definition widens_negative (c : const) (t : ity) : Prop := is_signed (fst c) = true /\ val c < 0 /\ is_unsigned t = true /\ width (fst c) < width t.
(** What is left out of the claim *)
Definition safe (o : bop) (l r : const) : Prop :=
  ~ widens_negative l (fst r) /\ ~ widens_negative r (fst l) /\
  (o = Add -> ~ (l = (TBool, 1) /\ r = (TBool, 1))) /\
  (o = Mod -> let t := most_general (fst l) (fst r) in Z.abs (conv t (val l)) <= 2 ^ 53 /\ Z.abs (conv t (val r)) <= 2 ^ 53).

(** * Conversions *)
Lemma width_pos t : 0 < width t.
Proof. by destruct t as [|[] []|]. Qed.
Lemma pow_half w : 0 < w -> 2 ^ w = 2 * 2 ^ (w - 1).
Proof. intros H. rewrite <- Z.pow_succ_r by lia. f_equal. lia. Qed.
Lemma sval_mod w b : 0 < w -> sval w (b mod 2 ^ w) = (b + 2 ^ (w - 1)) mod 2 ^ w - 2 ^ (w - 1).
Proof.
  intros Hw. unfold sval. pose proof (pow_half w Hw) as E. pose proof (Z.pow_pos_nonneg 2 (w - 1) ltac:(lia) ltac:(lia)) as Hp. set (h := 2 ^ (w - 1)) in *. rewrite E in *. clearbody h.
  pose proof (Z.mod_pos_bound b (2 * h) ltac:(lia)) as Hb. pose proof (Z.div_mod b (2 * h) ltac:(lia)) as Eb. set (q := b / (2 * h)) in *. set (r := b mod (2 * h)) in *. clearbody q r.
  destruct (Z.ltb_spec r h) as [Hlt|Hge].
  - replace (b + h) with (r + h + q * (2 * h)) by lia. rewrite Z.mod_add by lia. rewrite Z.mod_small by lia. lia.
  - replace (b + h) with (r - h + (q + 1) * (2 * h)) by lia. rewrite Z.mod_add by lia. rewrite Z.mod_small by lia. lia.
Qed.
(** A conversion keeps the lowest bits *)
Lemma val_conv t z : t <> TBool -> val (t, z mod 2 ^ width t) = conv t z.
Proof. intros Ht. unfold val. destruct t as [|[] w|]; cbn [fst snd is_signed conv width]; [done| |done|done]. apply sval_mod. by destruct w. Qed.
Lemma conv_congr t x y : t <> TBool -> x mod 2 ^ width t = y mod 2 ^ width t -> conv t x = conv t y.
Proof. intros Ht E. rewrite <- !val_conv by done. by rewrite E. Qed.
Lemma val_mod c : wf c -> val c mod 2 ^ width (fst c) = snd c.
Proof.
  intros Hc. unfold wf in Hc. unfold val. destruct (is_signed (fst c)); [|by apply Z.mod_small]. unfold sval. destruct (snd c <? _); [by apply Z.mod_small|].
  replace (snd c - 2 ^ width (fst c)) with (snd c + (-1) * 2 ^ width (fst c)) by lia. rewrite Z.mod_add; [by apply Z.mod_small|]. pose proof (Z.pow_pos_nonneg 2 (width (fst c)) ltac:(lia) ltac:(pose proof (width_pos (fst c)); lia)). lia.
Qed.
Lemma conv_mod t z : t <> TBool -> conv t z mod 2 ^ width t = z mod 2 ^ width t.
Proof.
  intros Ht. rewrite <- val_conv by done. pose proof (width_pos t). assert (wf (t, z mod 2 ^ width t)) as Hw by (apply Z.mod_pos_bound, Z.pow_pos_nonneg; cbn; lia). apply (val_mod _ Hw).
Qed.
Lemma conv_val c : wf c -> conv (fst c) (val c) = val c.
Proof.
  intros Hw. destruct c as [t b]. destruct (is_bool t) eqn:Et.
  - destruct t; try done. unfold wf in Hw. cbn in *. unfold val. cbn. destruct (Z.eqb_spec b 0); lia.
  - rewrite <- (val_conv t) by (by intros ->). pose proof (val_mod _ Hw) as E. cbn in *. by rewrite E.
Qed.
Lemma mod_narrow z v w : 0 <= v <= w -> (z mod 2 ^ w) mod 2 ^ v = z mod 2 ^ v.
Proof.
  intros H. replace w with (v + (w - v)) by lia. rewrite Z.pow_add_r by lia. pose proof (Z.pow_pos_nonneg 2 v ltac:(lia) ltac:(lia)). pose proof (Z.pow_pos_nonneg 2 (w - v) ltac:(lia) ltac:(lia)).
  rewrite Z.rem_mul_r by lia. rewrite Z.mul_comm, Z.mod_add by lia. by rewrite Z.mod_mod by lia.
Qed.
Lemma conv_promoted t z : t <> TBool -> conv t (conv (promoted t) z) = conv t z.
Proof.
  intros Ht. apply conv_congr; [done|]. assert (promoted t <> TBool) as Hp by (by destruct t as [|? []|]). assert (width t <= width (promoted t)) as Hl by (by destruct t as [|[] []|]).
  pose proof (width_pos t). rewrite <- (mod_narrow (conv _ _) (width t) (width (promoted t))) by lia. rewrite conv_mod by done. apply mod_narrow. lia.
Qed.
Lemma ret_conv t z v : t <> TBool -> ret t z = Ok v -> v = conv t z.
Proof.
  intros Ht. unfold ret. destruct (is_signed _); [destruct (in_range _ _)|]; intros E; [by injection E as <-|done|]. injection E as <-. by apply conv_promoted.
Qed.

(** * Casts *)
Lemma cast_bits c t c' : wf c -> t <> TBool -> ~ widens_negative c t -> perform_cast c t = Some c' -> c' = (t, val c mod 2 ^ width t).
Proof.
  intros Hw Ht Hn E. destruct c as [t0 b]. pose proof (val_mod _ Hw) as Hv. unfold wf in Hw. cbn [fst snd] in *. unfold perform_cast in E. destruct t as [|[] w|]; [done| | |].
  - injection E as <-. done.
  - injection E as <-. cbn [width]. f_equal. destruct (Z.le_gt_cases (bits_of w) (width t0)) as [Hle|Hgt].
    + rewrite <- Hv at 1. apply mod_narrow. split; [by destruct w|done].
    + destruct (is_signed t0) eqn:Es; [|unfold val; cbn [fst snd]; by rewrite Es]. assert (~ val (t0, b) < 0) as Hpos by (intros ?; apply Hn; done). unfold val in *. cbn [fst snd] in *. rewrite Es in *. unfold sval in *.
      destruct (b <? _); [done|]. lia.
  - destruct (Z.eqb_spec (width t0) 64) as [E64|]; [|done]. injection E as <-. rewrite E64 in Hv. cbn [width]. by rewrite Hv.
Qed.
(** The cast of a constant is what static_cast gives. *)
Theorem C56_cast c t c' : wf c -> ~ widens_negative c t -> perform_cast c t = Some c' -> fst c' = t /\ wf c' /\ val c' = conv t (val c).
Proof.
  intros Hw Hn E. destruct (is_bool t) eqn:Et.
  - destruct t; try done. destruct c as [t0 b]. cbn in E. destruct (Z.eqb_spec (width t0) 1) as [E1|]; [|done]. injection E as <-. assert (t0 = TBool) as -> by (destruct t0 as [|? []|]; done). split; [done|]. split; [done|]. symmetry. by apply (conv_val (TBool, b)).
  - assert (t <> TBool) as Ht by (by intros ->). rewrite (cast_bits c t c' Hw Ht Hn E). split; [done|]. split; [|by apply val_conv]. apply Z.mod_pos_bound, Z.pow_pos_nonneg; [lia|]. pose proof (width_pos t). cbn. lia.
Qed.
(** A number with the integral part [tr], if that is a value of the type (otherwise the conversion is not defined) *)
Theorem C56_cast_float tr t : t <> TBool -> in_range t tr = true -> tr < 2 ^ 63 -> exists c, perform_cast_float tr t = Ok c /\ fst c = t /\ val c = tr.
Proof.
  intros Ht Hr Hl. assert (in_range (TInt true W64) tr = true) as Hr64.
  { destruct t as [|[] []|]; cbn -[Z.pow] in *; try done; apply andb_true_iff in Hr as [H1 H2]; apply Z.leb_le in H1; apply Z.ltb_lt in H2; apply andb_true_iff; rewrite Z.leb_le, Z.ltb_lt; lia. }
  unfold perform_cast_float. rewrite Hr64. eexists. split; [done|]. split; [done|]. rewrite val_conv by done.
  destruct t as [|[] w|]; [done| | |]; unfold conv; unfold in_range in Hr; apply andb_true_iff in Hr as [H1 H2]; apply Z.leb_le in H1; apply Z.ltb_lt in H2.
  - rewrite Z.mod_small; [lia|]. rewrite (pow_half (bits_of w)) by (by destruct w). lia.
  - rewrite Z.mod_small; [lia|]. done.
  - rewrite Z.mod_small; [lia|]. done.
Qed.

(** * Operations *)
Lemma most_general_width a b : width (most_general a b) = Z.max (width a) (width b).
Proof. by destruct a as [|[] []|], b as [|[] []|]. Qed.
Lemma wider_not_bool a b : width a < width b -> b <> TBool.
Proof. intros H ->. pose proof (width_pos a). cbn in H. lia. Qed.
Lemma promote_ok l r l' r' : wf l -> wf r -> ~ widens_negative l (fst r) -> ~ widens_negative r (fst l) -> promote l r = Ok (l', r') -> width (fst l') = width (fst r') ->
  let w := width (most_general (fst l) (fst r)) in width (fst l') = w /\ snd l' = val l mod 2 ^ w /\ snd r' = val r mod 2 ^ w.
Proof.
  intros Hl Hr Nl Nr E Ew. cbn zeta. rewrite most_general_width. unfold promote in E. pose proof (val_mod l Hl) as Vl. pose proof (val_mod r Hr) as Vr. destruct (is_integer_type (fst l) && is_integer_type (fst r)).
  - destruct (Z.ltb_spec (width (fst l)) (width (fst r))) as [Hlt|Hge]; [|destruct (Z.ltb_spec (width (fst r)) (width (fst l))) as [Hgt|Hle]].
    + destruct (perform_cast l (fst r)) as [c|] eqn:Ec; [|done]. injection E as <- <-. rewrite (cast_bits l (fst r) c) by (eauto using wider_not_bool). cbn [fst snd]. rewrite Z.max_r by lia. done.
    + destruct (perform_cast r (fst l)) as [c|] eqn:Ec; [|done]. injection E as <- <-. rewrite (cast_bits r (fst l) c) by (eauto using wider_not_bool). cbn [fst snd]. rewrite Z.max_l by lia. done.
    + injection E as <- <-. rewrite Z.max_l by lia. rewrite Vl. rewrite Ew. rewrite Vr. done.
  - injection E as <- <-. rewrite Z.max_l by lia. rewrite Vl. rewrite Ew. rewrite Vr. done.
Qed.
Lemma val_zero c : wf c -> (val c = 0 <-> snd c = 0).
Proof.
  intros Hw. unfold wf in Hw. unfold val. destruct (is_signed (fst c)); [|done]. unfold sval. pose proof (pow_half (width (fst c)) (width_pos _)) as E. pose proof (Z.pow_pos_nonneg 2 (width (fst c) - 1) ltac:(lia) ltac:(pose proof (width_pos (fst c)); lia)). destruct (Z.ltb_spec (snd c) (2 ^ (width (fst c) - 1))); lia.
Qed.
Lemma val_bound c : wf c -> - 2 ^ width (fst c) < val c < 2 ^ width (fst c).
Proof.
  intros Hw. unfold wf in Hw. unfold val. destruct (is_signed (fst c)); [|lia]. unfold sval. pose proof (pow_half (width (fst c)) (width_pos _)) as E. pose proof (Z.pow_pos_nonneg 2 (width (fst c) - 1) ltac:(lia) ltac:(pose proof (width_pos (fst c)); lia)). destruct (Z.ltb_spec (snd c) (2 ^ (width (fst c) - 1))); lia.
Qed.
Lemma val_wide_zero c w : wf c -> width (fst c) <= w -> (val c mod 2 ^ w = 0 <-> val c = 0).
Proof.
  intros Hw Hl. pose proof (val_bound c Hw) as Hb. pose proof (Z.pow_le_mono_r 2 (width (fst c)) w ltac:(lia) Hl) as Hm. pose proof (width_pos (fst c)). pose proof (Z.pow_pos_nonneg 2 (width (fst c)) ltac:(lia) ltac:(lia)).
  generalize dependent (2 ^ width (fst c)). generalize (2 ^ w). intros P Q Hb Hm HQ. split; [|intros ->; apply Z.mod_0_l; lia]. intros E. apply Z.mod_divide in E as [k Ek]; [|lia]. assert (-1 < k < 1) by nia. assert (k = 0) as -> by lia. lia.
Qed.
Lemma conv_zero c t : wf c -> width (fst c) <= width t -> (conv t (val c) = 0 <-> val c = 0).
Proof.
  intros Hw Hl. destruct (is_bool t) eqn:Et; [destruct t; try done; cbn; destruct (Z.eqb_spec (val c) 0); lia|]. assert (t <> TBool) as Ht by (by intros ->).
  rewrite <- (val_wide_zero c (width t)) by done. rewrite <- (conv_mod t) by done. rewrite <- val_conv by done.
  assert (wf (t, val c mod 2 ^ width t)) as Hwf by (apply Z.mod_pos_bound, Z.pow_pos_nonneg; pose proof (width_pos t); cbn; lia). pose proof (val_mod _ Hwf) as E. cbn [fst snd] in E. rewrite E. exact (val_zero _ Hwf).
Qed.
Lemma conv_in_range t z : in_range t z = true -> conv t z = z.
Proof.
  intros Hr. destruct t as [|[] w|]; unfold conv; unfold in_range in Hr; apply andb_true_iff in Hr as [H1 H2]; apply Z.leb_le in H1; apply Z.ltb_lt in H2.
  - cbn in H2. destruct (Z.eqb_spec z 0); lia.
  - rewrite Z.mod_small; [lia|]. rewrite (pow_half (bits_of w)) by (by destruct w). lia.
  - by rewrite Z.mod_small.
  - by rewrite Z.mod_small.
Qed.
Lemma val_bool t b : val (t, b2z b) = b2z b.
Proof. by destruct t as [|[] []|], b. Qed.
Lemma wf_bool t b : wf (t, b2z b).
Proof. by destruct t as [|[] []|], b. Qed.
Lemma wf_mod t b : wf (t, b mod 2 ^ width t).
Proof. apply Z.mod_pos_bound, Z.pow_pos_nonneg; pose proof (width_pos t); cbn; lia. Qed.
Lemma to_double_small z : Z.abs z <= 2 ^ 53 -> to_double z = z.
Proof. intros H. unfold to_double. by rewrite (proj2 (Z.leb_le _ _) H). Qed.
Lemma most_general_bool a b : most_general a b = TBool -> a = TBool /\ b = TBool.
Proof. by destruct a as [|[] []|], b as [|[] []|]. Qed.
Lemma logical_type o a b : o = And \/ o = Or -> width (res_type o a b) = width (most_general a b) /\ arg_type o a b = res_type o a b.
Proof. intros [-> | ->]; split; try done; cbn; by destruct (most_general a b) as [|[] []|]. Qed.
(** The operands inside the lambdas are the operands of the kernel *)
Lemma operand_ok t z s : t <> TBool -> (s = true <-> is_signed t = true) -> (if s then sval (width t) (z mod 2 ^ width t) else z mod 2 ^ width t) = conv t z.
Proof.
  intros Ht Hs. rewrite <- val_conv by done. unfold val. cbn [fst snd]. destruct s, (is_signed t); try done; [by assert (false = true) by (by apply Hs)|by assert (false = true) by (by apply Hs)].
Qed.
Lemma attr_bits_inv t w b c : attr_bits t w b = Ok (Some c) -> width t = w /\ c = (t, b mod 2 ^ width t).
Proof. unfold attr_bits. destruct (Z.eqb_spec (width t) w) as [<-|]; [|done]. by intros [= <-]. Qed.

Theorem C56_fold o l r c v : wf l -> wf r -> safe o l r -> fold_bin o l r = Ok (Some c) -> run_bin o (fst l) (fst r) (val l) (val r) = Ok v ->
  fst c = res_type o (fst l) (fst r) /\ wf c /\ val c = v.
Proof.
  intros Hl Hr (Nl & Nr & Sa & Sm) Ef Er. destruct (is_bool (most_general (fst l) (fst r))) eqn:Eb.
  { destruct (most_general_bool (fst l) (fst r)) as [El Err]; [by destruct (most_general _ _)|]. destruct l as [tl bl], r as [tr br]. cbn in El, Err. subst tl tr. unfold wf in Hl, Hr. cbn in Hl, Hr. assert (bl = 0 \/ bl = 1) as [-> | ->] by lia; assert (br = 0 \/ br = 1) as [-> | ->] by lia;
    destruct o; vm_compute in Ef, Er; try done; injection Ef as <-; injection Er as <-; try done. by destruct Sa. }
  assert (most_general (fst l) (fst r) <> TBool) as Ht by (intros E; by rewrite E in Eb).
  assert (o = And \/ o = Or -> fst c = res_type o (fst l) (fst r) /\ wf c /\ val c = v) as Hlog.
  { intros Ho. destruct (logical_type o (fst l) (fst r) Ho) as [Ewt Eat]. unfold run_bin in Er. rewrite Eat in Er. set (t := res_type o (fst l) (fst r)) in *.
    assert (exists l' r', fold_bin o l r = calc o false t l' r' /\ (snd l' = 0 <-> val l = 0) /\ (snd r' = 0 <-> val r = 0)) as (l' & r' & E & Zl & Zr).
    { assert (fold_bin o l r = (if is_bool (fst l) && is_bool (fst r) then calc o false t l r else let* p := promote l r in calc o false t (fst p) (snd p))) as -> by (by destruct Ho as [-> | ->]).
      destruct (is_bool (fst l) && is_bool (fst r)); [exists l, r; split; [done|]; split; symmetry; by apply val_zero|].
      assert (forall c t c', wf c -> ~ widens_negative c t -> width (fst c) < width t -> perform_cast c t = Some c' -> (snd c' = 0 <-> val c = 0)) as Hc.
      { intros c0 t0 c' Hw0 Hn0 Hlt Ec. assert (t0 <> TBool) as Ht0 by (eauto using wider_not_bool). rewrite (cast_bits c0 t0 c' Hw0 Ht0 Hn0 Ec). cbn [snd]. apply val_wide_zero; [done|lia]. }
      assert (promote l r = UB \/ exists l' r', promote l r = Ok (l', r') /\ (snd l' = 0 <-> val l = 0) /\ (snd r' = 0 <-> val r = 0)) as [E | (l' & r' & E & Hz)]; [| |by exists l', r'; rewrite E].
      - unfold promote. pose proof (val_zero l Hl). pose proof (val_zero r Hr). destruct (is_integer_type _ && _); [|right; exists l, r; split; [done|]; by split].
        destruct (Z.ltb_spec (width (fst l)) (width (fst r))); [|destruct (Z.ltb_spec (width (fst r)) (width (fst l)))].
        + destruct (perform_cast l (fst r)) as [l'|] eqn:Ec; [|by left]. right. exists l', r. split; [done|]. split; [by eapply Hc|done].
        + destruct (perform_cast r (fst l)) as [r'|] eqn:Ec; [|by left]. right. exists l, r'. split; [done|]. split; [done|by eapply Hc].
        + right. exists l, r. done.
      - assert (fold_bin o l r = UB \/ is_bool (fst l) && is_bool (fst r) = true) as [E'|E'].
        { destruct (is_bool (fst l) && is_bool (fst r)) eqn:E2; [by right|left]. destruct Ho as [-> | ->]; cbn [fold_bin]; by rewrite E2, E. }
        + by rewrite E' in Ef.
        + apply andb_true_iff in E' as [E1 E2]. destruct l as [[] bl], r as [[] br]; try done. }
    assert (conv t (val l) = 0 <-> val l = 0) as Cl by (apply conv_zero; [done|rewrite Ewt, most_general_width; lia]).
    assert (conv t (val r) = 0 <-> val r = 0) as Cr by (apply conv_zero; [done|rewrite Ewt, most_general_width; lia]).
    assert ((snd l' =? 0) = (conv t (val l) =? 0)) as E1 by (destruct (Z.eqb_spec (snd l') 0), (Z.eqb_spec (conv t (val l)) 0); tauto).
    assert ((snd r' =? 0) = (conv t (val r) =? 0)) as E2 by (destruct (Z.eqb_spec (snd r') 0), (Z.eqb_spec (conv t (val r)) 0); tauto).
    rewrite E in Ef. destruct Ho as [-> | ->]; unfold calc, attr_bool in Ef; cbn [kernel] in Er; rewrite E1, E2 in Ef; injection Ef as <-; injection Er as <-; (split; [done|]); split; [apply wf_bool|apply val_bool|apply wf_bool|apply val_bool]. }
  assert ((o = And \/ o = Or) \/ ~ (o = And \/ o = Or)) as [Ho|Ho] by (destruct o; (by left; auto) || (right; by intros [|])); [by apply Hlog|]. clear Hlog.
  set (t := most_general (fst l) (fst r)) in *. assert (res_type o (fst l) (fst r) = t /\ arg_type o (fst l) (fst r) = t) as [Et Ea] by (destruct o; try done; exfalso; apply Ho; auto).
  assert (exists s l' r', fold_bin o l r = calc o s t l' r' /\ promote l r = Ok (l', r') /\ match o with Add | Sub | Mul | Eq | Neq => s = false | _ => s = true <-> is_signed t = true end) as (s & l' & r' & E & Ep & Hs).
  { assert ((exists s, fold_bin o l r = (let* p := promote l r in calc o s t (fst p) (snd p)) /\ match o with Add | Sub | Mul | Eq | Neq => s = false | _ => s = true <-> is_signed t = true end)) as (s & E & Hs).
    { destruct o; try (exists false; split; [by cbn [fold_bin]; rewrite Et|done]); try (exfalso; by apply Ho; auto); (exists (is_signed t); split; [|done]; cbn [fold_bin] in Ef |- *; rewrite Et in *; by destruct (is_signed t || is_unsigned t)). }
    rewrite E in Ef |- *. destruct (promote l r) as [[l' r']| |]; try done. exists s, l', r'. done. }
  rewrite E in Ef. unfold run_bin in Er. rewrite Ea in Er.
  assert (width (fst l') = width (fst r')) as Eww.
  { destruct (Z.eqb_spec (width (fst l')) (width (fst r'))) as [|Hne]; [done|]. apply Z.eqb_neq in Hne. destruct o; unfold calc in Ef; rewrite ?Hne in Ef; cbn [negb] in Ef; try done; try (exfalso; by apply Ho; auto); by destruct (snd r' =? 0). }
  destruct (promote_ok l r l' r' Hl Hr Nl Nr Ep Eww) as (Ew & Bl & Br). fold t in Ew, Bl, Br. rewrite Et in *.
  pose proof (operand_ok t (val l) s Ht) as Ol. pose proof (operand_ok t (val r) s Ht) as Or. rewrite <- Bl in Ol. rewrite <- Br in Or. rewrite <- Ew in Ol, Or.
  assert (forall z, conv t (conv t z) = conv t z) as Cc by (intros z; apply conv_congr; [done|by apply conv_mod]).
  assert (conv t (val l) mod 2 ^ width t = snd l') as Ml by (by rewrite conv_mod).
  assert (conv t (val r) mod 2 ^ width t = snd r') as Mr by (by rewrite conv_mod).
  assert (2 ^ width t <> 0) as Hw0 by (pose proof (Z.pow_pos_nonneg 2 (width t) ltac:(lia) ltac:(pose proof (width_pos t); lia)); lia).
  unfold calc in Ef. rewrite (proj2 (Z.eqb_eq _ _) Eww) in Ef. cbn [negb] in Ef.
  destruct o; try (exfalso; by apply Ho; auto); cbn [kernel] in Er; (try rewrite (Ol Hs) in Ef); (try rewrite (Or Hs) in Ef); cbn [negb] in Ef.
  - apply attr_bits_inv in Ef as [_ ->]. split; [done|]. split; [apply wf_mod|]. rewrite val_conv by done. rewrite (ret_conv t _ v Ht Er). apply conv_congr; [done|]. rewrite <- Ml, <- Mr. by rewrite <- Z.add_mod.
  - apply attr_bits_inv in Ef as [_ ->]. split; [done|]. split; [apply wf_mod|]. rewrite val_conv by done. rewrite (ret_conv t _ v Ht Er). apply conv_congr; [done|]. rewrite <- Ml, <- Mr. by rewrite <- Zminus_mod.
  - apply attr_bits_inv in Ef as [_ ->]. split; [done|]. split; [apply wf_mod|]. rewrite val_conv by done. rewrite Eb in Er. rewrite (ret_conv t _ v Ht Er). apply conv_congr; [done|]. rewrite <- Ml, <- Mr. by rewrite <- Z.mul_mod.
  - destruct (snd r' =? 0); [done|]. apply attr_bits_inv in Ef as [_ ->]. split; [done|]. split; [apply wf_mod|]. rewrite val_conv by done. destruct (conv t (val r) =? 0); [done|]. by rewrite (ret_conv t _ v Ht Er).
  - destruct (snd r' =? 0); [done|]. apply attr_bits_inv in Ef as [_ ->]. split; [done|]. split; [apply wf_mod|]. rewrite val_conv by done. destruct (conv t (val r) =? 0); [done|]. destruct (Sm eq_refl) as [S1 S2]. rewrite !to_double_small in Er by done. destruct (in_range t _) eqn:Ei; [|done]. injection Er as <-. by apply conv_in_range.
  - apply attr_bits_inv in Ef as [_ ->]. split; [done|]. split; [apply wf_mod|]. rewrite val_conv by done. injection Er as <-. destruct (Z.ltb_spec (conv t (val l)) (conv t (val r))), (Z.ltb_spec (conv t (val r)) (conv t (val l))); try lia.
    + rewrite Bl. by apply conv_congr; [|apply Z.mod_mod].
    + rewrite Br. by apply conv_congr; [|apply Z.mod_mod].
    + replace (conv t (val l)) with (conv t (val r)) by lia. rewrite Br. by apply conv_congr; [|apply Z.mod_mod].
  - apply attr_bits_inv in Ef as [_ ->]. split; [done|]. split; [apply wf_mod|]. rewrite val_conv by done. injection Er as <-. destruct (Z.ltb_spec (conv t (val l)) (conv t (val r))), (Z.ltb_spec (conv t (val r)) (conv t (val l))); try lia.
    + rewrite Br. by apply conv_congr; [|apply Z.mod_mod].
    + rewrite Bl. by apply conv_congr; [|apply Z.mod_mod].
    + replace (conv t (val l)) with (conv t (val r)) by lia. rewrite Br. by apply conv_congr; [|apply Z.mod_mod].
  - assert ((snd l' =? snd r') = (conv t (val l) =? conv t (val r))) as Ee.
    { destruct (Z.eqb_spec (snd l') (snd r')) as [H|H], (Z.eqb_spec (conv t (val l)) (conv t (val r))) as [H'|H']; try done; [|rewrite <- Ml, <- Mr, H' in H; done]. exfalso. apply H'. apply conv_congr; [done|]. by rewrite <- Bl, <- Br. }
    rewrite Ee in Ef. injection Ef as <-. injection Er as <-. split; [done|]. split; [apply wf_bool|apply val_bool].
  - assert ((snd l' =? snd r') = (conv t (val l) =? conv t (val r))) as Ee.
    { destruct (Z.eqb_spec (snd l') (snd r')) as [H|H], (Z.eqb_spec (conv t (val l)) (conv t (val r))) as [H'|H']; try done; [|rewrite <- Ml, <- Mr, H' in H; done]. exfalso. apply H'. apply conv_congr; [done|]. by rewrite <- Bl, <- Br. }
    rewrite Ee in Ef. injection Ef as <-. injection Er as <-. split; [done|]. split; [apply wf_bool|apply val_bool].
  - injection Ef as <-. injection Er as <-. split; [done|]. split; [apply wf_bool|apply val_bool].
  - injection Ef as <-. injection Er as <-. split; [done|]. split; [apply wf_bool|apply val_bool].
  - injection Ef as <-. injection Er as <-. split; [done|]. split; [apply wf_bool|apply val_bool].
  - injection Ef as <-. injection Er as <-. split; [done|]. split; [apply wf_bool|apply val_bool].
Qed.

(** The compiler reports an error only where the kernel would divide by zero. *)
Theorem C56_error o l r : wf l -> wf r -> ~ widens_negative r (fst l) -> fold_bin o l r = Throw -> run_bin o (fst l) (fst r) (val l) (val r) = UB.
Proof.
  intros Hl Hr Nr E. assert (o = Div \/ o = Mod) as Ho.
  { destruct o; try (by left); try (by right); exfalso; unfold fold_bin in E; repeat match type of E with context [if ?b then _ else _] => destruct b; try done end; (try destruct (promote l r) as [[l' r']| |] eqn:Ep; try done; cbn in E); unfold calc, attr_bits, attr_bool in E; repeat match type of E with context [if ?b then _ else _] => destruct b; try done end; unfold promote in Ep; repeat match type of Ep with context [if ?b then _ else _] => destruct b; try done | context [match ?b with Some _ => _ | None => _ end] => destruct b; try done end. }
  assert (val r = 0) as Hz.
  { assert (exists s l' r', promote l r = Ok (l', r') /\ calc o s (res_type o (fst l) (fst r)) l' r' = Throw) as (s & l' & r' & Ep & Ec).
    { assert (promote l r <> Throw) as Hp by (unfold promote; repeat match goal with |- context [if ?b then _ else _] => destruct b; try done | |- context [match ?b with Some _ => _ | None => _ end] => destruct b; try done end).
      destruct Ho as [-> | ->]; cbn [fold_bin] in E; destruct (is_signed _ || _); try done; destruct (promote l r) as [[l' r']| |]; try done; eauto. }
    assert (snd r' = 0) as Hz'.
    { destruct (Z.eqb_spec (snd r') 0) as [|Hne]; [done|]. apply Z.eqb_neq in Hne. destruct Ho as [-> | ->]; unfold calc, attr_bits in Ec; rewrite Hne in Ec; by repeat match type of Ec with context [if ?b then _ else _] => destruct b; try done end. }
    unfold promote in Ep. destruct (is_integer_type _ && _); [|injection Ep as <- <-; by apply val_zero]. destruct (Z.ltb_spec (width (fst l)) (width (fst r))); [|destruct (Z.ltb_spec (width (fst r)) (width (fst l)))].
    - destruct (perform_cast l (fst r)); [|done]. injection Ep as <- <-. by apply val_zero.
    - destruct (perform_cast r (fst l)) as [c|] eqn:Ec'; [|done]. injection Ep as <- <-. rewrite (cast_bits r (fst l) c) in Hz' by (eauto using wider_not_bool). cbn [snd] in Hz'. apply val_wide_zero in Hz'; [done|done|lia].
    - injection Ep as <- <-. by apply val_zero. }
  unfold run_bin. rewrite Hz. assert (forall t, conv t 0 = 0) as H0 by (by intros [|[] []|]). destruct Ho as [-> | ->]; cbn [kernel]; by rewrite H0.
Qed.
(** Folding is defined, unless an index meets a narrower integer. *)
Theorem C56_defined o l r : fold_bin o l r = UB -> (fst l = TIndex /\ width (fst r) < 64) \/ (fst r = TIndex /\ width (fst l) < 64).
Proof.
  intros E. assert (promote l r = UB \/ exists l' r', promote l r = Ok (l', r')) as Hp.
  { unfold promote. repeat match goal with |- context [if ?b then _ else _] => destruct b | |- context [match ?b with Some _ => _ | None => _ end] => destruct b end; eauto. }
  assert (width (fst l) = 64 -> width (fst r) = 64 -> False) as H64.
  { intros E1 E2. pose proof (most_general_width (fst l) (fst r)) as Em. rewrite E1, E2 in Em. assert (promote l r = Ok (l, r)) as Ep by (unfold promote; rewrite E1, E2; by destruct (_ && _)).
    assert (is_bool (fst l) = false) as Eb by (by destruct (fst l)). assert (forall o, width (res_type o (fst l) (fst r)) = 64) as Er by (intros []; cbn [res_type]; try done; by destruct (most_general (fst l) (fst r)) as [|[] []|]).
    unfold fold_bin in E. rewrite Ep, Eb in E. cbn [obind fst snd andb] in E. destruct o; unfold calc, attr_bits, attr_bool in E; rewrite ?E1, ?E2, ?Er in E; cbn in E; repeat match type of E with context [if ?b then _ else _] => destruct b; try done end; done. }
  assert (is_integer_type (fst l) = true -> is_integer_type (fst r) = true -> False) as Hii.
  { intros I1 I2. assert (exists l' r', promote l r = Ok (l', r') /\ width (fst l') = Z.max (width (fst l)) (width (fst r)) /\ width (fst r') = Z.max (width (fst l)) (width (fst r))) as (l' & r' & Ep & W1 & W2).
    { unfold promote. rewrite I1, I2. cbn [andb]. destruct (Z.ltb_spec (width (fst l)) (width (fst r))); [|destruct (Z.ltb_spec (width (fst r)) (width (fst l)))].
      - destruct l as [tl bl], r as [tr br]. cbn [fst] in *. exists (tr, (match tr with TInt true w => if is_signed tl then sval (width tl) bl else bl | _ => bl end) mod 2 ^ width tr), (tr, br). split; [destruct tr as [|[] w|]; try done; pose proof (wider_not_bool _ _ H); done|]. cbn. lia.
      - destruct l as [tl bl], r as [tr br]. cbn [fst] in *. exists (tl, bl), (tl, (match tl with TInt true w => if is_signed tr then sval (width tr) br else br | _ => br end) mod 2 ^ width tl). split; [destruct tl as [|[] w|]; try done; pose proof (wider_not_bool _ _ H0); done|]. cbn. lia.
      - exists l, r. split; [done|]. lia. }
    pose proof (most_general_width (fst l) (fst r)) as Em. assert (forall o, width (res_type o (fst l) (fst r)) = Z.max (width (fst l)) (width (fst r))) as Er by (intros []; cbn [res_type]; try done; rewrite <- Em; by destruct (most_general (fst l) (fst r)) as [|[] []|]).
    unfold fold_bin in E. rewrite Ep in E. cbn [obind fst snd] in E. destruct o; unfold calc, attr_bits, attr_bool in E; rewrite ?W1, ?W2, ?Er, ?Z.eqb_refl in E; cbn [negb] in E; repeat match type of E with context [if ?b then _ else _] => destruct b; try done end; done. }
  destruct (fst l) as [|s1 w1|] eqn:El, (fst r) as [|s2 w2|] eqn:Er; try (exfalso; by apply Hii); try (exfalso; by apply H64).
  - by right.
  - destruct w1; [by right|by right|exfalso; by apply H64].
  - by left.
  - destruct w2; [by left|by left|exfalso; by apply H64].
Qed.
Theorem C56_minus c v : wf c -> run_minus (fst c) (val c) = Ok v -> fst (fold_minus c) = fst c /\ wf (fold_minus c) /\ val (fold_minus c) = v.
Proof.
  intros Hw E. split; [done|]. split; [apply wf_mod|]. destruct c as [t b]. cbn [fst] in *. destruct (is_bool t) eqn:Eb.
  - destruct t; try done. unfold wf in Hw. cbn in Hw. assert (b = 0 \/ b = 1) as [-> | ->] by lia; vm_compute in E; by injection E as <-.
  - assert (t <> TBool) as Ht by (by intros ->). unfold fold_minus. cbn [fst snd]. rewrite val_conv by done. unfold run_minus in E. rewrite (ret_conv t _ v Ht E). apply conv_congr; [done|].
    pose proof (val_mod _ Hw) as Hv. cbn [fst snd] in Hv. rewrite <- Hv at 1. rewrite !Z.opp_eq_mul_m1. by rewrite Zmult_mod_idemp_l.
Qed.
Theorem C56_float {F} (lt : F -> F -> bool) is_nan is_zero is_neg a b : is_nan a = false -> is_nan b = false -> ~ (is_zero a = true /\ is_zero b = true /\ is_neg a <> is_neg b) ->
  ap_minimum lt is_nan is_zero is_neg a b = std_min lt a b /\ ap_maximum lt is_nan is_zero is_neg a b = std_max lt a b.
Proof.
  intros Ha Hb Hz. unfold ap_minimum, ap_maximum. rewrite Ha, Hb. destruct (is_zero a && is_zero b && negb (Bool.eqb (is_neg a) (is_neg b))) eqn:E; [|done]. exfalso. apply Hz.
  apply andb_true_iff in E as [[E1 E2]%andb_true_iff E3]. split; [done|]. split; [done|]. intros En. rewrite En, Bool.eqb_reflx in E3. done.
Qed.

(** * What fails *)
(** as.si8(-1) + as.ui32(0): 4294967295 at run time, 255 folded; the cast alone fails in the same way *)
Theorem C56_widen_refuted : exists l r c, wf l /\ wf r /\ fold_bin Add l r = Ok (Some c) /\ exists v, run_bin Add (fst l) (fst r) (val l) (val r) = Ok v /\ val c = 255 /\ v = 4294967295.
Proof. exists (TInt true W8, 255), (TInt false W32, 0), (TInt false W32, 255). split; [done|]. split; [done|]. split; [done|]. by exists 4294967295. Qed.
Theorem C56_cast_refuted : exists c t c', wf c /\ perform_cast c t = Some c' /\ val c' <> conv t (val c).
Proof. exists (TInt true W8, 255), (TInt false W64), (TInt false W64, 255). by split. Qed.
(** true + true: true at run time, false folded *)
Theorem C56_bool_refuted : fold_bin Add (TBool, 1) (TBool, 1) = Ok (Some (TBool, 0)) /\ run_bin Add TBool TBool 1 1 = Ok 1.
Proof. done. Qed.
(** 9007199254740993 % 2: 0 at run time (computed with double-precision numbers), 1 folded *)
Theorem C56_mod_refuted : fold_bin Mod (TInt true W64, 9007199254740993) (TInt true W64, 2) = Ok (Some (TInt true W64, 1)) /\ run_bin Mod (TInt true W64) (TInt true W64) 9007199254740993 2 = Ok 0.
Proof. split; vm_compute; reflexivity. Qed.
(** The number of rows of a matrix plus a ui32 *)
Theorem C56_index_refuted : fold_bin Add (TIndex, 3) (TInt false W32, 1) = UB /\ run_bin Add TIndex (TInt false W32) 3 1 = Ok 4.
Proof. done. Qed.
(** Casts of floating-point numbers: 0.5 and 2.0 (integral parts 0 and 2) to bool are both true at run time; 2^63 to ui64 *)
Theorem C56_float_cast_refuted : perform_cast_float 0 TBool = Ok (TBool, 0) /\ perform_cast_float 2 TBool = Ok (TBool, 0) /\
  in_range (TInt false W64) (2 ^ 63) = true /\ perform_cast_float (2 ^ 63) (TInt false W64) = UB.
Proof. done. Qed.
(** min(1, NaN): 1 at run time, NaN folded *)
Theorem C56_nan_refuted {F} (lt : F -> F -> bool) is_nan is_zero is_neg one nan : (forall x, lt nan x = false) -> is_nan nan = true -> is_nan one = false ->
  ap_minimum lt is_nan is_zero is_neg one nan = nan /\ std_min lt one nan = one.
Proof. intros H1 H2 H3. unfold ap_minimum, std_min. by rewrite H3, H2, H1. Qed.

(** * Concrete cases *)
(** -7 / 2 and -7 % 2 on si64; 200 + 100 on ui8; si32 with si64; ui64 compared with a negative si64 *)
Theorem C56_ex : safe Mod (TInt true W64, 2 ^ 64 - 7) (TInt true W64, 2) /\
  fold_bin Div (TInt true W64, 2 ^ 64 - 7) (TInt true W64, 2) = Ok (Some (TInt true W64, 2 ^ 64 - 3)) /\ run_bin Div (TInt true W64) (TInt true W64) (-7) 2 = Ok (-3) /\
  fold_bin Mod (TInt true W64, 2 ^ 64 - 7) (TInt true W64, 2) = Ok (Some (TInt true W64, 2 ^ 64 - 1)) /\ run_bin Mod (TInt true W64) (TInt true W64) (-7) 2 = Ok (-1) /\
  fold_bin Add (TInt false W8, 200) (TInt false W8, 100) = Ok (Some (TInt false W8, 44)) /\ run_bin Add (TInt false W8) (TInt false W8) 200 100 = Ok 44 /\
  fold_bin Mul (TInt true W32, 2 ^ 32 - 3) (TInt true W64, 5) = Ok (Some (TInt true W64, 2 ^ 64 - 15)) /\ run_bin Mul (TInt true W32) (TInt true W64) (-3) 5 = Ok (-15) /\
  fold_bin Lt (TInt false W64, 5) (TInt true W64, 2 ^ 64 - 1) = Ok (Some (TInt false W64, 1)) /\ run_bin Lt (TInt false W64) (TInt true W64) 5 (-1) = Ok 1.
Proof.
  split; [|repeat split; vm_compute; reflexivity]. split; [intros (_ & _ & H & _); done|]. split; [intros (_ & _ & H & _); done|]. split; [done|]. intros _. vm_compute. split; done.
Qed.
Print Assumptions C56_fold. Print Assumptions C56_error. Print Assumptions C56_defined. Print Assumptions C56_cast. Print Assumptions C56_cast_float. Print Assumptions C56_minus. Print Assumptions C56_float.
