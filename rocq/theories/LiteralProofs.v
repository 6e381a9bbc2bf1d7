From stdpp Require Import base numbers sorting list sets.
From Coq Require Import Lia QArith Qpower.
From Verif Require Import CppBase PromoteModel PromoteSpec PromoteProofs CsvModel LiteralModel LiteralSpec.
Open Scope nat_scope.

(** * Digits *)
Lemma digit_of d : d < 10 -> is_digit (48 + d) = true.
Proof. intros H. unfold is_digit. apply andb_true_intro. split; apply Nat.leb_le; lia. Qed.
Lemma digit_ex c : is_digit c = true -> exists d, d < 10 /\ c = 48 + d.
Proof. unfold is_digit. intros [A B]%andb_true_iff. apply Nat.leb_le in A, B. exists (c - 48). lia. Qed.
Lemma digit_not_sep c : is_digit c = true -> is_sep c = false.
Proof. intros (d & D & ->)%digit_ex. unfold is_sep. apply orb_false_intro; apply Nat.eqb_neq; lia. Qed.
Lemma sep_is c : c = 39 \/ c = 95 -> is_sep c = true /\ is_digit c = false.
Proof. intros [-> | ->]; split; reflexivity. Qed.
Lemma sep_ex c : is_sep c = true -> c = 39 \/ c = 95.
Proof. unfold is_sep. intros [H|H]%orb_true_iff; apply Nat.eqb_eq in H; auto. Qed.

Lemma scan_app n : forall t u, length t <= n -> scan t = (t, []) -> scan (t ++ u) = (t ++ fst (scan u), snd (scan u)).
Proof.
  induction n as [|n IH]; intros [|d r] u Hn H; try (cbn [app]; destruct (scan u); reflexivity).
  { cbn [length] in Hn. lia. }
  cbn [scan] in H. cbn [app scan]. cbn [length] in Hn. destruct (is_digit d) eqn:D.
  - destruct (scan r) as [a b] eqn:E. injection H as -> ->. rewrite (IH r u ltac:(lia) E). reflexivity.
  - destruct (is_sep d); [|discriminate H]. destruct r as [|e r]; [discriminate H|]. cbn [app]. destruct (is_digit e); [|discriminate H].
    cbn [length] in Hn. destruct (scan r) as [a b] eqn:E. injection H as -> ->. rewrite (IH r u ltac:(lia) E). reflexivity.
Qed.
Lemma scan_parts n : forall s a b, length s <= n -> scan s = (a, b) -> s = a ++ b /\ scan a = (a, []).
Proof.
  induction n as [|n IH]; intros [|d r] a b Hn H; cbn [length] in Hn.
  1,3: cbn [scan] in H; injection H as <- <-; split; reflexivity.
  { lia. }
  cbn [scan] in H. destruct (is_digit d) eqn:D.
  - destruct (scan r) as [x y] eqn:E. injection H as <- <-. destruct (IH r x y ltac:(lia) E) as [-> S]. split; [reflexivity|]. cbn [scan]. rewrite D, S. reflexivity.
  - destruct (is_sep d) eqn:P; [|injection H as <- <-; split; reflexivity]. destruct r as [|e r]; [injection H as <- <-; split; reflexivity|].
    destruct (is_digit e) eqn:F; [|injection H as <- <-; split; reflexivity]. cbn [length] in Hn. destruct (scan r) as [x y] eqn:E. injection H as <- <-.
    destruct (IH r x y ltac:(lia) E) as [-> S]. split; [reflexivity|]. cbn [scan]. rewrite D, P, F, S. reflexivity.
Qed.
Lemma digits_app a u : forallb is_digit a = true -> digits (a ++ u) = (a ++ fst (digits u), snd (digits u)).
Proof.
  induction a as [|c a IH]; intros H; [cbn [app]; destruct (digits u); reflexivity|]. cbn [forallb] in H. apply andb_true_iff in H as [H1 H2].
  cbn [app digits]. rewrite H1, (IH H2). reflexivity.
Qed.
Lemma digits_val_snoc a d acc : forallb is_digit a = true -> d < 10 -> digits_val (a ++ [48 + d]) acc = (10 * digits_val a acc + Z.of_nat d)%Z.
Proof.
  revert acc. induction a as [|c a IH]; intros acc H D.
  - cbn [app digits_val]. rewrite (digit_of d D). cbn [digits_val]. lia.
  - cbn [forallb] in H. apply andb_true_iff in H as [H1 H2]. cbn [app digits_val]. rewrite H1. apply IH; assumption.
Qed.
Lemma digits_val_app a b acc : forallb is_digit a = true -> digits_val (a ++ b) acc = digits_val b (digits_val a acc).
Proof.
  revert acc. induction a as [|c a IH]; intros acc H; [reflexivity|]. cbn [forallb] in H. apply andb_true_iff in H as [H1 H2].
  cbn [app digits_val]. rewrite H1. apply IH, H2.
Qed.
Lemma digits_val_acc b acc : forallb is_digit b = true -> digits_val b acc = (acc * 10 ^ Z.of_nat (length b) + digits_val b 0)%Z.
Proof.
  revert acc. induction b as [|c b IH]; intros acc H; [cbn [digits_val length]; lia|]. cbn [forallb] in H. apply andb_true_iff in H as [H1 H2].
  cbn [digits_val]. rewrite H1. rewrite (IH (10 * acc + _)%Z H2), (IH (10 * 0 + _)%Z H2). cbn [length]. rewrite Nat2Z.inj_succ, Z.pow_succ_r by lia. ring.
Qed.
Lemma strip_app a b : strip (a ++ b) = strip a ++ strip b.
Proof. unfold strip. apply filter_app. Qed.
Lemma strip_digit d : d < 10 -> strip [48 + d] = [48 + d].
Proof. intros H. unfold strip. rewrite filter_cons_True; [reflexivity|]. apply digit_not_sep, digit_of, H. Qed.
Lemma strip_sep c r : is_sep c = true -> strip (c :: r) = strip r.
Proof. intros H. unfold strip. rewrite filter_cons_False; [reflexivity|]. rewrite H. discriminate. Qed.
Lemma strip_plain c r : is_sep c = false -> strip (c :: r) = c :: strip r.
Proof. intros H. unfold strip. rewrite filter_cons_True; [reflexivity|exact H]. Qed.
Lemma strip_id s : 39 ∉ s -> 95 ∉ s -> strip s = s.
Proof.
  induction s as [|c s IH]; intros A B; [reflexivity|]. apply not_elem_of_cons in A as [A1 A2], B as [B1 B2]. rewrite strip_plain; [f_equal; auto|].
  unfold is_sep. apply orb_false_intro; apply Nat.eqb_neq; congruence.
Qed.
Lemma digs_strip s v k : digs s v k -> forallb is_digit (strip s) = true /\ digits_val (strip s) 0 = v /\ length (strip s) = k.
Proof.
  induction 1 as [d D|s v k d H (I1 & I2 & I3) D|s v k d c H (I1 & I2 & I3) D C].
  - rewrite strip_digit by exact D. cbn [forallb digits_val length]. rewrite digit_of by exact D. repeat split; lia.
  - rewrite strip_app, strip_digit by exact D. rewrite forallb_app, I1, digits_val_snoc, I2, app_length, I3 by assumption. cbn [forallb length]. rewrite digit_of by exact D. repeat split; lia.
  - rewrite strip_app. rewrite (strip_sep c) by (apply sep_is; exact C). rewrite strip_digit by exact D.
    rewrite forallb_app, I1, digits_val_snoc, I2, app_length, I3 by assumption. cbn [forallb length]. rewrite digit_of by exact D. repeat split; lia.
Qed.
Lemma digs_head s v k : digs s v k -> exists d t, d < 10 /\ s = (48 + d) :: t /\ scan t = (t, []).
Proof.
  induction 1 as [d D|s v k d H (d0 & t & D0 & -> & S) D|s v k d c H (d0 & t & D0 & -> & S) D C].
  - exists d, []. repeat split. exact D.
  - exists d0, (t ++ [48 + d]). split; [exact D0|]. split; [reflexivity|]. rewrite (scan_app (length t)) by auto.
    cbn [scan]. rewrite digit_of by exact D. reflexivity.
  - exists d0, (t ++ [c; 48 + d]). split; [exact D0|]. split; [reflexivity|]. rewrite (scan_app (length t)) by auto.
    destruct (sep_is c C) as [C1 C2]. cbn [scan]. rewrite C1, C2, digit_of by exact D. reflexivity.
Qed.
Lemma digs_last s v k : digs s v k -> exists s' d, d < 10 /\ s = s' ++ [48 + d].
Proof.
  induction 1 as [d D|s v k d H _ D|s v k d c H _ D C].
  - exists [], d. split; [exact D|reflexivity].
  - exists s, d. split; [exact D|reflexivity].
  - exists (s ++ [c]), d. split; [exact D|]. rewrite <- app_assoc. reflexivity.
Qed.
Lemma digs_extend n : forall t s v k, length t <= n -> digs s v k -> scan t = (t, []) -> exists v' k', digs (s ++ t) v' k'.
Proof.
  induction n as [|n IH]; intros [|d r] s v k Hn H S.
  1,3: exists v, k; rewrite app_nil_r; exact H.
  { cbn [length] in Hn. lia. }
  cbn [length] in Hn. cbn [scan] in S. destruct (is_digit d) eqn:D.
  - destruct (scan r) as [a b] eqn:E. injection S as -> ->. apply digit_ex in D as (d' & D' & ->).
    destruct (IH r (s ++ [48 + d']) _ _ ltac:(lia) (digs_more s v k d' H D') E) as (v' & k' & X). exists v', k'. rewrite <- app_assoc in X. exact X.
  - destruct (is_sep d) eqn:P; [|discriminate S]. destruct r as [|e r]; [discriminate S|]. destruct (is_digit e) eqn:F; [|discriminate S].
    destruct (scan r) as [a b] eqn:E. injection S as -> ->. apply digit_ex in F as (d' & D' & ->). cbn [length] in Hn.
    destruct (IH r (s ++ [d; 48 + d']) _ _ ltac:(lia) (digs_sep s v k d' d H D' (sep_ex d P)) E) as (v' & k' & X). exists v', k'. rewrite <- app_assoc in X. exact X.
Qed.
(** What cannot continue a numeral. *)
Definition stop (r : list byte) : Prop := match r with [] => True | c :: _ => is_digit c = false /\ is_sep c = false end.
Lemma scan_stop r : stop r -> scan r = ([], r).
Proof. destruct r as [|c r]; [reflexivity|]. intros [A B]. cbn [scan]. rewrite A, B. reflexivity. Qed.
Lemma scan_int_numeral s v r : numeral s v -> stop r -> scan_int (s ++ r) = Some (s, r).
Proof.
  intros (k & H & N) R. destruct (digs_head s v k H) as (d & t & D & -> & S). cbn [app scan_int]. destruct (decide (d = 0)) as [->|Nz].
  - destruct N as [N|N]; [|exfalso; apply N; reflexivity]. injection N as ->. reflexivity.
  - rewrite (proj2 (Nat.eqb_neq (48 + d) 48)) by lia. rewrite digit_of by exact D. rewrite (scan_app (length t)) by auto. rewrite (scan_stop r R). cbn [fst snd]. rewrite app_nil_r. reflexivity.
Qed.
Lemma scan_int_inv s a r : scan_int s = Some (a, r) -> s = a ++ r /\ exists v, numeral a v.
Proof.
  destruct s as [|d s]; [discriminate|]. cbn [scan_int]. destruct (d =? 48) eqn:E.
  - intros [= <- <-]. apply Nat.eqb_eq in E as ->. split; [reflexivity|]. exists 0%Z, 1. split; [exact (digs_one 0 ltac:(lia))|left; reflexivity].
  - apply Nat.eqb_neq in E. destruct (is_digit d) eqn:D; [|discriminate]. destruct (scan s) as [x y] eqn:S. intros [= <- <-].
    destruct (scan_parts (length s) s x y ltac:(lia) S) as [-> S']. split; [reflexivity|]. apply digit_ex in D as (d' & D' & ->).
    destruct (digs_extend (length x) x [48 + d'] _ _ ltac:(lia) (digs_one d' D') S') as (v & k & H). exists v, k. split; [exact H|].
    right. cbn [app head]. intros [= X]. lia.
Qed.
Lemma back_snoc s c : back (s ++ [c]) = c.
Proof. unfold back. apply last_last. Qed.

(** * Integers *)
Lemma sto_digits max s u v : forallb is_digit s = true -> s <> [] -> fst (digits u) = [] -> digits_val s 0 = v ->
  sto max (s ++ u) = if decide (v <= max)%Z then Ok v else Throw.
Proof. intros A NE U V. unfold sto. rewrite digits_app by exact A. rewrite U, app_nil_r. cbn [fst]. destruct s as [|c s]; [contradiction|]. rewrite V. reflexivity. Qed.
Lemma suffix_stop x : stop (suffix_text x).
Proof. destruct x; cbn; try exact I; split; reflexivity. Qed.
Lemma strip_suffix x : strip (suffix_text x) = suffix_text x.
Proof. destruct x; reflexivity. Qed.
Lemma is_int_numeral s v x : numeral s v -> is_int (s ++ suffix_text x) = true.
Proof. intros H. unfold is_int. rewrite (scan_int_numeral s v _ H (suffix_stop x)). apply bool_decide_eq_true. destruct x; cbn; auto. Qed.
Lemma is_int_inv s : is_int s = true -> exists body v x, numeral body v /\ s = body ++ suffix_text x.
Proof.
  unfold is_int. destruct (scan_int s) as [[a r]|] eqn:E; [|discriminate]. apply scan_int_inv in E as [-> [v N]]. intros H%bool_decide_eq_true.
  destruct H as [->|[->|[->|[->| ->]]]]; [exists a, v, Plain0|exists a, v, L|exists a, v, U|exists a, v, ULL|exists a, v, Z0]; (split; [exact N|reflexivity]).
Qed.
Lemma visit_int_numeral s v x : numeral s v ->
  visit_int (s ++ suffix_text x) =
    if decide (v <= suffix_max x)%Z then Ok (CInt (suffix_type x) v)
    else if decide (x = Plain0 /\ v = 2 ^ 63)%Z then Ok (CInt SI64 (- 2 ^ 63)) else Throw.
Proof.
  intros (k & H & _). destruct (digs_strip s v k H) as (A & V & Len). destruct (digs_last s v k H) as (s' & d & D & Es0).
  assert (Es : strip s = strip s' ++ [48 + d]) by (rewrite Es0, strip_app, strip_digit by exact D; reflexivity).
  assert (NE : strip s <> []) by (rewrite Es; destruct (strip s'); discriminate).
  unfold visit_int. rewrite strip_app, strip_suffix.
  assert (T : forall max u, fst (digits u) = [] -> sto max (strip s ++ u) = if decide (v <= max)%Z then Ok v else Throw) by (intros; apply sto_digits; assumption).
  destruct x; cbn [suffix_text suffix_max suffix_type].
  - rewrite app_nil_r. rewrite Es at 1. rewrite back_snoc. rewrite (proj2 (Nat.eqb_neq (48 + d) 117)) by lia.
    assert (X : bool_decide (drop (length (strip s) - 3) (strip s) = Sull) = false).
    { apply bool_decide_eq_false. intros E. assert (Y : forallb is_digit (drop (length (strip s) - 3) (strip s)) = true).
      { apply forallb_forall. intros c Hc. rewrite forallb_forall in A. apply A. rewrite <- (take_drop (length (strip s) - 3) (strip s)). apply in_or_app. right. exact Hc. }
      rewrite E in Y. discriminate Y. }
    rewrite X, andb_false_r. rewrite Es at 1. rewrite back_snoc. rewrite (proj2 (Nat.eqb_neq (48 + d) 108)) by lia.
    rewrite Es at 1. rewrite back_snoc. rewrite (proj2 (Nat.eqb_neq (48 + d) 122)) by lia.
    pose proof (T max_ulong [] eq_refl) as T1. pose proof (T max_long [] eq_refl) as T2. rewrite app_nil_r in T1, T2. rewrite T1, T2.
    unfold max_ulong, max_long in *. destruct (decide (v <= 2 ^ 64 - 1)%Z) as [L1|L1].
    + cbn [obind]. destruct (decide (v = 2 ^ 63 - 1 + 1)%Z) as [L2|L2].
      * rewrite (decide_False (P := (v <= 2 ^ 63 - 1)%Z)) by lia. rewrite decide_True by (split; [reflexivity|lia]). reflexivity.
      * destruct (decide (v <= 2 ^ 63 - 1)%Z); cbn [obind]; [reflexivity|]. rewrite decide_False; [reflexivity|]. intros [_ X1]. lia.
    + cbn [obind]. rewrite (decide_False (P := (v <= 2 ^ 63 - 1)%Z)) by lia. rewrite decide_False; [reflexivity|]. intros [_ X1]. lia.
  - rewrite back_snoc. change (108 =? 117) with false. cbn iota.
    assert (X : (2 <? length (strip s ++ [108])) && bool_decide (drop (length (strip s ++ [108]) - 3) (strip s ++ [108]) = Sull) = false).
    { destruct (2 <? length (strip s ++ [108])) eqn:L2; [|reflexivity]. apply Nat.ltb_lt in L2. cbn [andb]. apply bool_decide_eq_false. intros E.
      rewrite app_length in E, L2. cbn [length] in E, L2. rewrite drop_app_le in E by lia. change Sull with ([117; 108] ++ [108]) in E. apply app_inj_tail in E as [E _].
      assert (Y : forallb is_digit (drop (length (strip s) + 1 - 3) (strip s)) = true).
      { apply forallb_forall. intros c Hc. rewrite forallb_forall in A. apply A. rewrite <- (take_drop (length (strip s) + 1 - 3) (strip s)). apply in_or_app. right. exact Hc. }
      rewrite E in Y. discriminate Y. }
    rewrite X. cbn iota. change (108 =? 108) with true. cbn iota. rewrite T by reflexivity. unfold max_long.
    destruct (decide (v <= 2 ^ 63 - 1)%Z); cbn [obind]; [reflexivity|]. rewrite decide_False; [reflexivity|]. intros [X1 _]. discriminate X1.
  - rewrite back_snoc. change (117 =? 117) with true. cbn iota. rewrite T by reflexivity. unfold max_ulong.
    destruct (decide (v <= 2 ^ 64 - 1)%Z); cbn [obind]; [reflexivity|]. rewrite decide_False; [reflexivity|]. intros [X1 _]. discriminate X1.
  - change [117; 108; 108] with Sull. assert (Bk : back (strip s ++ Sull) = 108) by (change Sull with ([117; 108] ++ [108]); rewrite app_assoc; apply back_snoc).
    rewrite Bk. change (108 =? 117) with false. cbn iota.
    assert (X : (2 <? length (strip s ++ Sull)) && bool_decide (drop (length (strip s ++ Sull) - 3) (strip s ++ Sull) = Sull) = true).
    { apply andb_true_intro. rewrite app_length. change (length Sull) with 3. split; [apply Nat.ltb_lt; lia|]. apply bool_decide_eq_true.
      replace (length (strip s) + 3 - 3) with (length (strip s)) by lia. apply drop_app. }
    rewrite X. cbn iota. rewrite T by reflexivity. unfold max_ulong.
    destruct (decide (v <= 2 ^ 64 - 1)%Z); cbn [obind]; [reflexivity|]. rewrite decide_False; [reflexivity|]. intros [X1 _]. discriminate X1.
  - rewrite back_snoc. change (122 =? 117) with false. cbn iota.
    assert (X : (2 <? length (strip s ++ [122])) && bool_decide (drop (length (strip s ++ [122]) - 3) (strip s ++ [122]) = Sull) = false).
    { destruct (2 <? length (strip s ++ [122])) eqn:L2; [|reflexivity]. apply Nat.ltb_lt in L2. cbn [andb]. apply bool_decide_eq_false. intros E.
      rewrite app_length in E, L2. cbn [length] in E, L2. rewrite drop_app_le in E by lia. change Sull with ([117; 108] ++ [108]) in E. apply app_inj_tail in E as [_ E]. discriminate E. }
    rewrite X. cbn iota. change (122 =? 108) with false. change (122 =? 122) with true. cbn iota. rewrite T by reflexivity. unfold max_long.
    destruct (decide (v <= 2 ^ 63 - 1)%Z); cbn [obind]; [reflexivity|]. rewrite decide_False; [reflexivity|]. intros [X1 _]. discriminate X1.
Qed.

(** * Floating-point numbers *)
Lemma digs_strip_id s v k : digs s v k -> 39 ∉ s -> 95 ∉ s -> forallb is_digit s = true /\ digits_val s 0 = v.
Proof. intros H A B. destruct (digs_strip s v k H) as (X & Y & _). rewrite (strip_id s A B) in X, Y. split; assumption. Qed.
Lemma digits_stop u : match u with [] => True | c :: _ => is_digit c = false end -> digits u = ([], u).
Proof. destruct u as [|c u]; [reflexivity|]. intros H. cbn [digits]. rewrite H. reflexivity. Qed.
Definition sg (c : byte) : bool := (c =? 45) || (c =? 43).
(** An exponent behind e or E. *)
Lemma exponent_scan x vx e u : exponent x vx -> (e = 101 \/ e = 69) -> stop u ->
  scan_exp (e :: x ++ u) = Some u /\ strip (e :: x) = e :: x /\
  (fst (digits u) = [] ->
    match x ++ u with
    | 45 :: r3 => (- digits_val (fst (digits r3)) 0)%Z
    | 43 :: r3 => digits_val (fst (digits r3)) 0
    | _ => digits_val (fst (digits (x ++ u))) 0
    end = vx).
Proof.
  intros (t & w & (k & H & N) & A & B & C) E U.
  destruct (digs_head t w k H) as (d & t' & D & Et & S). destruct (digs_strip_id t w k H A B) as [Fd Fv].
  assert (St : forall u', stop u' -> (match t ++ u' with
     | d0 :: r' => if d0 =? 48 then Some r' else if is_digit d0 then Some (snd (digits r')) else None | [] => None end) = Some u').
  { intros u' U'. rewrite Et. cbn [app]. destruct (decide (d = 0)) as [->|Nz].
    - destruct N as [N|N]; [|exfalso; apply N; rewrite Et; reflexivity]. rewrite Et in N. injection N as ->. reflexivity.
    - rewrite (proj2 (Nat.eqb_neq (48 + d) 48)) by lia. rewrite (digit_of d D). rewrite Et in Fd. cbn [forallb] in Fd. apply andb_true_iff in Fd as [_ Fd].
      rewrite digits_app by exact Fd. cbn [snd]. f_equal. destruct u' as [|c u']; [reflexivity|]. destruct U' as [U1 _]. cbn [digits]. rewrite U1. reflexivity. }
  assert (Sc : exists c r, t ++ u = c :: r /\ (c =? 45) || (c =? 43) = false).
  { rewrite Et. cbn [app]. eexists _, _. split; [reflexivity|]. apply orb_false_intro; apply Nat.eqb_neq; lia. }
  assert (Ee : (e =? 101) || (e =? 69) = true) by (destruct E as [-> | ->]; reflexivity).
  assert (Pe : is_sep e = false) by (destruct E as [-> | ->]; reflexivity).
  destruct C as [[-> ->]|[[-> ->]|[-> ->]]].
  - split; [|split].
    + cbn [scan_exp]. rewrite Ee. destruct Sc as (c & r & Ec & Hc). pose proof (St u U) as Z. rewrite Ec in *. rewrite Hc. exact Z.
    + rewrite strip_plain by exact Pe. f_equal. apply strip_id; assumption.
    + intros Du. rewrite digits_app by exact Fd. rewrite Du, app_nil_r. cbn [fst]. rewrite Et in *. cbn [app].
      clear -D Fv. do 10 (destruct d as [|d]; [exact Fv|]). lia.
  - split; [|split].
    + cbn [app scan_exp]. rewrite Ee. change ((43 =? 45) || (43 =? 43)) with true. cbn iota. apply St, U.
    + rewrite strip_plain by exact Pe. f_equal. rewrite strip_plain by reflexivity. f_equal. apply strip_id; assumption.
    + intros Du. cbn [app]. rewrite digits_app by exact Fd. rewrite Du, app_nil_r. exact Fv.
  - split; [|split].
    + cbn [app scan_exp]. rewrite Ee. change ((45 =? 45) || (45 =? 43)) with true. cbn iota. apply St, U.
    + rewrite strip_plain by exact Pe. f_equal. rewrite strip_plain by reflexivity. f_equal. apply strip_id; assumption.
    + intros Du. cbn [app]. rewrite digits_app by exact Fd. rewrite Du, app_nil_r. cbn [fst]. rewrite Fv. reflexivity.
Qed.
Lemma exponent_last x vx : exponent x vx -> exists x' d, d < 10 /\ x = x' ++ [48 + d].
Proof.
  intros (t & w & (k & H & _) & _ & _ & C). destruct (digs_last t w k H) as (t' & d & D & ->).
  destruct C as [[-> _]|[[-> _]|[-> _]]]; [exists t', d|exists (43 :: t'), d|exists (45 :: t'), d]; split; try exact D; reflexivity.
Qed.
Lemma scan_frac_digs f vf k u : digs f vf k -> stop u -> scan_frac (46 :: f ++ u) = Some u.
Proof.
  intros H U. destruct (digs_head f vf k H) as (d & t & D & -> & S). cbn [app scan_frac]. rewrite (digit_of d D). rewrite (scan_app (length t)) by auto. rewrite (scan_stop u U). reflexivity.
Qed.
Lemma stop_f : stop [] /\ stop [102].
Proof. split; [exact I|split; reflexivity]. Qed.

(** The text, followed by nothing or f, is a floating-point token with this value. *)
Definition reads (s : list byte) (q : Q) : Prop :=
  exists m e, forall u, u = [] \/ u = [102] ->
    is_int (s ++ u) = false /\ is_float_text (s ++ u) = true /\ strtod (strip (s ++ u)) = (m, e) /\ (decimal m e == q)%Q /\ (0 <= m)%Z.
Lemma ten_nz : ~ (inject_Z 10 == 0)%Q.
Proof. intros H. discriminate H. Qed.
Lemma pow_nat k : (inject_Z (10 ^ Z.of_nat k) == inject_Z 10 ^ Z.of_nat k)%Q.
Proof.
  induction k as [|k IH]; [reflexivity|]. rewrite Nat2Z.inj_succ, Z.pow_succ_r by lia. rewrite inject_Z_mult, IH. unfold Z.succ. rewrite Qpower_plus by exact ten_nz.
  change (inject_Z 10 ^ 1)%Q with (inject_Z 10). ring.
Qed.
Lemma decimal_parts vi vf k vx :
  (decimal (vi * 10 ^ Z.of_nat k + vf) (vx - Z.of_nat k) == (inject_Z vi + inject_Z vf * inject_Z 10 ^ (- Z.of_nat k)) * inject_Z 10 ^ vx)%Q.
Proof.
  unfold decimal. rewrite inject_Z_plus, inject_Z_mult, pow_nat. unfold Z.sub. rewrite Qpower_plus by exact ten_nz. rewrite Qpower_opp.
  assert (P : ~ (inject_Z 10 ^ Z.of_nat k == 0)%Q) by (apply Qpower_not_0; exact ten_nz). field. exact P.
Qed.
Lemma digs_nonneg s v k : digs s v k -> (0 <= v)%Z.
Proof. induction 1; lia. Qed.
Lemma numeral_strip i vi : numeral i vi -> forallb is_digit (strip i) = true /\ digits_val (strip i) 0 = vi /\ (0 <= vi)%Z.
Proof. intros (k & H & _). destruct (digs_strip i vi k H) as (A & B & _). split; [exact A|]. split; [exact B|]. exact (digs_nonneg _ _ _ H). Qed.
Lemma frac_val i vi f vf k : numeral i vi -> digs f vf k -> digits_val (strip i ++ strip f) 0 = (vi * 10 ^ Z.of_nat k + vf)%Z.
Proof.
  intros N F. destruct (numeral_strip i vi N) as (A & B & _). destruct (digs_strip f vf k F) as (C & D & E).
  rewrite digits_val_app by exact A. rewrite digits_val_acc by exact C. rewrite B, D, E. reflexivity.
Qed.
Lemma not_suffix c r : c <> 108 -> c <> 117 -> c <> 122 -> bool_decide (c :: r = [] \/ c :: r = Sl \/ c :: r = Su \/ c :: r = Sull \/ c :: r = Sz) = false.
Proof. intros. apply bool_decide_eq_false. unfold Sl, Su, Sull, Sz. intros [X|[X|[X|[X|X]]]]; congruence. Qed.
Lemma u_facts u : u = [] \/ u = [102] -> stop u /\ strip u = u /\ fst (digits u) = [] /\ digits u = ([], u) /\ bool_decide (u = [] \/ u = [102]) = true.
Proof. intros H. destruct H as [-> | ->]; repeat split. Qed.
Lemma reads_frac i vi f vf k : numeral i vi -> digs f vf k -> reads (i ++ 46 :: f) (inject_Z vi + inject_Z vf * (inject_Z 10 ^ (- Z.of_nat k))).
Proof.
  intros N F. exists (vi * 10 ^ Z.of_nat k + vf)%Z, (0 - Z.of_nat k)%Z. intros u Hu. destruct (u_facts u Hu) as (U1 & U2 & U3 & U4 & U5).
  destruct (numeral_strip i vi N) as (A & B & P). destruct (digs_strip f vf k F) as (C & D & E).
  assert (St : stop (46 :: f ++ u)) by (split; reflexivity).
  rewrite <- app_assoc. cbn [app]. split; [|split; [|split; [|split]]].
  - unfold is_int. pose proof (scan_int_numeral i vi _ N St) as SI; unfold byte in *; rewrite SI. apply not_suffix; lia.
  - unfold is_float_text. pose proof (scan_int_numeral i vi _ N St) as SI; unfold byte in *; rewrite SI. pose proof (scan_frac_digs f vf k u F U1) as SF; unfold byte in *; rewrite SF.
    apply orb_true_intro. right. assert (X : scan_exp u = None) by (destruct Hu as [-> | ->]; reflexivity). rewrite X. exact U5.
  - rewrite strip_app, strip_plain by reflexivity. rewrite strip_app, U2. unfold strtod. rewrite digits_app by exact A.
    cbn [digits]. change (is_digit 46) with false. cbn iota. cbn [fst snd]. rewrite app_nil_r. rewrite digits_app by exact C. rewrite U4. cbn [fst snd]. rewrite app_nil_r.
    rewrite (frac_val i vi f vf k N F), E. f_equal. destruct Hu as [-> | ->]; reflexivity.
  - rewrite decimal_parts. change (inject_Z 10 ^ 0)%Q with (1%Q). ring.
  - pose proof (digs_nonneg _ _ _ F). assert (0 <= 10 ^ Z.of_nat k)%Z by lia. nia.
Qed.
Lemma strtod_exp i f e x vx u : forallb is_digit i = true -> exponent x vx -> (e = 101 \/ e = 69) -> (u = [] \/ u = [102]) ->
  match x ++ u with
    | 45 :: r3 => (- digits_val (fst (digits r3)) 0)%Z
    | 43 :: r3 => digits_val (fst (digits r3)) 0
    | _ => digits_val (fst (digits (x ++ u))) 0
    end = vx -> forallb is_digit f = true ->
  strtod (i ++ e :: x ++ u) = (digits_val i 0, (vx - 0)%Z) /\
  strtod (i ++ 46 :: f ++ e :: x ++ u) = (digits_val (i ++ f) 0, (vx - Z.of_nat (length f))%Z).
Proof.
  intros I Hx He Hu V Fd. destruct He as [-> | ->]; split; unfold strtod; rewrite digits_app by exact I.
  1,3: cbn [digits]; match goal with |- context [is_digit ?c] => change (is_digit c) with false end; cbn iota; cbn [fst snd]; rewrite !app_nil_r; cbn [length Nat.eqb orb]; cbn iota;
       f_equal; exact (f_equal (fun z => (z - 0)%Z) V).
  all: cbn [digits]; change (is_digit 46) with false; cbn iota; cbn [fst snd]; rewrite app_nil_r; rewrite digits_app by exact Fd; cbn [digits];
       match goal with |- context [is_digit ?c] => change (is_digit c) with false end; cbn iota; cbn [fst snd]; rewrite !app_nil_r; cbn [Nat.eqb orb]; cbn iota;
       f_equal; exact (f_equal (fun z => (z - Z.of_nat (length f))%Z) V).
Qed.
Lemma reads_exp i vi x vx e : numeral i vi -> exponent x vx -> (e = 101 \/ e = 69) -> reads (i ++ e :: x) (inject_Z vi * (inject_Z 10 ^ vx)).
Proof.
  intros N X He. exists vi, (vx - 0)%Z. intros u Hu. destruct (u_facts u Hu) as (U1 & U2 & U3 & U4 & U5).
  destruct (numeral_strip i vi N) as (A & B & P). destruct (exponent_scan x vx e u X He U1) as (S1 & S2 & S3). specialize (S3 U3).
  assert (St : stop (e :: x ++ u)) by (destruct He as [-> | ->]; split; reflexivity).
  rewrite <- app_assoc. cbn [app]. split; [|split; [|split; [|split]]].
  - unfold is_int. pose proof (scan_int_numeral i vi _ N St) as SI; unfold byte in *; rewrite SI. apply not_suffix; destruct He as [-> | ->]; lia.
  - unfold is_float_text. pose proof (scan_int_numeral i vi _ N St) as SI; unfold byte in *; rewrite SI. apply orb_true_intro. right.
    assert (Y : scan_frac (e :: x ++ u) = None) by (destruct He as [-> | ->]; reflexivity). rewrite Y. rewrite S1. exact U5.
  - rewrite strip_app. change (e :: x ++ u) with ((e :: x) ++ u). rewrite strip_app, S2, U2. cbn [app].
    destruct (strtod_exp (strip i) [] e x vx u A X He Hu S3 eq_refl) as [T _]. unfold byte in *. rewrite T, B. reflexivity.
  - unfold decimal. rewrite Z.sub_0_r. reflexivity.
  - exact P.
Qed.
Lemma reads_frac_exp i vi f vf k x vx e : numeral i vi -> digs f vf k -> exponent x vx -> (e = 101 \/ e = 69) ->
  reads (i ++ 46 :: f ++ e :: x) ((inject_Z vi + inject_Z vf * (inject_Z 10 ^ (- Z.of_nat k))) * (inject_Z 10 ^ vx)).
Proof.
  intros N F X He. exists (vi * 10 ^ Z.of_nat k + vf)%Z, (vx - Z.of_nat k)%Z. intros u Hu. destruct (u_facts u Hu) as (U1 & U2 & U3 & U4 & U5).
  destruct (numeral_strip i vi N) as (A & B & P). destruct (digs_strip f vf k F) as (C & D & E). destruct (exponent_scan x vx e u X He U1) as (S1 & S2 & S3). specialize (S3 U3).
  assert (St2 : stop (e :: x ++ u)) by (destruct He as [-> | ->]; split; reflexivity).
  assert (St : stop (46 :: f ++ e :: x ++ u)) by (split; reflexivity).
  rewrite <- app_assoc. cbn [app]. rewrite <- app_assoc. cbn [app]. split; [|split; [|split; [|split]]].
  - unfold is_int. pose proof (scan_int_numeral i vi _ N St) as SI; unfold byte in *; rewrite SI. apply not_suffix; lia.
  - unfold is_float_text. pose proof (scan_int_numeral i vi _ N St) as SI; unfold byte in *; rewrite SI. pose proof (scan_frac_digs f vf k _ F St2) as SF; unfold byte in *; rewrite SF. rewrite S1. apply orb_true_intro. right. exact U5.
  - rewrite strip_app, strip_plain by reflexivity. rewrite strip_app. change (e :: x ++ u) with ((e :: x) ++ u). rewrite strip_app, S2, U2. cbn [app].
    destruct (strtod_exp (strip i) (strip f) e x vx u A X He Hu S3 C) as [_ T]. pose proof (frac_val i vi f vf k N F) as FV. unfold byte in *. rewrite T. rewrite FV, E. reflexivity.
  - apply decimal_parts.
  - pose proof (digs_nonneg _ _ _ F). assert (0 <= 10 ^ Z.of_nat k)%Z by lia. nia.
Qed.
Lemma floating_reads s q : floating s q -> reads s q.
Proof. intros H. destruct H; [apply reads_frac|apply reads_exp|eapply reads_frac_exp]; eassumption. Qed.
Lemma floating_ends s q : floating s q -> (exists d t, d < 10 /\ s = (48 + d) :: t) /\ (exists s' d, d < 10 /\ s = s' ++ [48 + d]).
Proof.
  assert (Hd : forall i vi r, numeral i vi -> exists d t, d < 10 /\ i ++ r = (48 + d) :: t).
  { intros i vi r (k & H & _). destruct (digs_head i vi k H) as (d & t & D & -> & _). exists d, (t ++ r). split; [exact D|reflexivity]. }
  assert (Tl : forall (a : list byte) b, (exists s' d, d < 10 /\ b = s' ++ [48 + d]) -> exists s' d, d < 10 /\ a ++ b = s' ++ [48 + d]).
  { intros a b (s' & d & D & ->). exists (a ++ s'), d. split; [exact D|apply app_assoc]. }
  assert (Tc : forall (c : byte) b, (exists s' d, d < 10 /\ b = s' ++ [48 + d]) -> exists s' d, d < 10 /\ c :: b = s' ++ [48 + d]).
  { intros c b (s' & d & D & ->). exists (c :: s'), d. split; [exact D|reflexivity]. }
  intros H. destruct H as [i vi f vf k N F|i vi x vx e N X He|i vi f vf k x vx e N F X He]; (split; [eapply Hd; eassumption|]); apply Tl, Tc.
  - exact (digs_last f vf k F).
  - exact (exponent_last x vx X).
  - apply Tl, Tc. exact (exponent_last x vx X).
Qed.
Lemma ratio_decimal m e n d : ratio m e = (n, d) -> (0 < d)%Z /\ (decimal m e * inject_Z d == inject_Z n)%Q.
Proof.
  unfold ratio. destruct (decide (0 <= e)%Z) as [L0|L0]; intros [= <- <-].
  - split; [lia|]. unfold decimal. rewrite inject_Z_mult. rewrite <- (Z2Nat.id e) by exact L0. rewrite pow_nat. change (inject_Z 1) with 1%Q. ring.
  - split; [apply Z.pow_pos_nonneg; lia|]. unfold decimal. replace (- e)%Z with (Z.of_nat (Z.to_nat (- e))) by lia. rewrite pow_nat.
    replace (Z.of_nat (Z.to_nat (- e))) with (- e)%Z by lia. rewrite Qpower_opp. assert (P : ~ (inject_Z 10 ^ e == 0)%Q) by (apply Qpower_not_0; exact ten_nz). field. exact P.
Qed.
Lemma stof_error_spec m e q : (decimal m e == q)%Q -> stof_error m e = true <-> beyond_float q.
Proof.
  intros Eq. unfold stof_error. destruct (ratio m e) as [n d] eqn:R. apply ratio_decimal in R as [Dp R]. rewrite Eq in R. rewrite bool_decide_eq_true. unfold beyond_float.
  assert (Dq : (0 < inject_Z d)%Q) by (change 0%Q with (inject_Z 0); rewrite <- Zlt_Qlt; exact Dp).
  assert (A : forall t, (inject_Z t <= q)%Q <-> (t * d <= n)%Z).
  { intros t. rewrite <- (Qmult_le_r _ _ _ Dq), R, <- inject_Z_mult, <- Zle_Qle. reflexivity. }
  assert (B : (0 < q)%Q <-> (0 < n)%Z).
  { rewrite <- (Qmult_lt_r _ _ _ Dq), R. rewrite Qmult_0_l. change 0%Q with (inject_Z 0). rewrite <- Zlt_Qlt. reflexivity. }
  assert (C : forall t, (q * inject_Z t < 1)%Q <-> (n * t < d)%Z).
  { intros t. rewrite <- (Qmult_lt_r _ _ _ Dq). setoid_replace (q * inject_Z t * inject_Z d)%Q with (q * inject_Z d * inject_Z t)%Q by ring.
    rewrite R, <- inject_Z_mult, Qmult_1_l, <- Zlt_Qlt. reflexivity. }
  assert (D : forall t, (exists z, (q * inject_Z t == inject_Z z)%Q) <-> ((n * t) mod d = 0)%Z).
  { intros t. split.
    - intros [z Hz]. apply Z.mod_divide; [lia|]. exists z. assert (X : (inject_Z (n * t) == inject_Z (z * d))%Q).
      { rewrite !inject_Z_mult, <- R, <- Hz. ring. } apply (proj1 (inject_Z_injective _ _)) in X. lia.
    - intros Hm. apply Z.mod_divide in Hm as [z Hz]; [|lia]. exists z. apply (Qmult_inj_r _ _ (inject_Z d)); [intros X; rewrite X in Dq; discriminate Dq|].
      rewrite <- inject_Z_mult, <- Hz, inject_Z_mult, <- R. ring. }
  rewrite A, B, C, D. reflexivity.
Qed.

(** * Strings *)
Definition raw (l : list item) : list byte := concat (map item_text l).
Lemma repl_eq x y a b r : repl x y (a :: b :: r) = if (a =? BACK) && (b =? x) then y :: repl x y r else a :: repl x y (b :: r).
Proof. reflexivity. Qed.
Lemma repl_ne x y a r : a <> 92 -> repl x y (a :: r) = a :: repl x y r.
Proof. intros H. cbn [repl]. destruct r as [|b r]; [reflexivity|]. unfold BACK. rewrite (proj2 (Nat.eqb_neq a 92) H). reflexivity. Qed.
Lemma repl_miss x y b r : b <> x -> repl x y (92 :: b :: r) = 92 :: repl x y (b :: r).
Proof. intros H. cbn [repl]. rewrite (proj2 (Nat.eqb_neq b x) H), andb_false_r. reflexivity. Qed.
Lemma repl_hit x y r : repl x y (92 :: x :: r) = y :: repl x y r.
Proof. cbn [repl]. rewrite (Nat.eqb_refl x). reflexivity. Qed.
Definition sub (x y : byte) (i : item) : item := match i with Es c => if c =? x then Pl y else i | _ => i end.
Fixpoint calm (x : byte) (l : list item) : Prop :=
  match l with [] => True | i :: t => (i = Es 92 -> head t <> Some (Pl x)) /\ calm x t end.
Definition no_back (i : item) : Prop := match i with Pl c => c <> 92 | _ => True end.
Lemma repl_items x y l : x <> 92 -> Forall no_back l -> calm x l -> repl x y (raw l) = raw (map (sub x y) l).
Proof.
  intros X. induction l as [|i l IH]; intros F C; [reflexivity|]. inversion F as [|i' l' F1 F2]; subst. destruct C as [C1 C2]. specialize (IH F2 C2).
  unfold raw in *. cbn [map concat]. destruct i as [c|c]; cbn [item_text sub].
  - cbn [app]. rewrite repl_ne by exact F1. rewrite IH. reflexivity.
  - cbn [app]. destruct (c =? x) eqn:E.
    + apply Nat.eqb_eq in E as ->. rewrite repl_hit, IH. reflexivity.
    + apply Nat.eqb_neq in E. rewrite repl_miss by exact E. cbn [item_text app]. f_equal. destruct (decide (c = 92)) as [->|N]; [|rewrite repl_ne by exact N; rewrite IH; reflexivity].
      rewrite <- IH. clear IH. destruct l as [|j l]; [reflexivity|]. cbn [map concat]. destruct j as [c|c]; cbn [item_text app].
      * apply repl_miss. intros ->. exact (C1 eq_refl eq_refl).
      * apply repl_miss. congruence.
Qed.
Lemma sub_back x y l : y <> 92 -> Forall no_back l -> Forall no_back (map (sub x y) l).
Proof. intros Y F. apply Forall_fmap. eapply Forall_impl; [exact F|]. intros [c|c] H; cbn; [exact H|]. destruct (c =? x); [exact Y|exact I]. Qed.
Lemma sub_calm x y x' l : y <> x' -> calm x' l -> calm x' (map (sub x y) l).
Proof.
  intros Y. induction l as [|i l IH]; intros C; [exact I|]. destruct C as [C1 C2]. cbn [map calm]. split; [|apply IH, C2]. intros E.
  assert (i = Es 92) as ->. { destruct i as [c|c]; cbn in E; [discriminate E|]. destruct (c =? x); [discriminate E|exact E]. }
  specialize (C1 eq_refl). destruct l as [|j l]; [discriminate|]. cbn [map head] in *. destruct j as [c|c]; cbn [sub]; [exact C1|]. destruct (c =? x); congruence.
Qed.
Definition bare (i : item) : byte := match i with Pl c => c | Es c => c end.
Lemma repl_last l : Forall (fun i => (exists c, i = Pl c /\ c <> 92) \/ i = Es 92) l -> repl 92 92 (raw l) = map bare l.
Proof.
  induction l as [|i l IH]; intros F; [reflexivity|]. inversion F as [|i' l' F1 F2]; subst. specialize (IH F2). unfold raw in *. cbn [map concat].
  destruct F1 as [(c & -> & N)| ->]; cbn [item_text app bare].
  - rewrite repl_ne by exact N. rewrite IH. reflexivity.
  - rewrite repl_hit, IH. reflexivity.
Qed.
Lemma unescape_items l : Forall item_ok l -> (forall x, x ∈ letters -> calm x l) -> unescape (raw l) = meaning l.
Proof.
  intros F C. unfold unescape.
  assert (F0 : Forall no_back l) by (eapply Forall_impl; [exact F|]; intros [c|c] H; cbn in *; [tauto|exact I]).
  assert (Cq : calm 34 l).
  { clear -F. induction l as [|i l IH]; [exact I|]. inversion F as [|i' l' F1 F2]; subst. split; [|apply IH, F2]. intros _. destruct l as [|j l]; [discriminate|]. cbn [head]. intros [= ->]. inversion F2 as [|j' l' F3 F4]; subst. destruct F3 as [F3 _]. congruence. }
  pose proof (C 98 ltac:(unfold letters; set_solver)) as C1. pose proof (C 102 ltac:(unfold letters; set_solver)) as C2. pose proof (C 110 ltac:(unfold letters; set_solver)) as C3.
  pose proof (C 114 ltac:(unfold letters; set_solver)) as C4. pose proof (C 116 ltac:(unfold letters; set_solver)) as C5. clear C.
  rewrite repl_items by (first [lia|assumption]).
  apply (sub_back 98 8) in F0; [|lia]. apply (sub_calm 98 8) in Cq, C2, C3, C4, C5; try lia. clear C1. rewrite repl_items by (first [lia|assumption]).
  apply (sub_back 102 12) in F0; [|lia]. apply (sub_calm 102 12) in Cq, C3, C4, C5; try lia. clear C2. rewrite repl_items by (first [lia|assumption]).
  apply (sub_back 110 10) in F0; [|lia]. apply (sub_calm 110 10) in Cq, C4, C5; try lia. clear C3. rewrite repl_items by (first [lia|assumption]).
  apply (sub_back 114 13) in F0; [|lia]. apply (sub_calm 114 13) in Cq, C5; try lia. clear C4. rewrite repl_items by (first [lia|assumption]).
  apply (sub_back 116 9) in F0; [|lia]. apply (sub_calm 116 9) in Cq; try lia. clear C5. rewrite repl_items by (first [lia|assumption]).
  clear F0 Cq. rewrite !map_map. rewrite repl_last.
  - unfold meaning. rewrite map_map. apply map_ext_in. intros i Hi. rewrite Forall_forall in F. specialize (F i (proj2 (elem_of_list_In _ _) Hi)).
    destruct i as [c|c]; [reflexivity|]. cbn [item_ok] in F. repeat (apply elem_of_cons in F as [->|F]; [reflexivity|]). apply elem_of_nil in F as [].
  - apply Forall_fmap. eapply Forall_impl; [exact F|]. intros [c|c] H.
    + left. exists c. split; [reflexivity|]. cbn in H. tauto.
    + cbn [item_ok] in H. repeat (apply elem_of_cons in H as [->|H]; [first [right; reflexivity|left; eexists; split; [reflexivity|lia]]|]). apply elem_of_nil in H as [].
Qed.
(** No backslash and [x] next to each other. *)
Fixpoint noadj (x : byte) (s : list byte) : Prop :=
  match s with a :: t => (a = 92 -> head t <> Some x) /\ noadj x t | [] => True end.
Lemma noadj_spec x s : noadj x s <-> forall a b, s <> a ++ 92 :: x :: b.
Proof.
  induction s as [|c s IH].
  - split; [intros _ [|? ?] b; discriminate|intros _; exact I].
  - cbn [noadj]. rewrite IH. split.
    + intros [H1 H2] [|c' a] b; cbn [app]; [intros [= -> ->]; exact (H1 eq_refl eq_refl)|intros [= -> E]; exact (H2 _ _ E)].
    + intros H. split; [intros -> E; destruct s as [|d s]; [discriminate E|]; cbn in E; injection E as ->; exact (H [] s eq_refl)|].
      intros a b ->. exact (H (c :: a) b eq_refl).
Qed.
Lemma repl_head x y s : head (repl x y s) = head s \/ head (repl x y s) = Some y.
Proof. destruct s as [|a [|b r]]; [left; reflexivity|left; reflexivity|]. rewrite repl_eq. destruct ((a =? BACK) && (b =? x)); [right|left]; reflexivity. Qed.
Lemma repl_head_back s : head (repl 92 92 s) = head s.
Proof. destruct s as [|a [|b r]]; [reflexivity|reflexivity|]. rewrite repl_eq. destruct (a =? BACK) eqn:E; cbn [andb]; [|reflexivity]. apply Nat.eqb_eq in E as ->. destruct (b =? 92); reflexivity. Qed.
Lemma repl_clears n : forall x y s, length s <= n -> y <> 92 -> y <> x -> x <> 92 -> noadj x (repl x y s).
Proof.
  induction n as [|n IH]; intros x y [|a [|b r]] Hn Y1 Y2 X; cbn [length] in Hn; try lia; try exact I.
  { cbn. split; [discriminate|exact I]. }
  rewrite repl_eq. destruct (a =? BACK) eqn:E; cbn [andb].
  - apply Nat.eqb_eq in E as ->. destruct (b =? x) eqn:B.
    + split; [intros ->; contradiction|]. apply IH; [lia|assumption..].
    + apply Nat.eqb_neq in B. split; [|apply IH; [cbn [length]; lia|assumption..]]. intros _. destruct (repl_head x y (b :: r)) as [H|H]; rewrite H; cbn; congruence.
  - apply Nat.eqb_neq in E. split; [intros ->; contradiction|]. apply IH; [cbn [length]; lia|assumption..].
Qed.
Lemma repl_keeps n : forall x y x' s, length s <= n -> y <> 92 -> y <> x' -> noadj x' s -> noadj x' (repl x y s).
Proof.
  induction n as [|n IH]; intros x y x' [|a [|b r]] Hn Y1 Y2 H; cbn [length] in Hn; try lia; try exact I; try exact H.
  rewrite repl_eq. destruct H as [H1 H2]. destruct ((a =? BACK) && (b =? x)).
  - split; [intros ->; contradiction|]. apply IH; [lia|assumption|assumption|apply H2].
  - split; [|apply IH; [cbn [length]; lia|assumption..]]. intros E. specialize (H1 E). destruct (repl_head x y (b :: r)) as [H|H]; rewrite H; [exact H1|congruence].
Qed.
Lemma repl_keeps_back n : forall x' s, length s <= n -> noadj x' s -> noadj x' (repl 92 92 s).
Proof.
  induction n as [|n IH]; intros x' [|a [|b r]] Hn H; cbn [length] in Hn; try lia; try exact I; try exact H.
  rewrite repl_eq. destruct H as [H1 [H2 H3]]. destruct (a =? BACK) eqn:E; cbn [andb]; [destruct (b =? 92) eqn:B|].
  - apply Nat.eqb_eq in B as ->. split; [|apply IH; [lia|exact H3]]. intros _. rewrite repl_head_back. exact (H2 eq_refl).
  - split; [|apply IH; [cbn [length]; lia|split; assumption]]. rewrite repl_head_back. exact H1.
  - split; [|apply IH; [cbn [length]; lia|split; assumption]]. rewrite repl_head_back. exact H1.
Qed.
Lemma unescape_noadj x s : x ∈ letters -> noadj x (unescape s).
Proof.
  intros H. unfold unescape. apply (repl_keeps_back (length (repl 34 34 (repl 116 9 (repl 114 13 (repl 110 10 (repl 102 12 (repl 98 8 s)))))))); [lia|].
  assert (K : forall a b u, b <> 92 -> b <> x -> noadj x u -> noadj x (repl a b u)) by (intros; eapply repl_keeps; eauto).
  assert (N : forall b u, b <> 92 -> b <> x -> x <> 92 -> noadj x (repl x b u)) by (intros; eapply repl_clears; eauto).
  unfold letters in H. repeat (apply elem_of_cons in H as [->|H]); [..|apply elem_of_nil in H as []].
  - do 5 (apply K; [lia|lia|]). apply N; lia.
  - do 4 (apply K; [lia|lia|]). apply N; lia.
  - do 3 (apply K; [lia|lia|]). apply N; lia.
  - do 2 (apply K; [lia|lia|]). apply N; lia.
  - do 1 (apply K; [lia|lia|]). apply N; lia.
Qed.
Lemma unescape_never s : ~ back_letter (unescape s).
Proof. intros (a & c & b & E & H). exact (proj1 (noadj_spec c _) (unescape_noadj c s H) a b E). Qed.
Lemma calm_or_clash x l : calm x l \/ exists a b, l = a ++ Es 92 :: Pl x :: b.
Proof.
  induction l as [|i l [IH|(a & b & ->)]]; [left; exact I| |right; exists (i :: a), b; reflexivity].
  destruct i as [c|c]; [left; split; [discriminate|exact IH]|]. destruct (decide (c = 92)) as [->|N]; [|left; split; [congruence|exact IH]].
  destruct l as [|[d|d] l]; [left; split; [discriminate|exact IH]| |left; split; [discriminate|exact IH]].
  destruct (decide (d = x)) as [->|N]; [right; exists [], l; reflexivity|]. left. split; [cbn; congruence|exact IH].
Qed.
Lemma calm_iff x l : calm x l <-> forall a b, l <> a ++ Es 92 :: Pl x :: b.
Proof.
  split.
  - intros H a. revert l H. induction a as [|i a IH]; intros l H b ->; cbn [app calm] in H; destruct H as [H1 H2]; [exact (H1 eq_refl eq_refl)|exact (IH _ H2 b eq_refl)].
  - intros H. destruct (calm_or_clash x l) as [C|(a & b & ->)]; [exact C|]. exfalso. exact (H a b eq_refl).
Qed.
Lemma quoted_body l : take (length (quoted l) - 2) (drop 1 (quoted l)) = raw l.
Proof. unfold quoted. cbn [length drop]. rewrite drop_0. fold (raw l). rewrite app_length. cbn [length]. replace (S (length (raw l) + 1) - 2) with (length (raw l)) by lia. apply take_app. Qed.
Lemma is_str_quoted l : Forall item_ok l -> is_str (quoted l) = true.
Proof.
  intros F. unfold quoted, is_str. change (34 =? QUOT) with true. cbn [andb]. induction F as [|i l H F IH]; [reflexivity|]. cbn [map concat]. destruct i as [c|c]; cbn [item_text app is_str_rest].
  - destruct H as [H1 H2]. unfold QUOT, BACK. rewrite (proj2 (Nat.eqb_neq c 34) H1), (proj2 (Nat.eqb_neq c 92) H2). exact IH.
  - change (92 =? QUOT) with false. change (92 =? BACK) with true. cbn iota. unfold is_escape. rewrite bool_decide_eq_true_2 by exact H. exact IH.
Qed.
Lemma is_str_inv s : is_str s = true -> exists l, Forall item_ok l /\ s = quoted l.
Proof.
  unfold is_str. destruct s as [|c s]; [discriminate|]. intros [H1 H2]%andb_true_iff. apply Nat.eqb_eq in H1 as ->.
  enough (X : exists l, Forall item_ok l /\ s = raw l ++ [34]) by (destruct X as (l & F & ->); exists l; split; [exact F|reflexivity]).
  revert s H2. fix IH 1. intros [|c s] H; [discriminate H|]. cbn [is_str_rest] in H. destruct (c =? QUOT) eqn:Q.
  - apply bool_decide_eq_true in H as ->. apply Nat.eqb_eq in Q as ->. exists []. split; [constructor|reflexivity].
  - apply Nat.eqb_neq in Q. destruct (c =? BACK) eqn:B.
    + apply Nat.eqb_eq in B as ->. destruct s as [|e s]; [discriminate H|]. apply andb_true_iff in H as [H1 H2]. apply bool_decide_eq_true in H1.
      destruct (IH s H2) as (l & F & ->). exists (Es e :: l). split; [constructor; assumption|reflexivity].
    + apply Nat.eqb_neq in B. destruct (IH s H) as (l & F & ->). exists (Pl c :: l). split; [constructor; [split; assumption|exact F]|reflexivity].
Qed.
Lemma visit_quoted l : Forall item_ok l -> visit_literal (quoted l) = Ok (CStr (unescape (raw l))).
Proof.
  intros F. unfold visit_literal. assert (A : scan_int (quoted l) = None) by reflexivity. unfold is_int, is_float_text. rewrite A.
  rewrite bool_decide_eq_false_2 by (intros [X|[X|[X|X]]]; discriminate X). cbn [orb]. rewrite decide_False by discriminate. rewrite decide_False by discriminate.
  rewrite (is_str_quoted l F). unfold visit_str. rewrite quoted_body. reflexivity.
Qed.
(** A spelling of every string without such pairs. *)
Definition spell (c : byte) : item := if decide (c = 34) then Es 34 else if decide (c = 92) then Es 92 else Pl c.
Lemma spell_ok c : item_ok (spell c) /\ item_char (spell c) = c.
Proof.
  unfold spell. destruct (decide (c = 34)) as [->|A]; [split; [cbn; set_solver|reflexivity]|]. destruct (decide (c = 92)) as [->|B]; [split; [cbn; set_solver|reflexivity]|]. split; [split; assumption|reflexivity].
Qed.
Lemma spell_string s : ~ back_letter s -> exists l, Forall item_ok l /\ meaning l = s /\ forall x, x ∈ letters -> calm x l.
Proof.
  intros H. exists (map spell s). split; [apply Forall_fmap, Forall_forall; intros c _; apply spell_ok|]. split.
  - unfold meaning. rewrite map_map. rewrite <- (map_id s) at 2. apply map_ext. intros c. apply spell_ok.
  - intros x Hx. apply calm_iff. intros a b E. apply H. assert (X : meaning (map spell s) = meaning a ++ 92 :: x :: meaning b) by (rewrite E; unfold meaning; rewrite map_app; reflexivity).
    unfold meaning in X. rewrite map_map in X. rewrite (map_ext _ id) in X by (intros c; apply spell_ok). rewrite map_id in X. exists (meaning a), x, (meaning b). split; [exact X|exact Hx].
Qed.

(** * Script arguments *)
Lemma cut_spec c s x y : cut c s = Some (x, y) <-> s = x ++ c :: y /\ c ∉ x.
Proof.
  revert x y. induction s as [|a s IH]; intros x y; cbn [cut].
  - split; [discriminate|]. intros [E _]. destruct x; discriminate E.
  - destruct (a =? c) eqn:A.
    + apply Nat.eqb_eq in A as ->. split.
      * intros [= <- <-]. split; [reflexivity|]. apply not_elem_of_nil.
      * intros [E N]. destruct x as [|b x]; cbn [app] in E; [injection E as ->; reflexivity|]. injection E as <- _. exfalso. apply N, elem_of_list_here.
    + apply Nat.eqb_neq in A. destruct (cut c s) as [[x0 y0]|] eqn:C.
      * destruct (proj1 (IH x0 y0) eq_refl) as [-> N0]. split.
        { intros [= <- <-]. split; [reflexivity|]. apply not_elem_of_cons. split; [congruence|exact N0]. }
        { intros [E N]. destruct x as [|b x]; cbn [app] in E; [congruence|]. injection E as -> E. apply not_elem_of_cons in N as [_ N].
          assert (X : Some (x0, y0) = Some (x, y)) by (apply IH; split; assumption). injection X as -> ->. reflexivity. }
      * split; [discriminate|]. intros [E N]. destruct x as [|b x]; cbn [app] in E; [congruence|]. injection E as -> E. apply not_elem_of_cons in N as [_ N].
        assert (X : None = Some (x, y)) by (apply IH; split; assumption). discriminate X.
Qed.
Lemma cut_none c s : cut c s = None <-> c ∉ s.
Proof.
  split.
  - intros H E. apply elem_of_list_split_l in E as (x & y & -> & N). assert (X : cut c (x ++ c :: y) = Some (x, y)) by (apply cut_spec; split; [reflexivity|exact N]). congruence.
  - intros H. destruct (cut c s) as [[x y]|] eqn:E; [|reflexivity]. apply cut_spec in E as [-> _]. exfalso. apply H, elem_of_app. right. apply elem_of_list_here.
Qed.
Lemma find_arg_none m n : find_arg m n = None <-> n ∉ map fst m.
Proof.
  induction m as [|[k v] m IH]; cbn [find_arg map fst]; [split; [intros _; apply not_elem_of_nil|reflexivity]|]. rewrite not_elem_of_cons, <- IH.
  destruct (decide (k = n)) as [->|N]; [split; [discriminate|intros [X _]; contradiction]|]. split; [intros H; split; [congruence|exact H]|tauto].
Qed.
Lemma find_arg_some m n v : NoDup (map fst m) -> find_arg m n = Some v <-> (n, v) ∈ m.
Proof.
  induction m as [|[k w] m IH]; cbn [find_arg map fst]; intros ND; [split; [discriminate|intros H; apply elem_of_nil in H as []]|]. apply NoDup_cons in ND as [N1 N2].
  rewrite elem_of_cons. destruct (decide (k = n)) as [->|N].
  - split; [intros [= ->]; left; reflexivity|]. intros [[= ->]|H]; [reflexivity|]. exfalso. apply N1. apply elem_of_list_In, in_map_iff. exists (n, v). split; [reflexivity|]. apply elem_of_list_In, H.
  - rewrite IH by exact N2. split; [intros H; right; exact H|]. intros [[= -> ->]|H]; [contradiction|exact H].
Qed.
Lemma parse_args_spec items : forall m, NoDup (map fst m) ->
  (forall m', parse_args items m = Ok m' <-> exists l, m' = m ++ l /\ Forall2 (fun it e => named it (fst e) (snd e)) items l /\ NoDup (map fst m')) /\ parse_args items m <> UB.
Proof.
  induction items as [|it items IH]; intros m ND; cbn [parse_args].
  - split; [|discriminate]. intros m'. split.
    + intros [= <-]. exists []. rewrite app_nil_r. split; [reflexivity|]. split; [constructor|exact ND].
    + intros (l & -> & F & _). inversion F; subst. rewrite app_nil_r. reflexivity.
  - destruct (cut EQ it) as [[n v]|] eqn:C.
    + apply cut_spec in C. destruct (find_arg m n) as [w|] eqn:G.
      * split; [|discriminate]. intros m'. split; [discriminate|]. intros (l & -> & F & N). exfalso. inversion F as [|it' e items' l' F1 F2]; subst. destruct F1 as [E1 N1].
        assert (X : cut EQ it = Some (fst e, snd e)) by (apply cut_spec; split; assumption). assert (Y : cut EQ it = Some (n, v)) by (apply cut_spec; exact C).
        assert (fst e = n) by congruence. subst n. assert (Z : find_arg m (fst e) <> None) by congruence. apply Z, find_arg_none. intros I.
        rewrite map_app in N. apply NoDup_app in N as (_ & N & _). apply (N (fst e) I). cbn [map]. apply elem_of_list_here.
      * assert (ND' : NoDup (map fst (m ++ [(n, v)]))).
        { rewrite map_app. apply NoDup_app. split; [exact ND|]. split; [|apply NoDup_singleton]. intros x Hx E. apply elem_of_list_singleton in E. cbn in E. subst x. apply find_arg_none in G. contradiction. }
        destruct (IH _ ND') as [IH1 IH2]. split; [|exact IH2]. intros m'. rewrite IH1. split.
        { intros (l & -> & F & N). exists ((n, v) :: l). rewrite <- app_assoc in *. split; [reflexivity|]. split; [constructor; [exact C|exact F]|exact N]. }
        { intros (l & -> & F & N). inversion F as [|it' e items' l' F1 F2]; subst. destruct e as [n' v']. destruct F1 as [E1 N1]. cbn [fst snd] in *.
          assert (X : cut EQ it = Some (n', v')) by (apply cut_spec; split; assumption). assert (Y : cut EQ it = Some (n, v)) by (apply cut_spec; exact C).
          assert (n' = n /\ v' = v) as [-> ->] by (split; congruence). exists l'. rewrite <- app_assoc. split; [reflexivity|]. split; [exact F2|exact N]. }
    + split; [|discriminate]. intros m'. split; [discriminate|]. intros (l & -> & F & N). exfalso. inversion F as [|it' e items' l' F1 F2]; subst.
      assert (X : cut EQ it = Some (fst e, snd e)) by (apply cut_spec; exact F1). congruence.
Qed.
Lemma commas_pieces s : pieces s (commas s).
Proof.
  unfold pieces. induction s as [|a s (IH1 & IH2 & IH3)]; cbn [commas].
  - split; [discriminate|]. split; [reflexivity|]. constructor; [apply not_elem_of_nil|constructor].
  - destruct (a =? COMMAB) eqn:A.
    + apply Nat.eqb_eq in A as ->. split; [discriminate|]. split; [|constructor; [apply not_elem_of_nil|exact IH3]]. destruct (commas s) as [|p ps]; [contradiction|]. cbn [join app] in *. rewrite IH2. reflexivity.
    + apply Nat.eqb_neq in A. destruct (commas s) as [|p ps]; [contradiction|]. split; [discriminate|]. inversion IH3 as [|p' ps' P1 P2]; subst. split.
      * destruct ps as [|q ps]; cbn [join app] in *; reflexivity.
      * constructor; [apply not_elem_of_cons; split; [unfold COMMAB in A; congruence|exact P1]|exact P2].
Qed.
Lemma pieces_unique s ps : pieces s ps -> ps = commas s.
Proof.
  unfold pieces. revert s. induction ps as [|p ps IH]; intros s (N & J & F); [contradiction|]. clear N. inversion F as [|p' ps' F1 F2]; subst. clear F.
  assert (X : forall q r, 44 ∉ q -> commas (q ++ r) = match commas r with x :: xs => (q ++ x) :: xs | [] => [] end).
  { intros q r. induction q as [|a q IHq]; intros Q; [cbn [app]; pose proof (commas_pieces r) as (Nr & _ & _); destruct (commas r); [contradiction|reflexivity]|].
    apply not_elem_of_cons in Q as [Q1 Q2]. cbn [app commas]. unfold COMMAB. rewrite (proj2 (Nat.eqb_neq a 44)) by congruence. rewrite (IHq Q2).
    pose proof (commas_pieces r) as (Nr & _ & _). destruct (commas r); [contradiction|reflexivity]. }
  destruct ps as [|q ps].
  - cbn [join]. rewrite <- (app_nil_r p) at 2. rewrite X by exact F1. cbn [commas]. rewrite app_nil_r. reflexivity.
  - change (join (p :: q :: ps)) with (p ++ 44 :: join (q :: ps)). rewrite X by exact F1. cbn [commas]. change (44 =? COMMAB) with true. cbn iota. rewrite app_nil_r. f_equal. apply IH. split; [discriminate|]. split; [reflexivity|exact F2].
Qed.

(** * Matrix literals *)
Lemma conv_ok t e x : e_val e = Num x -> el_type (e_t e) = true -> (generality (e_t e) <= generality t)%Z -> el_type t = true -> exists y, cast_arg (e_t e) t x = Ok y /\ conv t e = Ok (Num y).
Proof.
  intros V E G T. unfold conv. rewrite V. unfold cast_arg. destruct (decide (e_t e = t)); [exists x; split; reflexivity|]. unfold cast.
  destruct (integral t) eqn:It.
  - assert (X : integral (e_t e) = true) by (destruct (e_t e), t; try discriminate; try reflexivity; cbn in G; lia). rewrite X. eexists. split; reflexivity.
  - rewrite decide_True by (destruct t; try discriminate; auto). eexists. split; reflexivity.
Qed.
(** Elements that can be stored in a matrix of type [t]. *)
Definition storable (t : vt) (es : list el) : Prop :=
  Forall (fun e => el_type (e_t e) = true /\ (generality (e_t e) <= generality t)%Z /\ exists x, e_val e = Num x) es.
Lemma fill_spec t es : el_type t = true -> storable t es -> forall i,
  exists vals idx, fill t i es = Ok (vals, idx) /\ length vals = length es /\
    (forall k, k ∈ idx -> i <= k < i + length es) /\ NoDup idx /\
    (forall j e v, es !! j = Some e -> vals !! j = Some v -> i + j ∉ idx -> converted t e v).
Proof.
  intros T St. induction St as [|e es (E1 & E2 & x & E3) St IH]; intros i; cbn [fill].
  - exists [], []. split; [reflexivity|]. split; [reflexivity|]. split; [intros k Hk; apply elem_of_nil in Hk as []|]. split; [constructor|]. intros j e v H. discriminate H.
  - destruct (IH (S i)) as (vals & idx & F & L0 & R & N & C). rewrite F. rewrite (decide_False (P := t = STR)) by (intros ->; discriminate T). rewrite E1.
    destruct (conv_ok t e x E3 E1 E2 T) as (y & Y1 & Y2). destruct (e_const e).
    + rewrite Y2. cbn [obind fst snd]. exists (Num y :: vals), idx. split; [reflexivity|]. split; [cbn [length]; lia|]. split; [intros k Hk; specialize (R k Hk); cbn [length]; lia|]. split; [exact N|].
      intros [|j] e' v; cbn; [intros [= <-] [= <-] _; exists x, y; auto|]. intros He Hv Hn. apply (C j e' v He Hv). replace (S i + j) with (i + S j) by lia. exact Hn.
    + cbn [obind fst snd]. exists (Num 0 :: vals), (i :: idx). split; [reflexivity|]. split; [cbn [length]; lia|].
      split; [intros k [->|Hk]%elem_of_cons; [cbn [length]; lia|specialize (R k Hk); cbn [length]; lia]|]. split; [constructor; [intros X; specialize (R i X); lia|exact N]|].
      intros [|j] e' v He Hv Hn; [exfalso; apply Hn; rewrite Nat.add_0_r; apply elem_of_list_here|]. apply (C j e' v He Hv). apply not_elem_of_cons in Hn as [_ Hn]. replace (S i + j) with (i + S j) by lia. exact Hn.
Qed.
Lemma patch_spec t es : el_type t = true -> storable t es -> forall idx vals, length vals = length es -> (forall k, k ∈ idx -> k < length es) ->
  (forall j e v, es !! j = Some e -> vals !! j = Some v -> j ∉ idx -> converted t e v) ->
  exists vals', patch t es idx vals = Ok vals' /\ Forall2 (converted t) es vals'.
Proof.
  intros T S. induction idx as [|i idx IH]; intros vals L0 R C; cbn [patch].
  - exists vals. split; [reflexivity|]. apply Forall2_same_length_lookup_2; [lia|]. intros j e v He Hv. apply (C j e v He Hv), not_elem_of_nil.
  - assert (Li : i < length es) by (apply R, elem_of_list_here). destruct (lookup_lt_is_Some_2 es i Li) as [e He]. rewrite (rd_Ok es i e He). cbn [obind].
    pose proof S as S0. unfold storable in S0. rewrite Forall_forall in S0. destruct (S0 e (elem_of_list_lookup_2 _ _ _ He)) as (E1 & E2 & x & E3). destruct (conv_ok t e x E3 E1 E2 T) as (y & Y1 & Y2).
    rewrite Y2. cbn [obind]. rewrite (wr_Ok vals i (Num y)) by lia. cbn [obind]. apply IH.
    + rewrite insert_length. exact L0.
    + intros k Hk. apply R, elem_of_list_further, Hk.
    + intros j e' v He' Hv Hn. destruct (decide (j = i)) as [->|Nj].
      * rewrite list_lookup_insert in Hv by lia. injection Hv as <-. assert (e' = e) as -> by congruence. exists x, y. auto.
      * rewrite list_lookup_insert_ne in Hv by congruence. apply (C j e' v He' Hv). apply not_elem_of_cons. split; assumption.
Qed.
Lemma build_col_spec t es : el_type t = true -> storable t es -> exists vals, build_col t es = Ok vals /\ Forall2 (converted t) es vals.
Proof.
  intros T S. unfold build_col. destruct (fill_spec t es T S 0) as (vals & idx & F & L0 & R & N & C). rewrite F. cbn [obind fst snd].
  apply patch_spec; [exact T|exact S|exact L0| |]; [intros k Hk; specialize (R k Hk); lia|exact C].
Qed.
Lemma fill_bad t es e i : t <> STR -> e ∈ es -> el_type (e_t e) = false -> Forall (fun e => el_type (e_t e) = true -> exists v, conv t e = Ok v) es -> fill t i es = Throw.
Proof.
  intros T H B F. revert i. induction F as [|e' es G F IH]; intros i; [apply elem_of_nil in H as []|]. cbn [fill]. rewrite (decide_False (P := t = STR)) by exact T.
  apply elem_of_cons in H as [<-|H]; [rewrite B; reflexivity|]. destruct (el_type (e_t e')); [|reflexivity]. specialize (IH H (S i)).
  destruct (e_const e'); [destruct (G eq_refl) as [v ->]; cbn [obind]|cbn [obind]]; rewrite IH; reflexivity.
Qed.

Lemma number_type e : number_el e -> el_type (e_t e) = true.
Proof. intros [H _]. repeat (apply elem_of_cons in H as [->|H]; [reflexivity|]). apply elem_of_nil in H as []. Qed.
Lemma numbers_storable t es : Forall number_el es -> highest (map e_t es) t -> el_type t = true /\ storable t es.
Proof.
  intros F [H1 H2]. split.
  - apply elem_of_list_In, in_map_iff in H1 as (e & <- & He). apply number_type. rewrite Forall_forall in F. apply F, elem_of_list_In, He.
  - apply Forall_forall. intros e He. rewrite Forall_forall in F. specialize (F e He). split; [apply number_type, F|]. split; [|apply F].
    apply below_gen, H2, elem_of_list_In, in_map_iff. exists e. split; [reflexivity|apply elem_of_list_In, He].
Qed.
Lemma highest_most ts t : highest ts t -> most_general ts = Ok t.
Proof.
  intros H. destruct (most_general_total ts) as [r R]; [intros ->; destruct H as [H _]; apply elem_of_nil in H as []|].
  rewrite R. f_equal. apply most_general_highest in R. destruct H as [H1 H2], R as [R1 R2].
  pose proof (proj1 (below_gen _ _) (H2 _ R1)). pose proof (proj1 (below_gen _ _) (R2 _ H1)). destruct r, t; cbn in *; try reflexivity; lia.
Qed.
Lemma dims_shape n rows cols r c : (0 < n < 2 ^ 64)%Z -> shape n rows cols r c -> dims n rows cols = Ok (r, c).
Proof.
  intros N (R & C & P & M). assert (R0 : r <> 0%Z) by (intros ->; lia). assert (C0 : c <> 0%Z) by (intros ->; lia).
  assert (Rn : (r * 1 <= r * c)%Z) by (apply Z.mul_le_mono_nonneg_l; lia). assert (Cn : (1 * c <= r * c)%Z) by (apply Z.mul_le_mono_nonneg_r; lia).
  assert (Br : (0 < r < 2 ^ 64)%Z) by lia. assert (Bc : (0 < c < 2 ^ 64)%Z) by lia. unfold dims, size64.
  destruct rows as [a|], cols as [b|].
  - destruct M as [-> ->]. rewrite !Z.mod_small by lia. reflexivity.
  - subst a. rewrite Z.mod_small by lia. rewrite decide_False by lia. rewrite <- P, Z.mul_comm, Z.div_mul by lia. reflexivity.
  - subst b. rewrite Z.mod_small by lia. rewrite decide_False by lia. rewrite <- P, Z.div_mul by lia. reflexivity.
  - subst c. f_equal. f_equal. lia.
Qed.
Lemma dims_moderate n rows cols r c : (0 < n < 2 ^ 64)%Z -> moderate rows cols -> dims n rows cols = Ok (r, c) ->
  (0 <= r)%Z /\ (0 <= c)%Z /\ (r * c < 2 ^ 64)%Z /\ ((r * c = n)%Z -> shape n rows cols r c).
Proof.
  intros N M D. unfold dims, size64, moderate, shape in *. destruct rows as [a|], cols as [b|].
  - destruct M as (A & B & AB). rewrite !Z.mod_small in D by lia. injection D as <- <-. repeat split; try lia; auto.
  - rewrite Z.mod_small in D by lia. destruct (decide (a = 0)%Z); [discriminate D|]. injection D as <- <-. pose proof (Z.mul_div_le n a ltac:(lia)). pose proof (Z.div_pos n a ltac:(lia) ltac:(lia)). repeat split; try lia.
  - rewrite Z.mod_small in D by lia. destruct (decide (b = 0)%Z); [discriminate D|]. injection D as <- <-. pose proof (Z.mul_div_le n b ltac:(lia)). pose proof (Z.div_pos n b ltac:(lia) ltac:(lia)). repeat split; try lia.
  - injection D as <- <-. repeat split; lia.
Qed.
Lemma reshape_fits {A} (vals : list A) r c : (r * c = Z.of_nat (length vals))%Z -> reshape_col vals r c = Ok (r, c, vals).
Proof. intros E. unfold reshape_col. rewrite E. destruct (decide _); [reflexivity|]. rewrite decide_True by reflexivity. reflexivity. Qed.
Lemma reshape_bad {A} (vals : list A) r c : (0 <= r * c < 2 ^ 64)%Z -> (Z.of_nat (length vals) < 2 ^ 64)%Z -> (r * c <> Z.of_nat (length vals))%Z -> reshape_col vals r c = Throw.
Proof. intros P L0 E. unfold reshape_col. rewrite decide_False by (intros [-> ->]; lia). unfold size64. rewrite !Z.mod_small by lia. rewrite decide_False by exact E. reflexivity. Qed.

Lemma add_row_lookup cols row j c e : length cols = length row -> cols !! j = Some c -> row !! j = Some e -> add_row cols row !! j = Some (c ++ [e]).
Proof.
  revert row j. induction cols as [|c0 cols IH]; intros [|e0 row] [|j] L0 Hc He; try discriminate; cbn in *; [injection Hc as ->; injection He as ->; reflexivity|]. apply (IH row j); [lia|exact Hc|exact He].
Qed.
Lemma add_row_length cols row : length (add_row cols row) = length cols.
Proof. revert row. induction cols as [|c cols IH]; intros [|e row]; cbn [add_row length]; try reflexivity. f_equal. apply IH. Qed.
Definition column (j : nat) (rows : list (list el)) : list el := omap (fun row => row !! j) rows.
Lemma add_rows_spec n rows : Forall (fun row => length row = n) rows -> forall cols, length cols = n ->
  exists cols', add_rows n rows cols = Ok cols' /\ length cols' = n /\ forall j c, cols !! j = Some c -> cols' !! j = Some (c ++ column j rows).
Proof.
  induction rows as [|row rows IH]; intros F cols Lc; cbn [add_rows].
  - exists cols. split; [reflexivity|]. split; [exact Lc|]. intros j c Hc. cbn. rewrite app_nil_r. exact Hc.
  - inversion F as [|row' rows' F1 F2]; subst. rewrite decide_True by exact F1. destruct (IH F2 (add_row cols row)) as (cols' & E & L' & G); [apply add_row_length|].
    exists cols'. split; [exact E|]. split; [exact L'|]. intros j c Hc. destruct (lookup_lt_is_Some_2 row j) as [e He]; [rewrite F1; eapply lookup_lt_Some; exact Hc|].
    rewrite (G j (c ++ [e])) by (apply add_row_lookup; [congruence|assumption|exact He]). unfold column. cbn [omap list_omap]. rewrite He. rewrite <- app_assoc. reflexivity.
Qed.
Lemma column_lookup n rows j : Forall (fun row => length row = n) rows -> j < n -> length (column j rows) = length rows /\ forall i, column j rows !! i = rows !! i ≫= (fun row => row !! j).
Proof.
  intros F Hj. unfold column. induction F as [|row rows F1 F IH]; [split; [reflexivity|intros i; reflexivity]|]. cbn [omap list_omap]. destruct (lookup_lt_is_Some_2 row j ltac:(lia)) as [e He].
  destruct IH as [IH1 IH2]. rewrite He. split; [cbn [length]; f_equal; exact IH1|]. intros [|i]; [cbn; rewrite He; reflexivity|]. cbn. apply IH2.
Qed.
