(** The value type int64_t: integers modulo 2^64 between -2^63 and 2^63 - 1 (signed overflow is modelled as wrapping around), and the
    arithmetic of exact rational numbers. Used to show that what the theorems assume of the arithmetic is met. *)
From stdpp Require Import base numbers list.
From Coq Require Import Lia Qcanon Eqdep_dec.
From Verif Require Import CppBase CSRModel AggModel AggSpec.

Local Open Scope Z_scope.
Definition M64 : Z := 2 ^ 64.
Definition H64 : Z := 2 ^ 63.
Definition in64 (z : Z) : bool := (- H64 <=? z) && (z <? H64).
Record int64 := mkI64 { ival : Z; iok : in64 ival = true }.
Lemma int64_eq (a b : int64) : ival a = ival b -> a = b.
Proof. destruct a as [a Ha], b as [b Hb]. cbn. intros ->. f_equal. apply UIP_dec, Bool.bool_dec. Qed.
Lemma int64_range (a : int64) : - H64 <= ival a < H64.
Proof. destruct a as [a Ha]. cbn. unfold in64 in Ha. apply andb_true_iff in Ha as [H1%Z.leb_le H2%Z.ltb_lt]. lia. Qed.
Definition wrapz (z : Z) : Z := (z + H64) mod M64 - H64.
Lemma wrapz_range z : in64 (wrapz z) = true.
Proof. unfold wrapz, in64. assert (H := Z.mod_pos_bound (z + H64) M64 eq_refl). apply andb_true_iff. rewrite Z.leb_le, Z.ltb_lt. change M64 with (2 * H64) in *. lia. Qed.
Definition wrap (z : Z) : int64 := mkI64 (wrapz z) (wrapz_range z).
Lemma wrapz_mod z : exists k, wrapz z = z + k * M64.
Proof. unfold wrapz. exists (- ((z + H64) / M64)). rewrite Z.mod_eq by done. lia. Qed.
Lemma wrap_congr x y k : x = y + k * M64 -> wrap x = wrap y.
Proof. intros ->. apply int64_eq. cbn. unfold wrapz. f_equal. replace (y + k * M64 + H64) with (y + H64 + k * M64) by lia. apply Z_mod_plus_full. Qed.
Lemma wrap_id a : wrap (ival a) = a.
Proof. apply int64_eq. cbn. unfold wrapz. pose proof (int64_range a). rewrite Z.mod_small; [lia|]. change M64 with (2 * H64). lia. Qed.
Lemma wrap_val z : exists k, ival (wrap z) = z + k * M64.
Proof. apply wrapz_mod. Qed.

Global Instance Val_int64 : Val int64 := {| vzero := wrap 0; viszero a := bool_decide (ival a = 0) |}.
(** + - * of int64_t; the division of an int64_t by a size_t is done in uint64_t. *)
Definition ar64 : arith int64 := {|
  aone := wrap 1; aadd a b := wrap (ival a + ival b); asub a b := wrap (ival a - ival b); amul a b := wrap (ival a * ival b);
  alt a b := ival a <? ival b; atop := wrap (H64 - 1); abot := wrap (- H64); aofnat k := wrap (Z.of_nat k);
  adiv a k := wrap ((ival a mod M64) / Z.of_nat k); asqrt a := wrap (Z.sqrt (ival a))
|}.
Lemma add64_monoid : comm_monoid (aadd ar64) vzero.
Proof.
  split; cbn; intros.
  - destruct (wrapz_mod (ival b + ival c)) as [k ->], (wrapz_mod (ival a + ival b)) as [l ->]. apply (wrap_congr _ _ (k - l)). lia.
  - f_equal. lia.
  - rewrite <- (wrap_id a) at 2. f_equal.
Qed.
Lemma mul64_monoid : comm_monoid (amul ar64) (aone ar64).
Proof.
  split; cbn; intros.
  - destruct (wrapz_mod (ival b * ival c)) as [k ->], (wrapz_mod (ival a * ival b)) as [l ->]. apply (wrap_congr _ _ (ival a * k - l * ival c)). lia.
  - f_equal. lia.
  - rewrite <- (wrap_id a) at 2. f_equal. change (wrapz 1) with 1. lia.
Qed.
Lemma min64_monoid : comm_monoid (amin ar64) (atop ar64).
Proof.
  split; unfold amin; intros.
  - cbn. repeat (case_match; try done); apply int64_eq; repeat match goal with H : (_ <? _) = true |- _ => apply Z.ltb_lt in H | H : (_ <? _) = false |- _ => apply Z.ltb_ge in H end; lia.
  - cbn. repeat (case_match; try done); apply int64_eq; repeat match goal with H : (_ <? _) = true |- _ => apply Z.ltb_lt in H | H : (_ <? _) = false |- _ => apply Z.ltb_ge in H end; lia.
  - cbn. destruct (Z.ltb_spec (ival a) (wrapz (H64 - 1))) as [Hc|Hc]; [done|]. apply int64_eq. cbn [ival wrap]. pose proof (int64_range a). change (wrapz (H64 - 1)) with (H64 - 1) in *. lia.
Qed.
Lemma max64_monoid : comm_monoid (amax ar64) (abot ar64).
Proof.
  split; unfold amax; intros.
  - cbn. repeat (case_match; try done); apply int64_eq; repeat match goal with H : (_ <? _) = true |- _ => apply Z.ltb_lt in H | H : (_ <? _) = false |- _ => apply Z.ltb_ge in H end; lia.
  - cbn. repeat (case_match; try done); apply int64_eq; repeat match goal with H : (_ <? _) = true |- _ => apply Z.ltb_lt in H | H : (_ <? _) = false |- _ => apply Z.ltb_ge in H end; lia.
  - cbn. destruct (Z.ltb_spec (wrapz (- H64)) (ival a)) as [Hc|Hc]; [done|]. apply int64_eq. cbn [ival wrap]. pose proof (int64_range a). change (wrapz (- H64)) with (- H64) in *. lia.
Qed.
Lemma times64 k a : times ar64 k a = wrap (Z.of_nat k * ival a).
Proof.
  induction k as [|k IH]; [done|]. unfold times, total, reduce in *. cbn [replicate foldr]. rewrite IH. cbn [aadd ar64]. destruct (wrap_val (Z.of_nat k * ival a)) as [j ->].
  apply (wrap_congr _ _ j). lia.
Qed.
(** Everything that is assumed of the arithmetic holds for int64_t. *)
Lemma fits64 o : o <> IDXMIN -> o <> IDXMAX -> fits ar64 o.
Proof.
  intros H1 H2. assert (Hs : forall a, amul ar64 (asub ar64 vzero a) (asub ar64 vzero a) = amul ar64 a a).
  { intros a. cbn. change (wrapz 0) with 0. destruct (wrapz_mod (0 - ival a)) as [k ->]. apply (wrap_congr _ _ (- 2 * ival a * k + k * k * M64)). lia. }
  assert (Ht1 : forall k a, amul ar64 (amul ar64 (aofnat ar64 k) a) a = times ar64 k (amul ar64 a a)).
  { intros k a. rewrite times64. cbn. destruct (wrapz_mod (Z.of_nat k)) as [i ->], (wrapz_mod (ival a * ival a)) as [j ->].
    destruct (wrapz_mod ((Z.of_nat k + i * M64) * ival a)) as [l ->]. apply (wrap_congr _ _ (i * ival a * ival a + l * ival a - Z.of_nat k * j)). lia. }
  assert (Ht2 : forall k a, amul ar64 (amul ar64 a a) (aofnat ar64 k) = times ar64 k (amul ar64 a a)).
  { intros k a. rewrite times64. cbn. destruct (wrapz_mod (Z.of_nat k)) as [i ->], (wrapz_mod (ival a * ival a)) as [j ->].
    apply (wrap_congr _ _ ((ival a * ival a + j * M64) * i)). lia. }
  destruct o; cbn [fits]; try done; auto using add64_monoid, min64_monoid, max64_monoid; (split; [auto using mul64_monoid, add64_monoid|done]).
Qed.
Lemma order64 o : weak_order (better_of ar64 o).
Proof.
  assert (Hx : weak_order (fun v w : int64 => ival v <? ival w)). { split; intros a b; [intros ?%Z.ltb_lt; apply Z.ltb_ge; lia|intros c ?%Z.ltb_lt; destruct (Z.ltb_spec (ival a) (ival c)); [by left|right; apply Z.ltb_lt; lia]]. }
  assert (Hy : weak_order (fun v w : int64 => ival w <? ival v)). { split; intros a b; [intros ?%Z.ltb_lt; apply Z.ltb_ge; lia|intros c ?%Z.ltb_lt; destruct (Z.ltb_spec (ival c) (ival a)); [by left|right; apply Z.ltb_lt; lia]]. }
  by destruct o.
Qed.

(** Exact rational numbers (for the mean and the variance). *)
Local Open Scope Qc_scope.
Global Instance Val_Qc : Val Qc := {| vzero := 0%Qc; viszero a := if Qc_eq_dec a 0 then true else false |}.
Definition Qc_of_nat (k : nat) : Qc := Q2Qc (QArith_base.inject_Z (Z.of_nat k)).
Definition arQ (sq : Qc -> Qc) (lo hi : Qc) : arith Qc := {|
  aone := 1; aadd := Qcplus; asub := Qcminus; amul := Qcmult; alt a b := match Qccompare a b with Lt => true | _ => false end;
  atop := hi; abot := lo; aofnat := Qc_of_nat; adiv a k := Qcdiv a (Qc_of_nat k); asqrt := sq |}.
Lemma Qc_of_nat_S k : Qc_of_nat (S k) = 1 + Qc_of_nat k.
Proof. unfold Qc_of_nat. apply Qc_is_canon. cbn. rewrite !Qreduction.Qred_correct. unfold QArith_base.Qeq. cbn. lia. Qed.
Lemma fitsQ sq lo hi o : In o [SUM; PROD; MEAN; VAR; STDDEV] -> fits (arQ sq lo hi) o.
Proof.
  intros Ho. assert (HM : comm_monoid (aadd (arQ sq lo hi)) vzero). { split; cbn; intros; ring. }
  assert (Ht : forall k (a : Qc), Qc_of_nat k * (a * a) = times (arQ sq lo hi) k (a * a)).
  { intros k a. induction k as [|k IH]; [assert (E : Qc_of_nat 0 = 0) by (by apply Qc_is_canon); rewrite E; change (times (arQ sq lo hi) 0 (a * a)) with 0; ring|]. rewrite Qc_of_nat_S. unfold times, total, reduce in *. cbn [replicate foldr]. rewrite <- IH. cbn [aadd arQ]. ring. }
  destruct Ho as [<-|[<-|[<-|[<-|[<-|[]]]]]]; cbn [fits].
  - done.
  - split; [split; cbn; intros; ring|cbn; ring].
  - done.
  - split; [done|]. split; [intros a; cbn; ring|]. split; intros k a; cbn [amul aofnat arQ]; rewrite <- Ht; ring.
  - split; [done|]. split; [intros a; cbn; ring|]. split; intros k a; cbn [amul aofnat arQ]; rewrite <- Ht; ring.
Qed.
