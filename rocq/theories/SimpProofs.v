(** Proofs about the simplifications of element-wise operations. *)
From Coq Require Import Floats.SpecFloat Strings.String.
From stdpp Require Import base numbers list list_numbers.
From Verif Require Import CppBase SimpSpec SimpModel SimpFloat.
Local Open Scope Z_scope.

(** ** Integers *)

Lemma bits_cases t : bits t = 8 \/ bits t = 32 \/ bits t = 64.
Proof. destruct t; cbn; auto. Qed.
Ltac pows := change (2 ^ (8 - 1)) with 128 in *; change (2 ^ 8) with 256 in *; change (2 ^ (32 - 1)) with 2147483648 in *; change (2 ^ 32) with 4294967296 in *;
  change (2 ^ (64 - 1)) with 9223372036854775808 in *; change (2 ^ 64) with 18446744073709551616 in *; change (2 ^ 63) with 9223372036854775808 in *.
Lemma wrap_mod t z : exists k, wrap t z = z + k * 2 ^ bits t.
Proof.
  unfold wrap. destruct (is_signed t).
  - exists (- ((z + 2 ^ (bits t - 1)) / 2 ^ bits t)). pose proof (Z.div_mod (z + 2 ^ (bits t - 1)) (2 ^ bits t)) as H.
    destruct (bits_cases t) as [E|[E|E]]; rewrite E in *; pows; lia.
  - exists (- (z / 2 ^ bits t)). pose proof (Z.div_mod z (2 ^ bits t)) as H. destruct (bits_cases t) as [E|[E|E]]; rewrite E in *; pows; lia.
Qed.
Lemma wrap_in t z : in_type t (wrap t z).
Proof.
  unfold wrap, in_type. destruct (is_signed t).
  - pose proof (Z.mod_pos_bound (z + 2 ^ (bits t - 1)) (2 ^ bits t)) as H. destruct (bits_cases t) as [E|[E|E]]; rewrite E in *; pows; lia.
  - pose proof (Z.mod_pos_bound z (2 ^ bits t)) as H. destruct (bits_cases t) as [E|[E|E]]; rewrite E in *; pows; lia.
Qed.
Lemma in_type_unique t x y k : in_type t x -> in_type t y -> x = y + k * 2 ^ bits t -> x = y.
Proof. unfold in_type. destruct (is_signed t), (bits_cases t) as [E|[E|E]]; rewrite E; pows; intros; nia. Qed.
Lemma wrap_id t z : in_type t z -> wrap t z = z.
Proof. intros H. destruct (wrap_mod t z) as [k Hk]. eapply (in_type_unique t); [apply wrap_in|exact H|exact Hk]. Qed.
Lemma wrap_eq t x y k : x = y + k * 2 ^ bits t -> wrap t x = wrap t y.
Proof.
  intros ->. destruct (wrap_mod t (y + k * 2 ^ bits t)) as [a Ha], (wrap_mod t y) as [b Hb].
  apply (in_type_unique t _ _ (k + a - b)); [apply wrap_in|apply wrap_in|]. rewrite Ha, Hb. lia.
Qed.

Section Proofs.
  Context (wrapv : bool) (pw : vt -> pay -> pay -> pay) (show : vt -> pay -> string).
  Context (rounding : rnd -> vt -> spec_float -> spec_float) (prod : value -> value -> outcome value) (choose : value -> value -> value -> outcome value).
  Context (leaf : nat -> outcome value).
  Notation eval := (eval wrapv pw show rounding prod choose leaf).
  Notation sca := (sca wrapv pw show).
  Notation ebin := (ebin wrapv pw show).
  Notation iarith := (iarith wrapv).
  Notation arith := (arith wrapv pw).

  Lemma iarith_ok t z p : iarith t z = Ok p -> p = PI (wrap t z).
  Proof. unfold SimpSpec.iarith. case_decide as Hd; [rewrite (wrap_id _ _ Hd)|]; destruct t, wrapv; congruence. Qed.
  Lemma iarith_in t z : in_type t z -> iarith t z = Ok (PI z).
  Proof. intros H. unfold SimpSpec.iarith. by rewrite decide_True. Qed.
  Lemma iarith_wraps t z : wrapv = true \/ (t <> TS32 /\ t <> TS64) -> iarith t z = Ok (PI (wrap t z)).
  Proof. intros H. unfold SimpSpec.iarith. case_decide as Hd; [by rewrite (wrap_id _ _ Hd)|]. destruct t, H as [->|[??]]; done. Qed.

  Lemma generality_inj t u : generality t = generality u -> t = u.
  Proof. destruct t, u; cbn; congruence. Qed.
  Lemma most_comm t u : most t u = most u t.
  Proof.
    unfold most. destruct (decide (generality t < generality u)), (decide (generality u < generality t)); try lia; try done.
    apply generality_inj. lia.
  Qed.

  Lemma sca_comm o t p u q : o = Mul \/ (o = Add /\ is_str t = false /\ is_str u = false) -> sca o t p u q = sca o u q t p.
  Proof.
    intros Ho. unfold SimpSpec.sca. rewrite (orb_comm (is_str u)). destruct (is_str t || is_str u) eqn:E.
    { destruct Ho as [->|(-> & Ht & Hu)]; [done|]. by rewrite Ht, Hu in E. }
    rewrite (most_comm u t).
    destruct (conv (most t u) p), (conv (most t u) q); cbn [SimpSpec.arith]; try done; destruct Ho as [-> |[-> _]]; f_equal; try lia;
      try (by rewrite SFadd_comm); by rewrite SFmul_comm.
  Qed.

  (** ** Maps *)

  Lemma mapo_ext {A B} (f g : A -> outcome B) l : (forall a, a ∈ l -> f a = g a) -> mapo f l = mapo g l.
  Proof.
    induction l as [|a l IH]; intros H; cbn [mapo]; [done|]. rewrite (H a) by apply elem_of_list_here. rewrite IH; [done|].
    intros b Hb. apply H. by apply elem_of_list_further.
  Qed.
  Lemma mapo_refine {A B} (f g : A -> outcome B) l r : (forall a b, a ∈ l -> f a = Ok b -> g a = Ok b) -> mapo f l = Ok r -> mapo g l = Ok r.
  Proof.
    revert r. induction l as [|a l IH]; intros r H Hr; cbn [mapo] in *; [done|].
    destruct (f a) as [b| |] eqn:Ea; try done. cbn [obind] in Hr. destruct (mapo f l) as [k| |] eqn:El; try done. cbn [obind] in Hr.
    rewrite (H a b) by (done || apply elem_of_list_here). cbn [obind]. rewrite (IH k); [done| |done].
    intros x y Hx. apply H. by apply elem_of_list_further.
  Qed.
  Lemma mapo_two {A B C} (f : A -> outcome C) (g : A -> outcome B) (h : B -> outcome C) l r :
    (forall a c, a ∈ l -> f a = Ok c -> exists b, g a = Ok b /\ h b = Ok c) -> mapo f l = Ok r -> exists k, mapo g l = Ok k /\ mapo h k = Ok r.
  Proof.
    revert r. induction l as [|a l IH]; intros r H Hr; cbn [mapo] in *.
    - exists []. split; [done|]. cbn [mapo]. done.
    - destruct (f a) as [c| |] eqn:Ea; try done. cbn [obind] in Hr. destruct (mapo f l) as [k| |] eqn:El; try done. cbn [obind] in Hr.
      destruct (H a c) as (b & Hb & Hc); [apply elem_of_list_here|done|].
      destruct (IH k) as (kb & Hk1 & Hk2); [intros x y Hx; apply H; by apply elem_of_list_further|done|].
      exists (b :: kb). rewrite Hb. cbn [obind]. rewrite Hk1. cbn [obind mapo]. split; [done|]. rewrite Hc. cbn [obind]. rewrite Hk2. cbn [obind]. done.
  Qed.
  Lemma mapo_id {A} (f : A -> outcome A) l r : (forall a b, a ∈ l -> f a = Ok b -> b = a) -> mapo f l = Ok r -> r = l.
  Proof.
    revert r. induction l as [|a l IH]; intros r H Hr; cbn [mapo] in *; [congruence|].
    destruct (f a) as [b| |] eqn:Ea; try done. cbn [obind] in Hr. destruct (mapo f l) as [k| |] eqn:El; try done. cbn [obind] in Hr.
    injection Hr as <-. f_equal; [apply H; [apply elem_of_list_here|done]|apply IH; [|done]]. intros x y Hx. apply H. by apply elem_of_list_further.
  Qed.
  Lemma mapo_comp {A B C} (g : A -> outcome B) (h : B -> outcome C) l k : mapo g l = Ok k -> mapo h k = mapo (fun a => let* b := g a in h b) l.
  Proof.
    revert k. induction l as [|a l IH]; intros k Hk; cbn [mapo] in *; [by injection Hk as <-|].
    destruct (g a) as [b| |] eqn:Ea; try done. cbn [obind] in *. destruct (mapo g l) as [kk| |] eqn:El; try done. cbn [obind] in Hk. injection Hk as <-.
    cbn [mapo]. by rewrite (IH kk).
  Qed.

  (** ** Subtraction *)

  (** When [a - x] is computed correctly as [(x * -1) + a], for a scalar [a] of type [ta] and a cell [x] of type [tx]: see Simp.v *)
  Definition sub_safe (ta : vt) (a : pay) (tx : vt) (x : pay) : Prop :=
    match x with
    | PI z =>
        if is_flt (most ta tx) then tx <> TU64 /\ - 2 ^ 63 < z < 2 ^ 63 /\ (z <> 0 \/ a <> PF (S754_zero true))
        else (most ta tx = TS64 \/ most ta tx = TU64) /\ (wrapv = true \/ tx = TU64 \/ (z <> - 2 ^ 63 /\ z <> 2 ^ 63))
    | _ => True
    end.

  Lemma sub_int ta a tx z : in_type tx z -> is_int tx = true -> is_flt (most ta tx) = false -> is_int ta = true -> sub_safe ta (PI a) tx (PI z) -> forall r,
    sca Sub ta (PI a) tx (PI z) = Ok r -> exists y, sca Mul tx (PI z) TS64 (PI (-1)) = Ok y /\ sca Add (most tx TS64) y ta (PI a) = Ok r.
  Proof.
    intros Hz Hix Hfl Hia Hs r Hr. unfold sub_safe in Hs. rewrite Hfl in Hs. destruct Hs as [HT Hmin].
    assert (HiT : is_int (most ta tx) = true) by (destruct HT as [-> | ->]; done).
    assert (Hst : is_str tx = false /\ is_str ta = false) by (destruct tx, ta; done). destruct Hst as [Hsx Hsa].
    assert (HmT : most (most tx TS64) ta = most ta tx) by (destruct ta, tx; try done; destruct HT; done).
    assert (Hsm : is_str (most tx TS64) = false) by (destruct tx; done).
    unfold SimpSpec.sca in *. rewrite Hsa, Hsx, Hsm in *. cbn [orb is_str] in *. rewrite HmT. cbn [conv] in *. rewrite HiT in *.
    assert (Hiu : is_int (most tx TS64) = true) by (destruct tx; done). rewrite Hiu. cbn [SimpSpec.arith] in *.
    set (T := most ta tx) in *. set (u := most tx TS64) in *.
    assert (Hbu : bits u = 64) by (subst u; destruct tx; done). assert (HbT : bits T = 64) by (destruct HT as [-> | ->]; done).
    assert (Hw1 : wrap u (-1) = if decide (u = TU64) then 2 ^ 64 - 1 else -1) by (subst u; destruct tx; done).
    (* the product is [-z] modulo 2^64 *)
    assert (Hy : exists y k, iarith u (wrap u z * wrap u (-1)) = Ok (PI y) /\ y = - z + k * 2 ^ 64).
    { exists (wrap u (wrap u z * wrap u (-1))). destruct (wrap_mod u (wrap u z * wrap u (-1))) as [k1 Hk1], (wrap_mod u z) as [k2 Hk2].
      destruct (wrap_mod u (-1)) as [k3 Hk3]. rewrite Hbu in *.
      exists (k1 + z * k3 - k2 + k2 * k3 * 2 ^ 64). split; [|rewrite Hk1, Hk2, Hk3; ring].
      destruct (decide (u = TU64)) as [Eu|Eu]; [apply iarith_wraps; right; rewrite Eu; done|].
      assert (Eu' : u = TS64) by (subst u; destruct tx; done).
      destruct Hmin as [Hw|[->|[H1 H2]]]; [by apply iarith_wraps; left|by subst u|].
      assert (Hin : in_type u (wrap u z * wrap u (-1))); [|rewrite (wrap_id u _ Hin); by apply iarith_in].
      rewrite Hw1, Eu' in *. pose proof (wrap_in TS64 z) as Hi. unfold in_type in *. cbn [is_signed bits] in *. pows.
      assert (Hz' : - 9223372036854775808 <= z < 18446744073709551616)
        by (revert Hz; destruct tx; cbn [is_signed bits]; pows; try lia; by cbn in * ).
      lia. }
    destruct Hy as (y & k & Hy & Hyz). exists (PI y). split; [exact Hy|].
    cbn [conv]. rewrite HiT. cbn [SimpSpec.arith]. apply iarith_ok in Hr as Hr'. subst r. rewrite <- Hr. clear Hr.
    destruct (wrap_mod T y) as [k1 Hk1], (wrap_mod T z) as [k2 Hk2]. rewrite HbT in *.
    destruct HT as [HT|HT].
    - (* signed: the same number *)
      assert (Hsm' : wrap T y + wrap T a = wrap T a - wrap T z \/ wrapv = true).
      { destruct Hmin as [Hw|[->|[H1 H2]]]; [by right|by subst T; destruct ta|left].
        enough (wrap T y = - wrap T z) by lia.
        assert (Hz' : wrap T z <> - 2 ^ 63).
        { rewrite HT in *. pows. intros E. assert (Hz' : - 9223372036854775808 <= z < 18446744073709551616)
            by (revert Hz; unfold in_type; destruct tx; cbn [is_signed bits]; pows; try lia; by cbn in *). lia. }
        apply (in_type_unique T _ _ (k + k1 + k2)); [apply wrap_in| |rewrite HbT; lia].
        pose proof (wrap_in T z) as Hi. rewrite HT in *. unfold in_type in *. cbn [is_signed bits] in *. pows. lia. }
      destruct Hsm' as [-> |Hw]; [done|]. rewrite !iarith_wraps by auto. do 2 f_equal. apply (wrap_eq _ _ _ (k + k1 + k2)). rewrite HbT. lia.
    - rewrite !iarith_wraps by (rewrite HT; auto). do 2 f_equal. apply (wrap_eq _ _ _ (k + k1 + k2)). rewrite HbT. lia.
  Qed.

  Lemma conv_same t f : is_flt t = true -> valid_binary (prec t) (emax t) f = true -> conv t (PF f) = PF f.
  Proof. intros Ht Hf. destruct f as [s|s| |s m e]; cbn [conv]; try done. f_equal. by apply normalize_exact. Qed.
  Lemma conv_flt t u p : is_flt t = true -> is_str u = false -> of_type u p -> exists g, conv t p = PF g.
  Proof.
    intros Ht Hu Hp. destruct p as [z|f|s]; cbn [conv].
    - rewrite Ht. destruct (is_int t) eqn:E; [by destruct t|]. by eexists.
    - destruct f; by eexists.
    - cbn in Hp. by subst u.
  Qed.
  Lemma conv_opp t f h : conv t (PF f) = PF h -> conv t (PF (SFopp f)) = PF (SFopp h).
  Proof.
    destruct f as [s|s| |s m e]; cbn [conv SFopp]; intros H; injection H as <-; try done. f_equal.
    replace (cond_Zopp (negb s) (Zpos m)) with (- cond_Zopp s (Zpos m)) by (destruct s; done). apply normalize_opp. by destruct s.
  Qed.
  Lemma most_S64_flt t : is_flt t = true -> most t TS64 = t.
  Proof. by destruct t. Qed.

  Lemma sub_flt ta a tx f : is_flt tx = true -> is_str ta = false -> of_type tx (PF f) -> of_type ta a -> forall r,
    sca Sub ta a tx (PF f) = Ok r -> exists y, sca Mul tx (PF f) TS64 (PI (-1)) = Ok y /\ sca Add (most tx TS64) y ta a = Ok r.
  Proof.
    intros Hx Hsa [_ Hf] Ha r Hr.
    assert (HT : is_flt (most ta tx) = true) by (destruct ta, tx; done).
    assert (Hsx : is_str tx = false) by (destruct tx; done).
    unfold SimpSpec.sca in *. rewrite (most_S64_flt tx Hx). rewrite Hsa, Hsx in *. cbn [orb is_str] in *.
    rewrite conv_same by done. rewrite (most_comm tx ta).
    destruct (conv_flt (most ta tx) ta a) as [g Hg]; [done..|]. destruct (conv_flt (most ta tx) tx (PF f)) as [h Hh]; [done..|].
    rewrite Hg, Hh in Hr. cbn [SimpSpec.arith] in Hr. cbn [conv]. assert (Hi : is_int tx = false) by (destruct tx; done). rewrite Hi, Hx. cbn [SimpSpec.arith].
    eexists. split; [reflexivity|]. rewrite SFmul_minus_one by done. rewrite (conv_opp _ _ h Hh), Hg. cbn [SimpSpec.arith]. rewrite <- Hr. by rewrite SFsub_add.
  Qed.

  Lemma sub_flt_int ta a tx z : is_int tx = true -> is_flt (most ta tx) = true -> in_type tx z -> of_type ta a -> sub_safe ta a tx (PI z) -> forall r,
    sca Sub ta a tx (PI z) = Ok r -> exists y, sca Mul tx (PI z) TS64 (PI (-1)) = Ok y /\ sca Add (most tx TS64) y ta a = Ok r.
  Proof.
    intros Hx HT Hz Ha Hs r Hr. unfold sub_safe in Hs. rewrite HT in Hs. destruct Hs as (HU & Hrange & Hzero).
    assert (HTa : most ta tx = ta) by (destruct ta, tx; done). rewrite HTa in *.
    assert (Hsx : is_str tx = false) by (destruct tx; done). assert (Hsa : is_str ta = false) by (destruct ta; done).
    assert (Hu : most tx TS64 = TS64) by (destruct tx; done).
    unfold SimpSpec.sca in *. rewrite Hu, Hsa, Hsx in *. cbn [orb is_str] in *. rewrite HTa in Hr. replace (most TS64 ta) with ta by (destruct ta; done).
    destruct (conv_flt ta ta a) as [g Hg]; [done..|]. rewrite Hg in Hr. assert (Hi : is_int ta = false) by (destruct ta; done).
    cbn [conv] in *. rewrite Hi, HT in *. cbn [is_int SimpSpec.arith] in *.
    assert (Hp : wrap TS64 z * wrap TS64 (-1) = - z).
    { rewrite !wrap_id; [lia|unfold in_type; cbn [is_signed bits]; pows; lia..]. }
    rewrite Hp. rewrite iarith_in by (unfold in_type; cbn [is_signed bits]; pows; lia).
    exists (PI (- z)). split; [done|]. cbn [conv]. rewrite Hi, HT, Hg. cbn [SimpSpec.arith]. rewrite <- Hr. clear Hr. do 2 f_equal.
    destruct (decide (z = 0)) as [->|Hz0].
    - destruct Hzero as [?|Hzero]; [done|]. change (- 0) with 0. cbn [binary_normalize].
      assert (Hg' : g <> S754_zero true).
      { intros ->. destruct a as [y|f|s]; cbn [conv] in Hg.
        - destruct Ha as [Ha _]. by destruct ta.
        - destruct Ha as [_ Ha]. apply Hzero. f_equal. pose proof (conv_same ta f HT Ha) as E. cbn [conv] in E. congruence.
        - done. }
      destruct g as [[]|sg| |sg mg eg]; done.
    - rewrite SFsub_add. f_equal. by apply normalize_opp.
  Qed.

  Lemma sub_cell ta a tx x : of_type ta a -> of_type tx x -> sub_safe ta a tx x -> forall r,
    sca Sub ta a tx x = Ok r -> exists y, sca Mul tx x TS64 (PI (-1)) = Ok y /\ sca Add (most tx TS64) y ta a = Ok r /\ most (most tx TS64) ta = most ta tx.
  Proof.
    intros Ha Hx Hs r Hr.
    assert (Hstr : is_str ta = false /\ is_str tx = false).
    { unfold SimpSpec.sca in Hr. destruct (is_str ta || is_str tx) eqn:E; [done|]. by apply orb_false_iff. }
    destruct Hstr as [Hsa Hsx].
    assert (Hm : most (most tx TS64) ta = most ta tx).
    { destruct x as [z|f|s].
      - unfold sub_safe in Hs. destruct (is_flt (most ta tx)) eqn:E; [destruct ta, tx; done|]. destruct Hs as [[Hs|Hs] _]; destruct ta, tx; done.
      - destruct Hx as [Hx _]. destruct ta, tx; done.
      - cbn in Hx. by subst tx. }
    destruct x as [z|f|s].
    - destruct Hx as [Hi Hz]. destruct (is_flt (most ta tx)) eqn:HT.
      + destruct (sub_flt_int ta a tx z Hi HT Hz Ha Hs r Hr) as (y & ? & ?). by exists y.
      + destruct a as [y|f|s].
        * destruct Ha as [Hia _]. destruct (sub_int ta y tx z Hz Hi HT Hia Hs r Hr) as (y' & ? & ?). by exists y'.
        * destruct Ha as [Ha _]. destruct ta, tx; done.
        * cbn in Ha. by subst ta.
    - destruct (sub_flt ta a tx f (proj1 Hx) Hsa Hx Ha r Hr) as (y & ? & ?). by exists y.
    - cbn in Hx. by subst tx.
  Qed.

  (** ** Whole values *)

  (** the cells of a value *)
  Definition cells (v : value) : list pay := match v with VS _ p => [p] | VM _ _ _ x => concat x end.
  Definition vt_of (v : value) : vt := match v with VS t _ | VM t _ _ _ => t end.

  Lemma in_concat {A} (x : list (list A)) row p : row ∈ x -> p ∈ row -> p ∈ concat x.
  Proof.
    induction x as [|r x IH]; intros Hr Hp; [by apply elem_of_nil in Hr|]. cbn [concat]. apply elem_of_app. apply elem_of_cons in Hr as [->|Hr]; [by left|].
    right. by apply IH.
  Qed.
  Lemma good_cell v p : good v -> p ∈ cells v -> of_type (vt_of v) p.
  Proof.
    destruct v as [t q|t n m x]; cbn [good cells vt_of]; intros Hg Hp; [apply elem_of_list_singleton in Hp; by subst|].
    destruct Hg as [_ Hg]. induction x as [|row x IH]; cbn [concat] in Hp; [by apply elem_of_nil in Hp|]. apply Forall_cons in Hg as [[_ Hr] Hg].
    apply elem_of_app in Hp as [Hp|Hp]; [|by apply IH]. by apply (proj1 (Forall_forall _ _) Hr).
  Qed.

  (** an empty matrix takes part in a subtraction without a cell being computed; its value type must come out the same *)
  Definition sub_type_safe (ta tx : vt) : Prop := is_str ta = false /\ is_str tx = false /\ most (most tx TS64) ta = most ta tx.

  Lemma sub_value ta a w v : of_type ta a -> good w -> sub_type_safe ta (vt_of w) -> (forall x, x ∈ cells w -> sub_safe ta a (vt_of w) x) ->
    ebin Sub (VS ta a) w = Ok v -> (let* y := ebin Mul w (VS TS64 (PI (-1))) in ebin Add y (VS ta a)) = Ok v.
  Proof.
    intros Ha Hg (Hsa & Hsx & Hm) Hs Hv. pose proof (fun x => good_cell w x Hg) as Hc.
    destruct w as [tx x|tx n m x]; cbn [vt_of cells] in *; cbn [SimpSpec.ebin] in *.
    - destruct (sca Sub ta a tx x) as [r| |] eqn:Er; try done. cbn [obind] in Hv. injection Hv as <-.
      destruct (sub_cell ta a tx x) with (r := r) as (y & Hy1 & Hy2 & _); [done|apply Hc; by apply elem_of_list_singleton|apply Hs; by apply elem_of_list_singleton|done|].
      rewrite Hy1. cbn [obind SimpSpec.ebin]. rewrite Hy2. cbn [obind]. by rewrite Hm.
    - destruct (mixed ta tx) eqn:Emx; [done|]. destruct (mapo _ x) as [r| |] eqn:Er; try done. cbn [obind] in Hv. injection Hv as <-.
      assert (Hm1 : mixed tx TS64 = false) by (unfold mixed; by rewrite Hsx). rewrite Hm1.
      assert (Hm2 : mixed (most tx TS64) ta = false) by (unfold mixed; rewrite Hsa; destruct tx; done).
      destruct (mapo_two (mapo (fun q => sca Sub ta a tx q)) (mapo (fun p => sca Mul tx p TS64 (PI (-1)))) (mapo (fun p => sca Add (most tx TS64) p ta a)) x r)
        as (k & Hk1 & Hk2); [|exact Er|].
      + intros row rr Hrow Hrr. eapply mapo_two; [|exact Hrr]. intros p q Hp Hpq.
        destruct (sub_cell ta a tx p) with (r := q) as (y & Hy1 & Hy2 & _); [done|apply Hc|apply Hs|done|by exists y]; by eapply in_concat.
      + rewrite Hk1. cbn [obind SimpSpec.ebin]. rewrite Hm2, Hk2. cbn [obind]. by rewrite Hm.
  Qed.

  (** a scalar and a value commute *)
  Lemma comm_value o t p w : o = Mul \/ (o = Add /\ is_str t = false /\ is_str (vt_of w) = false) -> ebin o (VS t p) w = ebin o w (VS t p).
  Proof.
    intros Ho. destruct w as [u q|u n m x]; cbn [SimpSpec.ebin vt_of] in *.
    - by rewrite sca_comm, most_comm.
    - replace (mixed u t) with (mixed t u) by (unfold mixed; by destruct (is_str t), (is_str u)). destruct (mixed t u); [done|]. rewrite (most_comm t u).
      replace (mapo (mapo (fun q => sca o t p u q)) x) with (mapo (mapo (fun p0 => sca o u p0 t p)) x); [done|].
      apply mapo_ext. intros row _. apply mapo_ext. intros q _. symmetry. by apply sca_comm.
  Qed.

  (** ** Double negation, roundings *)

  Lemma neg_neg t p q r : of_type t p -> neg wrapv t p = Ok q -> neg wrapv t q = Ok r -> r = p.
  Proof.
    destruct p as [z|f|s]; cbn [neg]; [|intros _ H1 H2; injection H1 as <-; cbn [neg] in H2; injection H2 as <-; by rewrite SFopp_involutive|done].
    intros [_ Hz] H1 H2. apply iarith_ok in H1. subst q. cbn [neg] in H2. apply iarith_ok in H2. subst r. f_equal.
    destruct (wrap_mod t (- z)) as [k Hk]. rewrite <- (wrap_id t z Hz) at 2. apply (wrap_eq t _ _ (- k)). rewrite Hk. lia.
  Qed.
  Lemma emap_neg_neg v w u : good v -> emap (neg wrapv) v = Ok w -> emap (neg wrapv) w = Ok u -> u = v.
  Proof.
    intros Hg. pose proof (fun x => good_cell v x Hg) as Hc. destruct v as [t p|t n m x]; cbn [emap vt_of cells] in *; intros Hw Hu.
    - destruct (neg wrapv t p) as [q| |] eqn:Eq; try done. cbn [obind] in Hw. injection Hw as <-. cbn [emap] in Hu.
      destruct (neg wrapv t q) as [r| |] eqn:Er; try done. cbn [obind] in Hu. injection Hu as <-. f_equal. eapply neg_neg; [|done..]. apply Hc. by apply elem_of_list_singleton.
    - destruct (mapo _ x) as [y| |] eqn:Ey; try done. cbn [obind] in Hw. injection Hw as <-. cbn [emap] in Hu.
      destruct (mapo _ y) as [z| |] eqn:Ez; try done. cbn [obind] in Hu. injection Hu as <-. f_equal.
      rewrite (mapo_comp _ _ _ _ Ey) in Ez. apply mapo_id in Ez; [done|]. intros row row' Hrow Hrr.
      destruct (mapo (neg wrapv t) row) as [r1| |] eqn:E1; try done. cbn [obind] in Hrr. rewrite (mapo_comp _ _ _ _ E1) in Hrr.
      apply mapo_id in Hrr; [done|]. intros p q Hp Hpq. destruct (neg wrapv t p) as [p'| |] eqn:E2; try done. cbn [obind] in Hpq.
      eapply neg_neg; [|done..]. apply Hc. by eapply in_concat.
  Qed.
  Lemma emap_round k v w : good v -> is_int (vt_of v) = true -> emap (round_cell rounding k) v = Ok w -> w = v.
  Proof.
    intros Hg Hi. pose proof (fun x => good_cell v x Hg) as Hc. destruct v as [t p|t n m x]; cbn [emap vt_of cells] in *; intros Hw.
    - destruct p as [z|f|s]; cbn [round_cell obind] in Hw; [congruence| |done]. destruct (Hc (PF f)) as [H _]; [by apply elem_of_list_singleton|]. by destruct t.
    - destruct (mapo _ x) as [y| |] eqn:Ey; try done. cbn [obind] in Hw. injection Hw as <-. f_equal. apply mapo_id in Ey; [done|].
      intros row row' Hrow Hr. apply mapo_id in Hr; [done|]. intros p q Hp Hq. destruct p as [z|f|s]; cbn [round_cell] in Hq; [congruence| |done].
      destruct (Hc (PF f)) as [H _]; [by eapply in_concat|]. by destruct t.
  Qed.

  (** ** Transposition *)

  Lemma trans_row {A} (x : list (list A)) m i j : Forall (fun row => length row = m) x -> (j < m)%nat ->
    omap (fun row => row !! j) x !! i = x !! i ≫= (fun row => row !! j).
  Proof.
    intros Hx Hj. revert i. induction x as [|row x IH]; intros i; [done|]. apply Forall_cons in Hx as [Hr Hx].
    cbn [omap list_omap]. destruct (row !! j) as [a|] eqn:E; [|apply lookup_ge_None in E; lia].
    destruct i as [|i]; cbn [lookup list_lookup]; [by cbn; rewrite E|]. apply (IH Hx).
  Qed.
  Lemma trans_trans {A} n m (x : list (list A)) : length x = n -> Forall (fun row => length row = m) x -> trans n (trans m x) = x.
  Proof.
    intros Hn Hx. apply list_eq. intros i. unfold trans at 1. rewrite list_lookup_fmap. destruct (decide (i < n)%nat) as [Hi|Hi].
    2:{ rewrite lookup_seq_ge by lia. symmetry. apply lookup_ge_None. lia. }
    rewrite lookup_seq_lt by lia. cbn [fmap option_fmap option_map]. destruct (lookup_lt_is_Some_2 x i) as [row Hrow]; [lia|]. rewrite Hrow. f_equal.
    assert (Hlen : length row = m) by (by apply (proj1 (Forall_forall _ _) Hx), elem_of_list_lookup_2 with i).
    assert (Ht : Forall (fun r => length r = n) (trans m x)).
    { apply Forall_forall. intros r Hr. unfold trans in Hr. apply elem_of_list_fmap in Hr as (j & -> & Hj). apply elem_of_seq in Hj.
      revert Hx Hn Hj. clear. revert n. induction x as [|row x IH]; intros n Hx Hn Hj; [done|]. apply Forall_cons in Hx as [Hr Hx]. cbn [omap list_omap].
      destruct (row !! j) as [a|] eqn:E; [|apply lookup_ge_None in E; lia]. destruct n as [|n]; [done|]. cbn [length] in *. f_equal. apply IH; [done|lia|done]. }
    apply list_eq. intros j. rewrite (trans_row _ n) by done. unfold trans. rewrite list_lookup_fmap. destruct (decide (j < m)%nat) as [Hj|Hj].
    - rewrite lookup_seq_lt by lia. cbn [fmap option_fmap option_map mbind option_bind]. rewrite (trans_row _ m) by done. rewrite !Nat.add_0_l, Hrow. done.
    - rewrite lookup_seq_ge by lia. cbn. symmetry. apply lookup_ge_None. lia.
  Qed.
  Lemma etrans_etrans v w : good v -> etrans v = Ok w -> etrans w = Ok v.
  Proof.
    destruct v as [t p|t n m x]; cbn [etrans good]; [done|]. intros [Hn Hx] H. injection H as <-. cbn [etrans]. do 2 f_equal. apply trans_trans; [done|].
    eapply Forall_impl; [exact Hx|]. intros row [H _]. exact H.
  Qed.

  (** ** Strings *)

  Lemma str_pay v p : good v -> vt_of v = TStr -> p ∈ cells v -> exists s, p = PS s.
  Proof. intros Hg Ht Hp. pose proof (good_cell v p Hg Hp) as H. rewrite Ht in H. destruct p; [by destruct H|by destruct H|by eexists]. Qed.
  Lemma zipo_refine {A B C} (f g : A -> B -> outcome C) l k r : (forall a b c, a ∈ l -> b ∈ k -> f a b = Ok c -> g a b = Ok c) -> zipo f l k = Ok r -> zipo g l k = Ok r.
  Proof.
    revert k r. induction l as [|a l IH]; intros [|b k] r H Hr; cbn [zipo] in *; try done.
    destruct (f a b) as [c| |] eqn:Ea; try done. cbn [obind] in Hr. destruct (zipo f l k) as [q| |] eqn:El; try done. cbn [obind] in Hr.
    rewrite (H a b c) by (done || apply elem_of_list_here). cbn [obind]. rewrite (IH k q); [done| |done].
    intros x y z Hx Hy. apply H; by apply elem_of_list_further.
  Qed.
  Lemma ewmm_refine {A} (f g : A -> A -> outcome A) n m x n' m' y r :
    (forall a b c, a ∈ concat x -> b ∈ concat y -> f a b = Ok c -> g a b = Ok c) -> ewmm f n m x n' m' y = Ok r -> ewmm g n m x n' m' y = Ok r.
  Proof.
    intros H. unfold ewmm. case_decide as Hd1; [|case_decide as Hd2; [|case_decide as Hd3; [|done]]].
    - apply zipo_refine. intros row row' k Hr Hr'. apply zipo_refine. intros a b c Ha Hb. apply H; by eapply in_concat.
    - apply mapo_refine. intros row k Hr. apply zipo_refine. intros a b c Ha Hb. apply H; [by eapply in_concat|].
      destruct y as [|row' y]; cbn in Hb; [by apply elem_of_nil in Hb|]. cbn [concat]. apply elem_of_app. by left.
    - apply zipo_refine. intros row [|b row'] k Hr Hr'; [done|]. apply mapo_refine. intros a c Ha. apply H; [by eapply in_concat|].
      eapply in_concat; [exact Hr'|]. apply elem_of_list_here.
  Qed.
  (** on strings, [+] is concatenation *)
  Lemma add_concat v w r : good v -> good w -> vt_of v = TStr -> vt_of w = TStr -> (forall t p u n m x, v = VS t p -> w = VM u n m x -> False) ->
    ebin Add v w = Ok r -> econcat v w = Ok r.
  Proof.
    intros Hv Hw Ev Ew Hno. pose proof (fun p => str_pay v p Hv Ev) as Cv. pose proof (fun p => str_pay w p Hw Ew) as Cw.
    destruct v as [t p|t n m x], w as [u q|u n' m' y]; cbn [vt_of cells] in *; subst t u; cbn [SimpSpec.ebin econcat mixed is_str Bool.eqb negb].
    - destruct (Cv p) as [s ->]; [by apply elem_of_list_singleton|]. destruct (Cw q) as [s' ->]; [by apply elem_of_list_singleton|]. done.
    - by destruct (Hno TStr p TStr n' m' y).
    - destruct (Cw q) as [s' ->]; [by apply elem_of_list_singleton|]. intros H. destruct (mapo _ x) as [k| |] eqn:E in H; try done. cbn [obind] in H. injection H as <-.
      erewrite mapo_refine; [|intros row k' Hrow; apply mapo_refine; intros a b Ha; exact id|]; cycle 1.
      { eapply mapo_refine; [|exact E]. intros row k' Hrow. apply mapo_refine. intros a b Ha.
        destruct (Cv a) as [s ->]; [by eapply in_concat|]. intros Hb. exact Hb. }
      done.
    - intros H. destruct (ewmm _ _ _ _ _ _ _) as [k| |] eqn:E in H; try done. cbn [obind] in H. injection H as <-.
      erewrite ewmm_refine; [|intros a b c _ _; exact id|]; cycle 1.
      { eapply ewmm_refine; [|exact E]. intros a b c Ha Hb. destruct (Cv a) as [s ->]; [done|]. destruct (Cw b) as [s' ->]; [done|]. intros Hc. exact Hc. }
      done.
  Qed.
End Proofs.
