(** C59: proofs about single operations. *)
From stdpp Require Import base numbers list gmap.
From Verif Require Import CppBase ShapeModel ShapeSpec.

(** What inference knows of an operand is true of its value. *)
Definition fits (i : ty * option Z) (v : val) : Prop :=
  has i.1 v ∧ ∀ z, i.2 = Some z → v = VSca z.

Lemma from_args_le cur unk ds n :
  Forall (λ d, dim_ok d n) ds → dim_ok cur n →
  ∃ d, from_args cur unk ds = Ok d ∧ dim_ok d n.
Proof.
  intros Hd. revert cur unk. induction Hd as [|d ds Hd _ IH]; intros cur unk Hc; cbn [from_args].
  - exists (if unk then (-1)%Z else cur). split; [done|]. destruct unk; [by left|done].
  - destruct (decide (d = -1)%Z); [by apply IH|].
    destruct (decide (cur = -1)%Z); [by apply IH|].
    destruct (decide (d = cur)); [by apply IH|].
    destruct Hd, Hc; congruence.
Qed.

Lemma all_args_ok ds n :
  ds ≠ [] → Forall (λ d, dim_ok d n) ds → ∃ d, all_args ds = Ok d ∧ dim_ok d n.
Proof.
  intros Hne Hd. destruct ds as [|d ds]; [done|]. inversion Hd; subst.
  cbn [all_args]. by apply from_args_le.
Qed.

Lemma sum_args_ok acc a ds ns :
  acc = Z.of_nat a → Forall2 dim_ok ds ns → dim_ok (sum_args acc ds) (a + foldr Nat.add 0 ns).
Proof.
  intros Ha Hd. revert acc a Ha. induction Hd as [|d n ds ns Hd _ IH]; intros acc a ->;
    cbn [sum_args foldr].
  - right. lia.
  - destruct (decide (d = -1)%Z) as [|Hn]; [by left|].
    destruct Hd as [->| ->]; [done|].
    rewrite Nat.add_assoc.
    apply IH. lia.
Qed.

Lemma slice_dim_ok d n lo up l u m :
  dim_ok d n → (∀ z, l = Some z → z = lo) → (∀ z, u = Some z → z = up) →
  slice n lo up m → ∃ x, slice_dim d l u = Ok x ∧ dim_ok x m.
Proof.
  intros Hd Hl Hu [Hb Hm]. unfold slice_dim.
  destruct l as [l|]; [|exists (-1)%Z; split; [done|by left]].
  destruct u as [u|]; [|exists (-1)%Z; split; [done|by left]].
  rewrite (Hl l eq_refl), (Hu u eq_refl).
  destruct (decide (d = -1)%Z) as [|Hn]; [exists (-1)%Z; split; [done|by left]|].
  destruct Hd as [->| ->]; [done|].
  cbn zeta in *.
  destruct (decide (lo < 0)%Z), (decide (up <= 0)%Z), (decide (up < 0)%Z);
    repeat (rewrite decide_False by lia); eexists; (split; [done|]); right; lia.
Qed.

Lemma dim_unknown n : dim_ok (-1) n.
Proof. by left. Qed.
Global Hint Resolve dim_unknown : core.

Lemma const_or_ok i z n : fits i (VSca z) → eqz z n → dim_ok (const_or (-1) i) n.
Proof.
  intros [_ H] ->. unfold const_or. destruct (i.2) as [z'|]; [|done].
  specialize (H z' eq_refl). injection H as <-. by right.
Qed.

Lemma fits_mat i r c : fits i (VMat r c) → ∃ a b, i = (TMat a b, None) ∧ dim_ok a r ∧ dim_ok b c.
Proof.
  destruct i as [t o]. intros [H1 H2]. destruct t; cbn in *; try done.
  destruct o as [z|]; [by specialize (H2 z eq_refl)|]. naive_solver.
Qed.
Lemma fits_frm i r c : fits i (VFrm r c) → ∃ a b, i = (TFrm a b, None) ∧ dim_ok a r ∧ dim_ok b c.
Proof.
  destruct i as [t o]. intros [H1 H2]. destruct t; cbn in *; try done.
  destruct o as [z|]; [by specialize (H2 z eq_refl)|]. naive_solver.
Qed.
Lemma fits_sca i z : fits i (VSca z) → ∃ o, i = (TSca, o) ∧ (o = None ∨ o = Some z).
Proof.
  destruct i as [t o]. intros [H1 H2]. destruct t; cbn in *; try done.
  exists o. split; [done|]. destruct o as [z'|]; [|by left].
  specialize (H2 z' eq_refl). injection H2 as ->. by right.
Qed.
Lemma fits_any i v : fits i v → kind_of i.1 = match v with VMat _ _ => KMat | VFrm _ _ => KFrm | VSca _ => KSca end
  ∧ dim_ok (shape i.1).1 (dims v).1 ∧ dim_ok (shape i.1).2 (dims v).2.
Proof.
  intros Hf. destruct v.
  - apply fits_mat in Hf as (?&?&->&?&?). done.
  - apply fits_frm in Hf as (?&?&->&?&?). done.
  - apply fits_sca in Hf as (?&->&?). cbn. split; [done|]. split; by right.
Qed.

Ltac inv_fits :=
  repeat match goal with
  | H : Forall2 fits _ (_ :: _) |- _ => apply Forall2_cons_inv_r in H as (?&?&?&?&->)
  | H : Forall2 fits _ [] |- _ => apply Forall2_nil_inv_r in H as ->
  end.
Ltac inv_vals :=
  repeat match goal with
  | H : fits _ (VMat _ _) |- _ => apply fits_mat in H as (?&?&->&?&?)
  | H : fits _ (VFrm _ _) |- _ => apply fits_frm in H as (?&?&->&?&?)
  | H : fits _ (VSca _) |- _ => apply fits_sca in H as (?&->&?)
  end.

Ltac inv_ex := repeat match goal with H : ∃ _, _ |- _ => destruct H end.
Ltac inv_data :=
  repeat match goal with
  | H : is_data ?v |- _ => is_var v; destruct v; try (by destruct H); clear H
  end.

Lemma Forall2_fits_rows is r c :
  ∀ vs, Forall2 fits is vs → Forall (λ v, v = VMat r c) vs →
  Forall (λ d, dim_ok d r) (map (λ a : ty * option Z, (shape a.1).1) is) ∧
  Forall2 dim_ok (map (λ a : ty * option Z, (shape a.1).2) is) (replicate (length vs) c).
Proof.
  intros vs Hf. induction Hf as [|i v is vs Hi _ IH]; intros Hv; [split; constructor|].
  apply Forall_cons in Hv as [-> Hv]. destruct (IH Hv). inv_vals.
  cbn. split; constructor; done.
Qed.
Lemma foldr_ones n : foldr Nat.add 0 (replicate n 1) = n.
Proof. induction n; cbn; congruence. Qed.

Lemma dim_ok_eq d n m : dim_ok d n → n = m → dim_ok d m.
Proof. by intros ? <-. Qed.

Ltac fin := first [assumption | apply dim_unknown | by right | (right; cbn in *; lia)].
Ltac solve_has :=
  repeat match goal with
  | |- Forall2 has _ _ => constructor
  | |- has _ _ => unfold has; cbn
  | |- _ ∧ _ => split
  | |- True => exact I
  | |- dim_ok (const_or (-1) _) _ => eapply const_or_ok; [split; [exact I|cbn; intros ? [=]; subst; naive_solver]|done]
  end; try fin.

Lemma args_kind2 a o b q :
  args_kind [(a, o); (b, q)] =
  match kind_of a, kind_of b with
  | KFrm, _ | _, KFrm => KFrm
  | KMat, _ | _, KMat => KMat
  | _, _ => KSca
  end.
Proof. by destruct a, b. Qed.

Notation sound k is ws :=
  (∃ ts, result_types k is = Ok ts ∧ (fine k is → Forall2 has ts ws)).

Lemma seq_sound oa ob oi a b i r :
  oa = None ∨ oa = Some a → ob = None ∨ ob = Some b → oi = None ∨ oi = Some i →
  seq_rows a b i r → sound Seq [(TSca, oa); (TSca, ob); (TSca, oi)] [VMat r 1].
Proof.
  intros Ha Hb Hi [Hz Hr].
  assert (oa = None ∨ ob = None ∨ oi = None ∨ (oa = Some a ∧ ob = Some b ∧ oi = Some i))
    as Hc by naive_solver.
  destruct Hc as [->|[->|[->|(->&->&->)]]].
  - eexists. split; [reflexivity|]. intros _. by solve_has.
  - destruct oa; (eexists; split; [reflexivity|]; intros _; by solve_has).
  - destruct oa, ob; (eexists; split; [reflexivity|]; intros _; by solve_has).
  - unfold result_types. cbn -[decide Z.div Z.abs]. rewrite decide_False by (inversion_clear 1; done).
    rewrite decide_False by done. cbn -[decide Z.div Z.abs]. rewrite decide_True by done.
    eexists. split; [reflexivity|]. intros [H1 H2].
    rewrite decide_False in Hr by lia. solve_has.
Qed.

Lemma create_frame_sound is vs r :
  Forall2 fits is vs → vs ≠ [] → Forall (λ v, v = VMat r 1) vs →
  sound CreateFrame is [VFrm r (length vs)].
Proof.
  intros Hf Hne Hv. destruct (Forall2_fits_rows is r 1 vs Hf Hv) as [H1 H2].
  assert (map (λ a : ty * option Z, (shape a.1).1) is ≠ []) as Hne'.
  { destruct is; [|done]. by apply Forall2_nil_inv_l in Hf. }
  destruct (all_args_ok _ r Hne' H1) as (d&Hd&Hd').
  apply (sum_args_ok 0 0) in H2; [|done]. rewrite foldr_ones in H2.
  unfold result_types. cbn [kinds]. rewrite decide_False by (rewrite Forall_singleton; done).
  cbn [infer]. rewrite Hd. cbn [obind length]. rewrite decide_True by done.
  eexists. split; [reflexivity|]. intros _. solve_has.
Qed.

Lemma slice_row_sound t v lo up l u m :
  kind_of t ≠ KSca → has t v → is_data v →
  l = None ∨ l = Some lo → u = None ∨ u = Some up → slice (dims v).1 lo up m →
  sound SliceRow [(t, None); (TSca, l); (TSca, u)] [reshaped v m (dims v).2].
Proof.
  intros Hk Hv Hd Hl Hu Hs.
  assert (dim_ok (shape t).1 (dims v).1 ∧ dim_ok (shape t).2 (dims v).2) as [H1 H2]
    by (destruct t, v; naive_solver).
  destruct (slice_dim_ok (shape t).1 (dims v).1 lo up l u m) as (x&Hx&Hx');
    [done|naive_solver|naive_solver|done|].
  unfold result_types. cbn [kinds first_kind fst]. rewrite decide_False by (rewrite Forall_singleton; done).
  exists [mk (kind_of t) (x, (shape t).2)].
  split; [destruct t; try done; cbn [infer fst snd]; by rewrite Hx|].
  intros _. constructor; [|done]. destruct t, v; try done.
Qed.
Lemma slice_col_sound t v lo up l u m :
  kind_of t ≠ KSca → has t v → is_data v →
  l = None ∨ l = Some lo → u = None ∨ u = Some up → slice (dims v).2 lo up m →
  sound SliceCol [(t, None); (TSca, l); (TSca, u)] [reshaped v (dims v).1 m].
Proof.
  intros Hk Hv Hd Hl Hu Hs.
  assert (dim_ok (shape t).1 (dims v).1 ∧ dim_ok (shape t).2 (dims v).2) as [H1 H2]
    by (destruct t, v; naive_solver).
  destruct (slice_dim_ok (shape t).2 (dims v).2 lo up l u m) as (x&Hx&Hx');
    [done|naive_solver|naive_solver|done|].
  unfold result_types. cbn [kinds first_kind fst]. rewrite decide_False by (rewrite Forall_singleton; done).
  exists [mk (kind_of t) ((shape t).1, x)].
  split; [destruct t; try done; cbn [infer fst snd]; by rewrite Hx|].
  intros _. constructor; [|done]. destruct t, v; try done.
Qed.

Lemma bind_dims d1 d2 n m1 m2 e1 e2 :
  dim_ok d1 n → dim_ok d2 n → dim_ok e1 m1 → dim_ok e2 m2 →
  ∃ x, all_args [d1; d2] = Ok x ∧ dim_ok x n ∧ dim_ok (sum_args 0 [e1; e2]) (m1 + m2).
Proof.
  intros H1 H2 H3 H4. destruct (all_args_ok [d1; d2] n) as (x&Hx&Hx'); [done|by repeat apply Forall_cons_2|].
  exists x. split_and!; [done..|].
  eapply dim_ok_eq; [apply (sum_args_ok 0 0 _ [m1; m2])|]; [done|by repeat apply Forall2_cons_2|cbn; lia].
Qed.

Lemma col_bind_sound f r c1 c2 t1 t2 :
  has t1 (reshaped f r c1) → has t2 (reshaped f r c2) → is_data f →
  sound ColBind [(t1, None); (t2, None)] [reshaped f r (c1 + c2)].
Proof.
  intros H1 H2 Hf.
  assert (kind_of t1 = kind_of t2 ∧ kind_of t1 ≠ KSca) as [Hk Hk'] by (destruct f, t1, t2; done).
  destruct (bind_dims (shape t1).1 (shape t2).1 r c1 c2 (shape t1).2 (shape t2).2) as (x&Hx&Hx1&Hx2);
    [destruct f, t1, t2; naive_solver..|].
  unfold result_types. cbn [kinds]. rewrite args_kind2.
  rewrite decide_False by (rewrite Forall_singleton; destruct t1, t2; done).
  cbn [infer apply_all traits apply map fst snd]. rewrite Hx. cbn [obind length].
  rewrite decide_True by done. cbn [zip_with fst snd].
  eexists. split; [reflexivity|]. intros _. constructor; [|done].
  destruct f, t1, t2; done.
Qed.
Lemma row_bind_sound f c r1 r2 t1 t2 :
  has t1 (reshaped f r1 c) → has t2 (reshaped f r2 c) → is_data f →
  sound RowBind [(t1, None); (t2, None)] [reshaped f (r1 + r2) c].
Proof.
  intros H1 H2 Hf.
  assert (kind_of t1 = kind_of t2 ∧ kind_of t1 ≠ KSca) as [Hk Hk'] by (destruct f, t1, t2; done).
  destruct (bind_dims (shape t1).2 (shape t2).2 c r1 r2 (shape t1).1 (shape t2).1) as (x&Hx&Hx1&Hx2);
    [destruct f, t1, t2; naive_solver..|].
  unfold result_types. cbn [kinds]. rewrite args_kind2.
  rewrite decide_False by (rewrite Forall_singleton; destruct t1, t2; done).
  cbn [infer apply_all traits apply map fst snd]. rewrite Hx. cbn [obind length].
  rewrite decide_True by done. cbn [zip_with fst snd].
  eexists. split; [reflexivity|]. intros _. constructor; [|done].
  destruct f, t1, t2; done.
Qed.

Lemma ctable_sound a b w onr onc nr nc r c :
  onr = None ∨ onr = Some nr → onc = None ∨ onc = Some nc →
  (nr < 0 ∨ eqz nr r)%Z → (nc < 0 ∨ eqz nc c)%Z →
  sound CTable [a; b; w; (TSca, onr); (TSca, onc)] [VMat r c].
Proof.
  intros Hr Hc H1 H2. eexists. split; [reflexivity|]. intros [F1 F2].
  constructor; [|done]. cbn. split; unfold const_or; cbn [snd].
  - destruct Hr as [->| ->]; [done|]. specialize (F1 _ eq_refl).
    destruct H1 as [H1|H1]; [left; lia|by right].
  - destruct Hc as [->| ->]; [done|]. specialize (F2 _ eq_refl).
    destruct H2 as [H2|H2]; [left; lia|by right].
Qed.

Lemma cartesian_sound a1 b1 a2 b2 r1 c1 r2 c2 :
  dim_ok a1 r1 → dim_ok b1 c1 → dim_ok a2 r2 → dim_ok b2 c2 →
  sound Cartesian [(TFrm a1 b1, None); (TFrm a2 b2, None)] [VFrm (r1 * r2) (c1 + c2)].
Proof.
  intros H1 H2 H3 H4.
  assert (dim_ok (sum_args 0 [b1; b2]) (c1 + c2)) as Hs.
  { destruct (bind_dims 0 0 0 c1 c2 b1 b2) as (?&_&_&?); [by right..| | |]; done. }
  eexists. split; [reflexivity|]. intros [F1 F2]. constructor; [|done].
  split; [|done]. destruct H1 as [->| ->], H3 as [->| ->]; try done. right. cbn. lia.
Qed.

Lemma const_given (o : option Z) z : o = None ∨ o = Some z → (∃ z', o = Some z') → o = Some z.
Proof. naive_solver. Qed.

Lemma conv_sound a b d e r f os1 os2 os3 os4 os5 os6 os7 os8 h w fh fw sh sw ph pw p q z1 z2 :
  dim_ok a r → dim_ok d f →
  os1 = None ∨ os1 = Some h → os2 = None ∨ os2 = Some w → os3 = None ∨ os3 = Some fh →
  os4 = None ∨ os4 = Some fw → os5 = None ∨ os5 = Some sh → os6 = None ∨ os6 = Some sw →
  os7 = None ∨ os7 = Some ph → os8 = None ∨ os8 = Some pw →
  out_extent h fh ph sh p → out_extent w fw pw sw q →
  sound Conv [(TMat a b, None); (TMat d e, None); (TSca, os1); (TSca, os2); (TSca, os3);
    (TSca, os4); (TSca, os5); (TSca, os6); (TSca, os7); (TSca, os8)]
    [VMat r (f * p * q); VSca z1; VSca z2].
Proof.
  intros Ha Hd H1 H2 H3 H4 H5 H6 H7 H8 [Hp0 Hp] [Hq0 Hq].
  unfold result_types. cbn [kinds]. rewrite decide_False by (inversion_clear 1; done).
  cbn [infer]. rewrite decide_False.
  2:{ unfold const_or. cbn. destruct H5 as [->| ->], H6 as [->| ->]; lia. }
  cbn [obind length]. rewrite decide_True by done. cbn [zip_with mk fst snd shape].
  eexists. split; [reflexivity|]. intros Hfine.
  constructor; [|by repeat constructor].
  split; [done|]. cbn [fst]. destruct (decide (d = -1)%Z); [done|].
  cbn in Hfine. destruct Hfine as [Hfine|Hfine]; [done|].
  rewrite !Forall_cons in Hfine. destruct Hfine as (E1&E2&E3&E4&E5&E6&E7&E8&_).
  cbn [snd] in *. apply (const_given _ _ H1) in E1. apply (const_given _ _ H2) in E2. apply (const_given _ _ H3) in E3. apply (const_given _ _ H4) in E4. apply (const_given _ _ H5) in E5. apply (const_given _ _ H6) in E6. apply (const_given _ _ H7) in E7. apply (const_given _ _ H8) in E8.
  subst.
  unfold const_or, extent. cbn [snd]. rewrite !Z.mod_small by lia. rewrite <-Hp, <-Hq.
  destruct Hd as [->| ->]; [done|]. right. lia.
Qed.

Lemma pool_sound a b r oc os1 os2 os3 os4 os5 os6 os7 os8 k h w fh fw sh sw ph pw p q z1 z2 :
  dim_ok a r → oc = None ∨ oc = Some (Z.of_nat k) →
  os1 = None ∨ os1 = Some h → os2 = None ∨ os2 = Some w → os3 = None ∨ os3 = Some fh →
  os4 = None ∨ os4 = Some fw → os5 = None ∨ os5 = Some sh → os6 = None ∨ os6 = Some sw →
  os7 = None ∨ os7 = Some ph → os8 = None ∨ os8 = Some pw →
  out_extent h fh ph sw p → out_extent w fw pw sh q →
  sound Pool [(TMat a b, None); (TSca, oc); (TSca, os1); (TSca, os2); (TSca, os3);
    (TSca, os4); (TSca, os5); (TSca, os6); (TSca, os7); (TSca, os8)]
    [VMat r (k * p * q); VSca z1; VSca z2].
Proof.
  intros Ha Hc H1 H2 H3 H4 H5 H6 H7 H8 [Hp0 Hp] [Hq0 Hq].
  unfold result_types. cbn [kinds]. rewrite decide_False by (inversion_clear 1; done).
  cbn [infer]. rewrite decide_False.
  2:{ unfold const_or. cbn. destruct H5 as [->| ->], H6 as [->| ->]; lia. }
  cbn [obind length]. rewrite decide_True by done. cbn [zip_with mk fst snd shape].
  eexists. split; [reflexivity|]. intros [Hfine Heq].
  constructor; [|by repeat constructor].
  split; [done|]. cbn [fst].
  rewrite !Forall_cons in Hfine. destruct Hfine as (E0&E1&E2&E3&E4&E5&E6&E7&E8&_).
  cbn [snd] in *. apply (const_given _ _ H1) in E1. apply (const_given _ _ H2) in E2. apply (const_given _ _ H3) in E3. apply (const_given _ _ H4) in E4. apply (const_given _ _ H5) in E5. apply (const_given _ _ H6) in E6. apply (const_given _ _ H7) in E7. apply (const_given _ _ H8) in E8.
  apply (const_given _ _ Hc) in E0. subst.
  injection Heq as ->.
  unfold const_or, extent. cbn [snd]. rewrite !Z.mod_small by lia. rewrite <-Hp, <-Hq. right. lia.
Qed.

Lemma op_sound k is vs ws :
  Forall2 fits is vs → kern k vs ws →
  ∃ ts, result_types k is = Ok ts ∧ (fine k is → Forall2 has ts ws).
Proof.
  intros Hf Hk.
  destruct k; cbn [kern] in Hk; repeat (case_match; try done); subst;
    destruct_and?; subst; inv_fits; inv_vals; inv_data; inv_vals; try injection Hk as -> ->;
    cbn [dims reshaped fst snd is_data] in *;
    destruct_and?; simplify_eq;
    try (eexists; split; [reflexivity|]; intros Hfine; cbn in *; by solve_has).
  all: match goal with
  | |- context [result_types CreateFrame] => idtac
  | |- context [result_types Conv] => idtac
  | |- context [result_types Pool] => idtac
  | |- context [result_types SliceRow] => idtac
  | |- context [result_types SliceCol] => idtac
  | |- context [result_types Cond] =>
      eexists; (split; [reflexivity|]); intros _;
      constructor; [|constructor]; cbn; unfold common_dim; repeat case_decide; subst; by solve_has
  | |- context [result_types (Cast _)] =>
      match goal with H : fits _ ?v, E : (_, _) = dims ?v |- _ =>
        apply fits_any in H as (_&?&?); rewrite <-E in * end;
      eexists; (split; [reflexivity|]); intros _; by solve_has
  | |- context [result_types FilterRow] =>
      destruct_and?; inv_ex; destruct_and?; subst; eexists; (split; [reflexivity|]); intros _; by solve_has
  | |- context [result_types FilterCol] =>
      destruct_and?; inv_ex; destruct_and?; subst; eexists; (split; [reflexivity|]); intros _; by solve_has
  | |- context [result_types BitmapToPos] =>
      eexists; (split; [reflexivity|]); cbn; intros ->; by solve_has
  | |- context [result_types Order] =>
      destruct_or?; subst; (eexists; (split; [reflexivity|]); intros _; cbn);
      repeat case_decide; try done; by solve_has
  | |- context [result_types MatMul] =>
      destruct_or?; subst; (eexists; (split; [reflexivity|]); intros _; cbn);
      repeat case_decide; try done; by solve_has
  | |- _ => idtac
  end.
  all: match goal with
  | |- context [result_types EwBinary] =>
      unfold result_types; cbn [kinds]; rewrite args_kind2; cbn [kind_of];
      (rewrite decide_False by (rewrite Forall_singleton; done));
      cbn [infer apply_all traits apply arg_shape lookup list_lookup fst snd shape obind];
      repeat (case_decide; cbn [obind fst snd length zip_with mk]; simplify_eq; try done);
      destruct_and?; simplify_eq;
      (eexists; (split; [reflexivity|]); intros Hfine; try (by destruct Hfine); by solve_has)
  | |- _ => idtac
  end.
  - by eapply seq_sound.
  - by apply create_frame_sound.
  - inv_ex; destruct_and?; subst. by eapply (slice_row_sound (TMat _ _) (VMat _ _)).
  - inv_ex; destruct_and?; subst. by eapply (slice_row_sound (TFrm _ _) (VFrm _ _)).
  - inv_ex; destruct_and?; subst. by eapply (slice_col_sound (TMat _ _) (VMat _ _)).
  - inv_ex; destruct_and?; subst. by eapply (slice_col_sound (TFrm _ _) (VFrm _ _)).
  - by apply (col_bind_sound (VMat 0 0)).
  - by apply (col_bind_sound (VFrm 0 0)).
  - by apply (row_bind_sound (VMat 0 0)).
  - by apply (row_bind_sound (VFrm 0 0)).
  - by eapply ctable_sound.
  - by apply cartesian_sound.
  - inv_ex. destruct_and?. subst. by eapply conv_sound.
  - inv_ex. unfold eqz in *. destruct_and?. subst. by eapply pool_sound.
Qed.
