(** C80: expressions over mixed value types. *)
From stdpp Require Import base numbers sorting list sets.
From Coq Require Import Lia.
From Verif Require Import CppBase PromoteModel PromoteSpec PromoteProofs.
Open Scope Z_scope.

(** ** Inference *)

(** The most general value type is the highest-ranking one; it depends neither
    on the order nor on the number of arguments of the same type. *)
Theorem C80_most_general ts : ts <> [] -> exists r, most_general ts = Ok r /\ highest ts r.
Proof. intros H. destruct (most_general_total ts H) as [r Hr]. exists r. split; [done|]. by apply most_general_highest. Qed.

Theorem C80_order_of_arguments ts us : (forall t, t ∈ ts <-> t ∈ us) -> most_general ts = most_general us.
Proof.
  intros H. destruct ts as [|t ts].
  - destruct us as [|u us]; [done|]. assert (u ∈ ([] : list vt)) as []%elem_of_nil by (apply H, elem_of_cons; by left).
  - destruct us as [|u us]; [assert (t ∈ ([] : list vt)) as []%elem_of_nil by (apply H, elem_of_cons; by left)|].
    destruct (C80_most_general (t :: ts)) as (r & -> & [H1 H2]); [done|].
    destruct (C80_most_general (u :: us)) as (r' & -> & Hr'); [done|].
    f_equal. apply (highest_unique (u :: us)); [|done]. split; [by apply H|]. intros w Hw. apply H2. by apply H.
Qed.

(** Frames: column by column; an argument that is not a frame counts for every
    column.  [type_of_column k a]: the value type of column [k] of [a]. *)
Definition type_of_column (k : nat) (a : dtc * list vt) : option vt :=
  match a.1 with FRAME => a.2 !! k | _ => a.2 !! 0%nat end.
(** A frame has [n] columns, anything else a single value type. *)
Definition well_formed (n : nat) (a : dtc * list vt) : Prop :=
  match a.1 with FRAME => length a.2 = n | _ => exists t, a.2 = [t] end.

Lemma frame_cols_spec n args : Forall (well_formed n) args -> frame_cols args (Some n) = Ok (Some n).
Proof.
  induction 1 as [|[d vts] args Ha _ IH]; [done|]. cbn [frame_cols]. case_decide; [|done]. subst. cbn in Ha. by rewrite decide_True.
Qed.
Lemma frame_cols_none n args vts : Forall (well_formed n) args -> (FRAME, vts) ∈ args -> frame_cols args None = Ok (Some n).
Proof.
  intros Hw. revert vts. induction Hw as [|[d v] args Ha Hf IH]; intros vts Hin; [by apply elem_of_nil in Hin|].
  cbn [frame_cols]. case_decide.
  - subst. cbn in Ha. subst. by apply frame_cols_spec.
  - apply elem_of_cons in Hin as [[= ? ?]|Hin]; [congruence|]. by eapply IH.
Qed.
Lemma mapo_expand n args : Forall (well_formed n) args ->
  exists ex, mapo (expand n) args = Ok ex /\ length ex = length args /\ Forall (fun v => length v = n) ex /\
    forall k, (k < n)%nat -> Forall2 (fun v a => v !! k = type_of_column k a) ex args.
Proof.
  induction 1 as [|[d v] args Ha _ (ex & H1 & H0 & H2 & H3)]; [exists []; repeat split; constructor|].
  cbn [mapo]. unfold expand at 1. cbn [fst snd]. case_decide.
  - subst. cbn [obind]. rewrite H1. cbn [obind]. exists (v :: ex). repeat split; [cbn; lia|by constructor|]. intros k Hk. constructor; [done|by apply H3].
  - assert (exists t, v = [t]) as [t ->] by (destruct d; done). unfold rd. cbn [lookup list_lookup obind].
    rewrite H1. cbn [obind]. exists (replicate n t :: ex). repeat split; [cbn; lia|constructor; [apply replicate_length|done]|].
    intros k Hk. constructor; [|by apply H3]. unfold type_of_column. destruct d; try done; cbn; by apply lookup_replicate_2.
Qed.

Theorem C80_frames_column_by_column n args vts : Forall (well_formed n) args -> (FRAME, vts) ∈ args ->
  exists out, infer_from_args args = Ok out /\ length out = n /\
    forall k t, out !! k = Some t -> exists ts, Forall2 (fun a u => type_of_column k a = Some u) args ts /\ highest ts t.
Proof.
  intros Hw Hin. unfold infer_from_args. rewrite (frame_cols_none n args vts Hw Hin). cbn [obind default from_option].
  destruct (mapo_expand n args Hw) as (ex & -> & Hlen & Hl & Hc). cbn [obind].
  destruct ex as [|first rest]; [destruct args; [by apply elem_of_nil in Hin|done]|].
  apply Forall_cons in Hl as [Hl1 Hl2].
  destruct (merge_all_cols n rest first Hl1 Hl2) as (out & Ho & Hlo & Hk).
  exists out. split; [done|]. split; [done|]. intros k t Ht.
  assert (Hkn : (k < n)%nat) by (apply lookup_lt_Some in Ht; lia).
  destruct (Hk k t Ht) as (r & ts & Hr & Hts & ->). specialize (Hc k Hkn).
  exists (r :: ts). split; [|apply foldl_highest].
  apply Forall2_cons_inv_l in Hc as (a & args' & Ha & Hc & ->). constructor; [by rewrite <- Ha|].
  clear -Hc Hts. revert args' Hc. induction Hts as [|v t' rest ts Hv _ IH]; intros args' Hc.
  - apply Forall2_nil_inv_l in Hc as ->. constructor.
  - apply Forall2_cons_inv_l in Hc as (a & args'' & Ha & Hc & ->). constructor; [by rewrite <- Ha|]. by apply IH.
Qed.

(** Frames with different numbers of columns are rejected. *)
Theorem C80_frames_of_different_width n m pre mid post vs ws :
  Forall (well_formed n) pre -> Forall (well_formed n) mid -> length vs = n -> length ws = m -> n <> m ->
  infer_from_args (pre ++ (FRAME, vs) :: mid ++ (FRAME, ws) :: post) = Throw.
Proof.
  intros Hp Hm Hv Hw Hne. unfold infer_from_args.
  assert (H1 : forall l, Forall (well_formed n) l -> frame_cols (l ++ (FRAME, ws) :: post) (Some n) = Throw).
  { induction 1 as [|[d v] l Ha _ IH]; cbn [app frame_cols].
    - rewrite decide_True by done. rewrite decide_False by lia. done.
    - case_decide; [|done]. subst d. cbn in Ha. by rewrite decide_True. }
  assert (H2 : frame_cols (pre ++ (FRAME, vs) :: mid ++ (FRAME, ws) :: post) None = Throw).
  { clear -Hp Hm Hv H1. induction Hp as [|[d v] l Ha Hf IH]; cbn [app frame_cols].
    - rewrite decide_True by done. rewrite Hv. by apply H1.
    - case_decide; [|done]. subst d. cbn in Ha. rewrite Ha.
      replace (l ++ (FRAME, vs) :: mid ++ (FRAME, ws) :: post) with ((l ++ (FRAME, vs) :: mid) ++ (FRAME, ws) :: post) by (by rewrite <- app_assoc).
      apply H1. apply Forall_app. split; [done|]. constructor; done. }
  by rewrite H2.
Qed.

(** The type of an expression is the highest-ranking type of its leaves,
    however the operations are grouped, and evaluation gives a number of that
    type's representation. *)
Lemma highest_app l1 l2 r1 r2 : highest l1 r1 -> highest l2 r2 -> highest (l1 ++ l2) (more_general r1 r2).
Proof.
  intros [H1 H2] [H3 H4]. destruct (more_general_highest r1 r2) as [H5 H6]. split.
  - rewrite !elem_of_cons, elem_of_nil in H5. apply elem_of_app. destruct H5 as [->|[->|[]]]; tauto.
  - intros t [Ht|Ht]%elem_of_app; [apply H2 in Ht|apply H4 in Ht].
    + specialize (H6 r1 ltac:(apply elem_of_cons; by left)). apply below_gen in Ht, H6. apply below_gen. lia.
    + specialize (H6 r2 ltac:(rewrite !elem_of_cons; tauto)). apply below_gen in Ht, H6. apply below_gen. lia.
Qed.
Lemma arith_trait o : arith o -> vtrait_of o = FromArgs.
Proof. unfold arith. rewrite !elem_of_cons, elem_of_nil. intros H. destruct o; try done; exfalso; intuition discriminate. Qed.

Theorem C80_type_of_expression e : arithmetic e -> exists r, infer e = Ok r /\ highest (leaf_types e) r.
Proof.
  induction e as [t x|o e1 IH1 e2 IH2]; cbn [arithmetic infer leaf_types].
  - intros _. exists t. split; [done|]. split; [apply elem_of_cons; by left|]. intros u [->|[]%elem_of_nil]%elem_of_cons. apply below_gen. lia.
  - intros (Ho & (r1 & -> & H1)%IH1 & (r2 & -> & H2)%IH2). cbn [obind]. rewrite result_vt_eq, (arith_trait o Ho). cbn [adjust].
    eexists. split; [done|]. by apply highest_app.
Qed.

Theorem C80_types_agree e t v : eval e = Ok (t, v) -> infer e = Ok t.
Proof.
  revert t v. induction e as [t x|o e1 IH1 e2 IH2]; cbn [eval infer]; intros t' v.
  - by intros [= -> ->].
  - destruct (eval e1) as [[t1 v1]| |]; [|done|done]. destruct (eval e2) as [[t2 v2]| |]; [|done|done]. cbn [obind].
    rewrite (IH1 t1 v1), (IH2 t2 v2) by done. cbn [obind]. unfold ew. cbn [fst snd].
    destruct (result_vt o t1 t2); [|done|done]. cbn [obind].
    destruct (cast_target o t1 t2); [|done|done]. cbn [obind].
    destruct (cast_arg t1 _ v1); [|done|done]. cbn [obind]. destruct (cast_arg t2 _ v2); [|done|done]. cbn [obind].
    destruct (kernel _ _ _ _); [|done|done]. cbn [obind]. by intros [= <- _].
Qed.

(** ** Values *)

(** If every argument is a number of the type its operation is computed in, and
    so is every result, the expression has its mathematical value. *)
Theorem C80_exact e r v : exact e r v -> eval e = Ok (r, v).
Proof.
  induction 1 as [|o e1 e2 s t r x y v H1 IH1 H2 IH2 Hc Hx Hy Hi Hv Hm]; [done|].
  cbn [eval]. rewrite IH1, IH2. cbn [obind]. apply exact_numeric in H1 as [? _], H2 as [? _]. by apply ew_exact.
Qed.

(** Which casts to a higher-ranking type keep all numbers. *)
Theorem C80_lossless s t : numeric s -> numeric t -> below s t ->
  keeps s t <-> ~ ((s ∈ [SI8; SI32; SI64] /\ t ∈ [UI8; UI32; IDX; UI64])
                   \/ (s = IDX /\ t = SI64)
                   \/ (s ∈ [SI32; UI32; IDX; SI64; UI64] /\ t = F32)
                   \/ (s ∈ [IDX; SI64; UI64] /\ t = F64)).
Proof.
  intros Hs Ht Hb. apply below_gen in Hb. rewrite !elem_of_cons, !elem_of_nil.
  destruct (decide (s = t)) as [->|Hne].
  { split; [intros _; destruct t; intuition discriminate|]. intros _ x _. unfold cast_arg. by rewrite decide_True. }
  destruct s, t; try done; try (cbn in Hb; lia); try (by destruct Hs); try (by destruct Ht); clear Hb.
  all: first
    [ (* kept: integers in integers *)
      split; [intros _; intuition discriminate|intros _; apply keeps_sub; [done|]; intros x Hx; eapply int_in_int; [| | | |exact Hx]; done]
    | split; [intros _; intuition discriminate|intros _; apply keeps_sub; [done|]; intros x Hx; eapply int_in_float; [| | | |exact Hx]; auto; done]
    | split; [intros _; intuition discriminate|intros _; apply keeps_sub; [done|]; apply f32_in_f64]
    | split; [intros Hk; exfalso; revert Hk; eapply (not_keeps_int _ _ (-1)); [done|done|done|done|intros [? ?]; done]|intros H; exfalso; apply H; tauto]
    | split; [intros Hk; exfalso; revert Hk; eapply (not_keeps_int _ _ (2 ^ 64 - 1)); [done|done|done|done|intros [? ?]; done]|intros H; exfalso; apply H; tauto]
    | split; [intros Hk; exfalso; revert Hk; apply not_keeps_float; [done|tauto|done|done]|intros H; exfalso; apply H; tauto] ].
Qed.

(** If the types of the leaves can be mixed without loss, only the results of
    the operations have to fit. *)
Inductive fits : expr -> vt -> Z -> Prop :=
| fits_leaf t x : numeric t -> holds t x -> fits (Leaf t x) t x
| fits_node o e1 e2 s t r x y v :
    o <> And -> o <> Or -> fits e1 s x -> fits e2 t y -> highest [s; t] r ->
    ideal o r x y v -> holds r v -> (o = Mod -> is_int r -> holds F64 x /\ holds F64 y) -> fits (Node o e1 e2) r v.

Theorem C80_safe_mixture e r v :
  (forall s t, s ∈ leaf_types e -> t ∈ leaf_types e -> below s t -> keeps s t) ->
  fits e r v -> eval e = Ok (r, v).
Proof.
  intros Hsafe Hf. apply C80_exact.
  cut (r ∈ leaf_types e /\ numeric r /\ holds r v /\ exact e r v); [tauto|].
  revert Hsafe. induction Hf as [t x Hn Hh|o e1 e2 s t r x y v Ha1 Ha2 H1 IH1 H2 IH2 Hr Hi Hv Hm]; intros Hsafe; cbn [leaf_types] in *.
  - split; [apply elem_of_cons; by left|]. repeat split; try done; try apply Hn. by constructor.
  - destruct IH1 as (I1 & N1 & V1 & E1); [intros; apply Hsafe; rewrite ?elem_of_app; tauto|].
    destruct IH2 as (I2 & N2 & V2 & E2); [intros; apply Hsafe; rewrite ?elem_of_app; tauto|].
    assert (Hin : r ∈ leaf_types e1 ++ leaf_types e2).
    { destruct Hr as [Hr _]. rewrite !elem_of_cons, elem_of_nil in Hr. apply elem_of_app. destruct Hr as [->|[->|[]]]; tauto. }
    assert (Hnr : numeric r) by (by eapply (highest_numeric s t)).
    split; [done|]. split; [done|]. split; [done|].
    destruct Hr as [Hr0 Hr].
    assert (Bs : below s r) by (apply Hr, elem_of_cons; by left).
    assert (Bt : below t r) by (apply Hr; rewrite !elem_of_cons; tauto).
    eapply exact_node; [exact E1|exact E2| | | |exact Hi|done|done].
    + destruct o; try done; split; done.
    + apply (keeps_holds s r); [done|done|done| |done]. apply Hsafe; [apply elem_of_app; tauto|done|done].
    + apply (keeps_holds t r); [done|done|done| |done]. apply Hsafe; [apply elem_of_app; tauto|done|done].
Qed.

(** Logical operations on integers are right whatever the mixture. *)
Lemma to_int_zero s c z : integral s = true -> integral c = true -> generality s <= generality c -> lo s <= z <= hi s -> to_int c z = 0 <-> z = 0.
Proof.
  intros Hs Hc Hg Hz. unfold to_int. case_decide as E.
  { case_decide; split; intros; done || lia. }
  assert (Hb : - 2 ^ bits c < z < 2 ^ bits c).
  { assert (- 2 ^ bits c < lo s /\ hi s < 2 ^ bits c); [|lia]. destruct s, c; try done; cbn in Hg; lia. }
  assert (HP : 0 < 2 ^ bits c) by (destruct c; done).
  assert (Hlo : - 2 ^ bits c < lo c <= 0) by (destruct c; done).
  split.
  - intros H. pose proof (Z.div_mod (z - lo c) (2 ^ bits c) ltac:(lia)) as Hdm.
    set (q := (z - lo c) / 2 ^ bits c) in *. assert (z = 2 ^ bits c * q) by lia. assert (q = 0) by nia. nia.
  - intros ->. rewrite Z.mod_small by lia. lia.
Qed.
Lemma cast_arg_zero s c x : integral s = true -> integral c = true -> generality s <= generality c -> holds s x ->
  exists y, cast_arg s c x = Ok y /\ (y = 0 <-> x = 0).
Proof.
  intros Hs Hc Hg Hx. unfold cast_arg. case_decide; [by exists x|]. unfold cast. rewrite Hs, Hc.
  apply holds_int in Hx as (z & -> & Hz); [|done]. rewrite div_one. eexists. split; [done|].
  pose proof (to_int_zero s c z Hs Hc Hg Hz). pose proof one_pos. nia.
Qed.

Theorem C80_logical_on_integers o s t x y : o = And \/ o = Or -> is_int s -> is_int t -> holds s x -> holds t y ->
  exists r v, ew o (s, x) (t, y) = Ok (r, v) /\ ideal o r x y v.
Proof.
  intros Ho Hs Ht Hx Hy. apply is_int_spec in Hs, Ht.
  set (c := adjust FromArgsInt (more_general s t)).
  assert (Hc : integral c = true /\ generality s <= generality c /\ generality t <= generality c).
  { unfold c, more_general. case_decide; destruct s, t; try done; cbn in *; (split; [done|lia]). }
  destruct Hc as (Hc & Hg1 & Hg2).
  destruct (cast_arg_zero s c x Hs Hc Hg1 Hx) as (x' & Hx1 & Hx2).
  destruct (cast_arg_zero t c y Ht Hc Hg2 Hy) as (y' & Hy1 & Hy2).
  assert (Hv : vtrait_of o = FromArgsInt) by (destruct Ho; subst; done).
  unfold ew. cbn [fst snd]. rewrite result_vt_eq, cast_target_eq, Hv. cbn [obind]. fold c.
  rewrite Hx1, Hy1. cbn [obind].
  exists c. destruct Ho; subst o; cbn [kernel obind ideal]; eexists; (split; [done|]); unfold yes_no, truth; rewrite one_eq;
    repeat case_bool_decide; cbn [andb orb]; tauto.
Qed.

(** ** What goes wrong *)

(** A negative number next to an unsigned type: it counts as a large one.  All
    comparisons [x < y] with y below half of the range answer no, and the
    minimum is the wrong one. *)
Lemma cast_negative s t x : integral s = true -> integral t = true -> signed s = true -> signed t = false -> generality s < generality t -> t <> B1 ->
  holds s x -> x < 0 -> cast_arg s t x = Ok (x + 2 ^ bits t * one).
Proof.
  intros Hs Ht Ss St Hg Hb Hx Hneg. unfold cast_arg. rewrite decide_False by (intros ->; lia). unfold cast. rewrite Hs, Ht.
  apply holds_int in Hx as (z & -> & Hz); [|done]. rewrite div_one. f_equal. unfold to_int. rewrite decide_False by done.
  assert (Hlo : lo t = 0) by (unfold lo; by rewrite St). rewrite Hlo. rewrite Z.sub_0_r, Z.add_0_r.
  pose proof one_pos. assert (z < 0) by nia.
  assert (- 2 ^ bits t < lo s) by (destruct s, t; try done; cbn in Hg; lia).
  assert (HP : 0 < 2 ^ bits t) by (destruct t; done).
  replace (z mod 2 ^ bits t) with (z + 2 ^ bits t); [ring|].
  rewrite <- (Z.mod_small (z + 2 ^ bits t) (2 ^ bits t)) by lia.
  rewrite <- (Z_mod_plus_full z 1 (2 ^ bits t)). f_equal. ring.
Qed.

Theorem C80_negative_with_unsigned_refuted s t half x y :
  s ∈ [SI8; SI32; SI64] -> (t, half) ∈ [(UI8, 2 ^ 7); (UI32, 2 ^ 31); (IDX, 2 ^ 63); (UI64, 2 ^ 63)] -> below s t ->
  holds s x -> x < 0 -> holds t y -> y < half * 2 ^ 1074 ->
  ew Lt (s, x) (t, y) = Ok (t, 0) /\ ew Gt (s, x) (t, y) = Ok (t, 2 ^ 1074) /\ ew Min (s, x) (t, y) = Ok (t, y) /\
  ew Eq (s, x) (t, x + 2 * half * 2 ^ 1074) = Ok (t, 2 ^ 1074).
Proof.
  intros Hs Ht Hb Hx Hneg Hy Hlt. apply below_gen in Hb. rewrite one_eq in *.
  assert (Ss : integral s = true /\ signed s = true) by (rewrite !elem_of_cons, elem_of_nil in Hs; destruct Hs as [->|[->|[->|[]]]]; done).
  assert (St : integral t = true /\ signed t = false /\ t <> B1 /\ 2 * half = 2 ^ bits t).
  { rewrite !elem_of_cons, elem_of_nil in Ht. destruct Ht as [[= -> ->]|[[= -> ->]|[[= -> ->]|[[= -> ->]|[]]]]]; done. }
  destruct Ss as [Is Ss], St as (It & St & Nt & Hh).
  assert (Hg : generality s < generality t). { assert (generality s <> generality t); [|lia]. intros E%gen_inj. subst. congruence. }
  assert (Hm : more_general s t = t). { unfold more_general. rewrite decide_True by lia. done. }
  pose proof (cast_negative s t x Is It Ss St Hg Nt Hx Hneg) as Hcx.
  assert (Hcy : forall w, cast_arg t t w = Ok w) by (intros; unfold cast_arg; by rewrite decide_True).
  pose proof one_pos as Hone.
  assert (Hbig : y < x + 2 ^ bits t * one).
  { apply holds_int in Hx as (z & -> & Hz); [|done].
    assert (- half <= lo s); [|rewrite <- Hh; nia].
    rewrite !elem_of_cons, elem_of_nil in Ht. clear -Hg Ht Is Ss. destruct Ht as [[= -> ->]|[[= -> ->]|[[= -> ->]|[[= -> ->]|[]]]]]; destruct s; try done; cbn in Hg; lia. }
  assert (Hst : t <> STR) by (intros ->; done).
  repeat split; unfold ew; cbn [fst snd]; rewrite result_vt_eq, cast_target_eq, Hm; cbn [vtrait_of adjust obind]; rewrite ?(decide_False (P := t = STR)) by done;
    rewrite Hcx, Hcy; cbn [obind kernel].
  - rewrite bool_decide_eq_false_2 by lia. done.
  - rewrite bool_decide_eq_true_2 by lia. done.
  - rewrite decide_True by lia. done.
  - rewrite bool_decide_eq_true_2 by (rewrite Hh; ring). done.
Qed.

(** [&&] and [||] drop the fraction of floating-point numbers first: numbers
    between -1 and 1 count as false, and negative ones are undefined
    behaviour. *)
Lemma float_top f t x y o : is_float f -> is_int t -> holds t y -> o = And \/ o = Or ->
  exists y', (y' = 0 <-> y = 0) /\ ew o (f, x) (t, y) = (let* x' := cast f UI64 x in let* v := kernel o UI64 x' y' in Ok (UI64, v)).
Proof.
  intros Hf Ht Hy Ho. apply is_int_spec in Ht.
  assert (Hm : more_general f t = f) by (unfold more_general; rewrite decide_False; [done|]; destruct Hf as [-> | ->]; destruct t; done).
  assert (Hg : generality t <= generality UI64) by (destruct t; done).
  destruct (cast_arg_zero t UI64 y Ht eq_refl Hg Hy) as (y' & Hc & Hz).
  exists y'. split; [done|]. assert (Hv : vtrait_of o = FromArgsInt) by (destruct Ho; subst; done).
  unfold ew. cbn [fst snd]. rewrite result_vt_eq, cast_target_eq, Hv, Hm.
  replace (adjust FromArgsInt f) with UI64 by (destruct Hf as [-> | ->]; done). cbn [obind]. rewrite Hc.
  unfold cast_arg. rewrite decide_False by (destruct Hf as [-> | ->]; done). destruct (cast f UI64 x); done.
Qed.

Theorem C80_logical_on_fractions_refuted f t x y : is_float f -> is_int t -> holds t y ->
  (Z.abs x < 2 ^ 1074 -> ew And (f, x) (t, y) = Ok (UI64, 0) /\ (y = 0 -> ew Or (f, x) (t, y) = Ok (UI64, 0))) /\
  (x <= - 2 ^ 1074 -> ew And (f, x) (t, y) = UB /\ ew Or (f, x) (t, y) = UB).
Proof.
  intros Hf Ht Hy. rewrite one_eq. pose proof one_pos as Hone.
  destruct (float_top f t x y And Hf Ht Hy) as (y1 & Hz1 & ->); [tauto|].
  destruct (float_top f t x y Or Hf Ht Hy) as (y2 & Hz2 & ->); [tauto|].
  assert (Hif : integral f = false) by (destruct Hf as [-> | ->]; done).
  unfold cast. rewrite Hif. cbn [integral]. rewrite (decide_False (P := UI64 = B1)) by done. split.
  - intros Hx. assert (Z.quot x one = 0) as ->.
    { destruct (decide (0 <= x)); [apply Z.quot_small; lia|]. rewrite <- (Z.opp_involutive x), Z.quot_opp_l by lia. rewrite Z.quot_small; lia. }
    rewrite decide_True by done. cbn [obind kernel Z.mul]. rewrite bool_decide_eq_false_2 by lia. cbn [andb orb]. split; [done|].
    intros Hy0. rewrite bool_decide_eq_false_2 by (rewrite Hz2; auto). done.
  - intros Hx. assert (Z.quot x one < 0).
    { rewrite <- (Z.opp_involutive x), Z.quot_opp_l by lia. assert (1 <= Z.quot (- x) one); [|lia]. apply Z.quot_le_lower_bound; lia. }
    rewrite decide_False by (change (lo UI64) with 0; lia). done.
Qed.

(** [%] on integers goes through double: every odd number above 2^53 is
    even. *)
Theorem C80_modulo_refuted z : Z.odd z = true -> 2 ^ 53 < z < 2 ^ 63 ->
  ew Mod (SI64, z * 2 ^ 1074) (SI64, 2 * 2 ^ 1074) = Ok (SI64, 0) /\ Z.rem z 2 = 1.
Proof.
  intros Ho Hz. rewrite one_eq. pose proof one_pos as Hone. split.
  2: { rewrite Z.rem_mod_nonneg by lia. rewrite Zmod_odd, Ho. done. }
  unfold ew. cbn [fst snd]. rewrite result_vt_eq, cast_target_eq.
  assert (more_general SI64 SI64 = SI64) as -> by reflexivity. cbn [vtrait_of adjust obind].
  unfold cast_arg. rewrite !decide_True by done. cbn [obind kernel integral].
  assert (Hdy : rnd 53 0 (2 * one) 1 = 2 * one).
  { apply (rnd_float1 F64); [by right|]. exists 2, 1074. rewrite one_eq. repeat split; lia. }
  rewrite Hdy. rewrite decide_False by lia.
  assert (Hdx : exists q, rnd 53 0 (z * one) 1 = q * (2 * one)).
  { unfold rnd. rewrite Z.div_1_r. set (k := Z.max 0 (Z.log2 (Z.abs (z * one)) + 1 - 53)).
    assert (Hk : 1075 <= k).
    { unfold k. assert (1127 <= Z.log2 (Z.abs (z * one))); [|lia]. rewrite Z.abs_eq by nia. apply Z.log2_le_pow2; [nia|].
      change 1127 with (53 + 1074). rewrite Z.pow_add_r, one_eq by lia. nia. }
    exists (Z.sgn (z * one) * rne (Z.abs (z * one)) (1 * 2 ^ k) * 2 ^ (k - 1075)).
    replace k with ((k - 1075) + 1 + 1074) at 2 by lia. rewrite !Z.pow_add_r, one_eq by lia. ring. }
  destruct Hdx as [q ->]. rewrite Z.rem_mul by lia. unfold cast. cbn [integral]. rewrite (decide_False (P := SI64 = B1)) by done.
  rewrite Z.quot_0_l by lia. rewrite decide_True by (split; vm_compute; discriminate). reflexivity.
Qed.

(** Where a result is not a number of its floating-point type, it is a nearest
    one: for the inserted casts and for the arithmetic. *)
Theorem C80_nearest f x y w : is_float f -> holds f x -> holds f y -> holds f w ->
  (forall s z v, numeric s -> cast_arg s f z = Ok v -> s <> f -> holds f v /\ Z.abs (v - z) <= Z.abs (w - z)) /\
  (forall v, ew Add (f, x) (f, y) = Ok (f, v) -> holds f v /\ Z.abs (v - (x + y)) <= Z.abs (w - (x + y))) /\
  (forall v, ew Sub (f, x) (f, y) = Ok (f, v) -> holds f v /\ Z.abs (v - (x - y)) <= Z.abs (w - (x - y))) /\
  (forall v, ew Mul (f, x) (f, y) = Ok (f, v) -> holds f v /\ Z.abs (v * 2 ^ 1074 - x * y) <= Z.abs (w * 2 ^ 1074 - x * y)) /\
  (forall v, ew Div (f, x) (f, y) = Ok (f, v) -> holds f v /\ Z.abs (v * y - x * 2 ^ 1074) <= Z.abs (w * y - x * 2 ^ 1074)).
Proof.
  intros Hf Hx Hy Hw. rewrite one_eq. pose proof one_pos as Hone.
  assert (Hpk : 0 < prec f /\ 0 <= kmin f) by (destruct Hf; subst f; split; vm_compute; (reflexivity || discriminate)). destruct Hpk as [Hp Hk].
  pose proof Hw as Hwb. apply holds_float in Hwb; [|done].
  assert (Hi : integral f = false) by (destruct Hf; subst f; reflexivity).
  assert (Hn1 : forall n d, 0 < d -> holds f (rnd (prec f) (kmin f) n d) /\ Z.abs (rnd (prec f) (kmin f) n d * d - n) <= Z.abs (w * d - n)).
  { intros n d Hd. split; [apply holds_float; [done|]; by apply rnd_has_bits|]. by apply rnd_nearest. }
  assert (Hew : forall o, o ∈ [Add; Sub; Mul; Div] -> forall v, ew o (f, x) (f, y) = Ok (f, v) -> kernel o f x y = Ok v).
  { intros o Ho v. unfold ew. rewrite result_vt_eq, cast_target_eq. cbn [obind].
    assert (Hmg : more_general f f = f) by (destruct Hf; subst f; reflexivity).
    assert (Ht : vtrait_of o = FromArgs) by (repeat (apply elem_of_cons in Ho as [->|Ho]; [reflexivity|]); by apply elem_of_nil in Ho).
    rewrite Ht. cbn [adjust fst snd]. rewrite Hmg. unfold cast_arg. rewrite !decide_True by done. cbn [obind].
    destruct (kernel o f x y); cbn [obind]; intros H; congruence. }
  split; [|split; [|split; [|split]]].
  - intros s z v Hs Hc Hne. unfold cast_arg in Hc. rewrite decide_False in Hc by done. unfold cast in Hc. rewrite Hi in Hc. rewrite decide_True in Hc by done.
    injection Hc as <-. destruct (Hn1 z 1 ltac:(lia)) as [? Hd]. rewrite !Z.mul_1_r in Hd. done.
  - intros v Hv. apply Hew in Hv; [|apply elem_of_list_In; cbn; tauto]. cbn [kernel] in Hv. rewrite Hi in Hv. injection Hv as <-. destruct (Hn1 (x + y) 1 ltac:(lia)) as [? Hd]. rewrite !Z.mul_1_r in Hd. done.
  - intros v Hv. apply Hew in Hv; [|apply elem_of_list_In; cbn; tauto]. cbn [kernel] in Hv. rewrite Hi in Hv. injection Hv as <-. destruct (Hn1 (x - y) 1 ltac:(lia)) as [? Hd]. rewrite !Z.mul_1_r in Hd. done.
  - intros v Hv. apply Hew in Hv; [|apply elem_of_list_In; cbn; tauto]. cbn [kernel] in Hv. rewrite Hi in Hv. injection Hv as <-. apply Hn1. done.
  - intros v Hv. apply Hew in Hv; [|apply elem_of_list_In; cbn; tauto]. cbn [kernel] in Hv. case_decide as Hy0; [discriminate Hv|]. rewrite Hi in Hv. injection Hv as <-.
    destruct (Hn1 (Z.sgn y * x * one) (Z.abs y) ltac:(lia)) as [Hh Hd]. split; [done|].
    assert (Hsg : forall u, Z.abs (u * Z.abs y - Z.sgn y * x * one) = Z.abs (u * y - x * one)).
    { intros u. assert (Hya : Z.abs y = Z.sgn y * y) by (destruct y; cbn; lia). rewrite Hya.
      replace (u * (Z.sgn y * y) - Z.sgn y * x * one) with (Z.sgn y * (u * y - x * one)) by ring. rewrite Z.abs_mul.
      replace (Z.abs (Z.sgn y)) with 1 by (destruct y; cbn; lia). lia. }
    rewrite <- !Hsg. done.
Qed.

(** The grouping of a sum does not change its type but can change its value:
    (-1 : si8) + (0 : ui8) + (0 : si64). *)
Theorem C80_grouping_refuted :
  let a := Leaf SI8 (-1 * 2 ^ 1074) in let b := Leaf UI8 0 in let c := Leaf SI64 0 in
  eval (Node Add (Node Add a b) c) = Ok (SI64, 255 * 2 ^ 1074) /\
  eval (Node Add a (Node Add b c)) = Ok (SI64, -1 * 2 ^ 1074).
Proof. Local Transparent one. vm_compute. split; reflexivity. Qed.

(** ** Non-vacuity *)

(** A mixture that is safe: bool, ui8, si32 and double. *)
Theorem C80_safe_mixture_nonvacuous :
  let e := Node Lt (Node Add (Leaf UI8 (200 * 2 ^ 1074)) (Leaf SI32 (-201 * 2 ^ 1074))) (Node Mul (Leaf B1 (1 * 2 ^ 1074)) (Leaf F64 (2 ^ 1073))) in
  (forall s t, s ∈ leaf_types e -> t ∈ leaf_types e -> below s t -> keeps s t) /\ fits e F64 (2 ^ 1074) /\ eval e = Ok (F64, 2 ^ 1074).
Proof.
  cbv zeta.
  assert (Hs : forall s t, s ∈ [UI8; SI32; B1; F64] -> t ∈ [UI8; SI32; B1; F64] -> below s t -> keeps s t).
  { intros s t Hs Ht Hb. apply C80_lossless; [| |done|]; apply below_gen in Hb; rewrite !elem_of_cons, !elem_of_nil in *;
      destruct Hs as [->|[->|[->|[->|[]]]]]; destruct Ht as [->|[->|[->|[->|[]]]]]; try (split; discriminate); try (exfalso; cbn in Hb; lia); clear Hb; intuition discriminate. }
  assert (Hf : fits (Node Lt (Node Add (Leaf UI8 (200 * 2 ^ 1074)) (Leaf SI32 (-201 * 2 ^ 1074))) (Node Mul (Leaf B1 (1 * 2 ^ 1074)) (Leaf F64 (2 ^ 1073)))) F64 (2 ^ 1074)).
  { assert (Hh : forall s t r, more_general s t = r -> highest [s; t] r) by (intros s t r <-; apply more_general_highest).
    assert (HF : forall k, 0 <= k -> holds F64 (2 ^ k)) by (intros k ?; exists 1, k; repeat split; lia).
    eapply (fits_node Lt _ _ SI32 F64 F64 (-1 * 2 ^ 1074) (2 ^ 1073)); [done|done| | |by apply Hh| | |done].
    - eapply (fits_node Add _ _ UI8 SI32 SI32); [done|done|apply fits_leaf|apply fits_leaf|by apply Hh| | |done]; try done.
      + exists 0, 255, 200. done.
      + eexists _, _, (-201). split; [reflexivity|]. split; [reflexivity|lia].
      + eexists _, _, (-1). split; [reflexivity|]. split; [reflexivity|lia].
    - eapply (fits_node Mul _ _ B1 F64 F64); [done|done|apply fits_leaf|apply fits_leaf|by apply Hh| | |done]; try done.
      + exists 0, 1, 1. done.
      + apply HF. lia.
      + apply HF. lia.
    - left. split; [|reflexivity]. reflexivity.
    - apply HF. lia. }
  split; [exact Hs|]. split; [exact Hf|]. by apply C80_safe_mixture.
Qed.

Theorem C80_frames_nonvacuous :
  infer_from_args [(FRAME, [SI64; F64; STR]); (SCALAR, [F32]); (FRAME, [UI64; SI8; UI8])] = Ok [F32; F64; STR].
Proof. vm_compute. reflexivity. Qed.

Print Assumptions C80_most_general.
Print Assumptions C80_order_of_arguments.
Print Assumptions C80_frames_column_by_column.
Print Assumptions C80_frames_of_different_width.
Print Assumptions C80_type_of_expression.
Print Assumptions C80_types_agree.
Print Assumptions C80_exact.
Print Assumptions C80_lossless.
Print Assumptions C80_safe_mixture.
Print Assumptions C80_logical_on_integers.
Print Assumptions C80_negative_with_unsigned_refuted.
Print Assumptions C80_logical_on_fractions_refuted.
Print Assumptions C80_modulo_refuted.
Print Assumptions C80_grouping_refuted.
Print Assumptions C80_safe_mixture_nonvacuous.
Print Assumptions C80_frames_nonvacuous.
Print Assumptions C80_nearest.
