(** Proofs about the generation of scripts: the whole script. *)
From stdpp Require Import base numbers list strings.
From Coq Require Import Lia.
From Verif Require Import CppBase PyModel PySpec PyProofs PyCtlProofs.

Lemma refs_vars names up us : Forall2 (refof names) (N <$> up) us -> exists xs, us = RV <$> xs /\ Forall2 (fun n x => names n = Some x) up xs.
Proof.
  revert us. induction up as [|n up IH]; intros us Hr; inversion Hr as [|? r ? us' H1 H2]; subst; [by exists []|].
  destruct H1 as (x & Hx & ->). destruct (IH us' H2) as (xs & -> & Hxs). exists (x :: xs). split; [done|]. by constructor.
Qed.

Section py.
Context {V : Type} (lit : string -> V) (app : string -> list V -> V) (appm : string -> nat -> list V -> V) (upd : V -> V -> list V -> V)
  (truth : V -> bool) (range : V -> V -> option V -> list V) (bound : nat) (G : graph) (rank : nat -> nat) (home : nat -> option (nat * nat)).
Notation exec := (exec lit app appm upd truth range bound).
Notation execs := (execs lit app appm upd truth range bound).
Notation den := (den lit app appm upd truth range bound G).
Notation darg := (darg lit app appm upd truth range bound G).
Notation evalr := (evalr lit).
Notation evals := (evals lit).
Notation dfs := (dfs G).
Notation aval := (aval lit app appm upd truth range bound G rank).
Notation after := (after truth range bound).
Context (Hwf : wf_graph G rank home) (Hsw : no_swap G) (Hex : exclusive G home) (Hterm : terminates G lit app appm upd truth range bound).

Definition touched (names : nat -> option var) (n : nat) : Prop :=
  (exists l, base_of G l n /\ names l <> None) \/ (exists L i, updated_by G L n i /\ names L <> None) \/ (exists L, counter_of G L n /\ names L <> None).
Definition TS (st : gst) : Prop :=
  (forall n x, g_name st n = Some x -> home n = None -> v_pre x = None /\ v_num x < g_ctr st) /\
  (forall n n' x, g_name st n = Some x -> g_name st n' = Some x -> home n = None -> home n' = None -> n = n') /\
  (forall n L p, g_name st n <> None -> home n = Some (L, p) -> g_name st L <> None) /\
  (forall M md f outs o, G !! M = Some md -> n_kind md = KMulti f outs -> o ∈ outs -> g_name st o <> None <-> g_name st M <> None) /\
  (forall L ld c, G !! L = Some ld -> is_ctl (n_kind ld) -> g_name st L <> None -> N c ∈ n_args ld -> g_name st c <> None).
Definition TE (names : nat -> option var) (e : @env V) : Prop :=
  (forall n nd x, G !! n = Some nd -> is_val (n_kind nd) -> home n = None -> names n = Some x -> ~ touched names n -> exists v, e x = Some v /\ aval nothing (N n) v) /\
  (forall L ld n i x, G !! L = Some ld -> names L <> None -> updated_by G L n i -> names n = Some x ->
    exists vs v, (forall fu, rank L <= fu -> after (darg fu) nothing ld = Some vs) /\ vs !! i = Some v /\ e x = Some v).
Definition newly (a : list arg) (n1 n2 : nat -> option var) : Prop :=
  forall m, n1 m = None -> n2 m <> None -> exists b, N b ∈ a /\ (rank m <= rank b \/ exists M md f outs, G !! M = Some md /\ n_kind md = KMulti f outs /\ m ∈ outs /\ rank M <= rank b).
Definition top_ok (a : list arg) (rs : list ref) (st : gst) (e : @env V) (st' : gst) (e' : @env V) : Prop :=
  TS st' /\ Forall2 (refof (g_name st')) a rs /\ mono (g_name st) (g_name st') /\ newly a (g_name st) (g_name st') /\ TE (g_name st') e' /\ exists c, g_code st' = g_code st ++ c /\ execs e c = Some e'.
Lemma top_ok_refl st e : TS st -> TE (g_name st) e -> top_ok [] [] st e st e.
Proof. intros H1 H2. split; [done|]. split; [constructor|]. split; [apply mono_refl|]. split; [by intros m ->|]. split; [done|]. exists []. split; [by rewrite app_nil_r|done]. Qed.
Lemma top_ok_trans l1 l2 r1 r2 st1 e1 st2 e2 st3 e3 : top_ok l1 r1 st1 e1 st2 e2 -> top_ok l2 r2 st2 e2 st3 e3 -> top_ok (l1 ++ l2) (r1 ++ r2) st1 e1 st3 e3.
Proof.
  intros (S1 & R1 & M1 & N1 & T1 & c1 & E1 & X1) (S2 & R2 & M2 & N2 & T2 & c2 & E2 & X2).
  split; [done|]. split; [apply Forall2_app; [by apply (refs_mono (g_name st2))|done]|]. split; [by apply (mono_trans _ (g_name st2))|]. split.
  { intros m H1 H3. destruct (g_name st2 m) as [x|] eqn:H2.
    - destruct (N1 m H1 ltac:(by rewrite H2)) as (b & Hb & Hr). exists b. split; [|done]. apply elem_of_app. by left.
    - destruct (N2 m H2 H3) as (b & Hb & Hr). exists b. split; [|done]. apply elem_of_app. by right. }
  split; [done|]. exists (c1 ++ c2). split; [by rewrite E2, E1, app_assoc|]. rewrite execs_app, X1. done.
Qed.
Lemma gen_list_top (g : arg -> gst -> option (ref * gst)) l : (forall a st e, a ∈ l -> TS st -> TE (g_name st) e -> exists r st' e', g a st = Some (r, st') /\ top_ok [a] [r] st e st' e') ->
  forall st e, TS st -> TE (g_name st) e -> exists rs st' e', gen_list g l st = Some (rs, st') /\ top_ok l rs st e st' e'.
Proof.
  induction l as [|a l IH]; intros Hg st e HS HE.
  - exists [], st, e. split; [done|]. by apply top_ok_refl.
  - destruct (Hg a st e ltac:(left) HS HE) as (r & st1 & e1 & E1 & O1). pose proof O1 as (S1 & _ & _ & _ & T1 & _).
    destruct (IH ltac:(intros b st0 e2 Hb; apply Hg; by right) st1 e1 S1 T1) as (rs & st2 & e2 & E2 & O2).
    exists (r :: rs), st2, e2. split; [cbn; rewrite E1; cbn; rewrite E2; done|]. by apply (top_ok_trans [a] l [r] rs _ _ st1 e1).
Qed.

(** The inputs of a node that is not yet generated have their values. *)
Lemma untouched names m md c : G !! m = Some md -> home m = None -> n_kind md <> KCopy -> names m = None -> N c ∈ n_args md ++ n_named md -> ~ touched names c.
Proof.
  intros Hm Hh Hk Hn Hin. assert (Hu : uses G m c) by (by exists md). destruct Hex as (X1 & X2 & X3). intros [(l & Hb & Hl)|[(L & i & Hu2 & HL)|(L & Hc & HL)]].
  - by rewrite <- (X1 l c m Hb Hu) in Hl.
  - destruct (X2 L c i m md Hu2 Hm Hu) as [->|[[? _]|[p Hp]]]; [done|done|by rewrite Hh in Hp].
  - destruct (X3 L c m Hc Hu) as [->|[p Hp]]; [done|by rewrite Hh in Hp].
Qed.
Lemma arg_vals names e m md l rs : TE names e -> G !! m = Some md -> home m = None -> n_kind md <> KCopy -> names m = None -> (forall a, a ∈ l -> a ∈ n_args md ++ n_named md) ->
  Forall2 (refof names) l rs -> exists vs, evals e rs = Some vs /\ Forall2 (aval nothing) l vs.
Proof.
  intros HE Hm Hh Hk Hn Hl HR. induction HR as [|a r l rs Har HR IH]; [by exists []|].
  destruct IH as (vs & Ev & Hvs); [intros b Hb; apply Hl; by right|].
  assert (Hv : exists v, evalr e r = Some v /\ aval nothing a v).
  { destruct a as [c|t]; cbn in Har; [|subst; exists (lit t); split; [done|apply aval_lit]]. destruct Har as (x & Hx & ->). specialize (Hl (N c) ltac:(left)).
    destruct (wf_top _ _ _ Hwf m md c Hm Hh Hl) as (Hhc & cd & Hcd & Hval). apply (proj1 HE c cd x Hcd Hval Hhc Hx). by apply (untouched names m md). }
  destruct Hv as (v & Er & Hav). exists (v :: vs). split; [|by constructor]. unfold PyModel.evals in *. cbn. rewrite Er. cbn. rewrite Ev. done.
Qed.
Lemma touched_mono n1 n2 n : mono n1 n2 -> touched n1 n -> touched n2 n.
Proof.
  intros Hm. assert (Hs : forall l, n1 l <> None -> n2 l <> None). { intros l Hl. destruct (n1 l) as [x|] eqn:E; [|done]. by rewrite (Hm l x E). }
  intros [(l & ? & ?)|[(L & i & ? & ?)|(L & ? & ?)]]; [left; exists l|right; left; exists L, i|right; right; exists L]; split; try done; by apply Hs.
Qed.
Definition multi_out (n : nat) : Prop := exists M md f outs, G !! M = Some md /\ n_kind md = KMulti f outs /\ n ∈ outs.
Lemma mono_upn names n x : names n = None -> mono names (upn names n (Some x)).
Proof. intros Hn m y Hm. rewrite upn_ne; [done|]. intros ->. by rewrite Hn in Hm. Qed.

(** A new value *)
Lemma TS_new st n nd : TS st -> G !! n = Some nd -> g_name st n = None -> home n = None -> (forall f outs, n_kind nd <> KMulti f outs) -> ~ multi_out n ->
  (is_ctl (n_kind nd) -> forall c, N c ∈ n_args nd -> g_name st c <> None) -> forall lvl code,
  TS (mkG (upn (g_name st) n (Some (mkV None (g_ctr st) None))) lvl (S (g_ctr st)) code).
Proof.
  intros (S1 & S2 & S3 & S4 & S5) Hn Hnn Hh Hk Hmo Hc lvl code. set (x := mkV None (g_ctr st) None).
  assert (Hs : forall m, g_name st m <> None -> upn (g_name st) n (Some x) m <> None). { intros m Hm. destruct (decide (m = n)) as [->|?]; [by rewrite upn_eq|by rewrite upn_ne]. }
  assert (Hfresh : forall m, home m = None -> g_name st m <> Some x). { intros m Hm Hx. destruct (S1 m x Hx Hm) as (_ & Hlt). cbn in Hlt. lia. }
  split; [|split; [|split; [|split]]]; cbn [g_name g_ctr].
  - intros m y. destruct (decide (m = n)) as [->|?]; [rewrite upn_eq; intros [= <-] _; cbn; split; [done|lia]|]. rewrite upn_ne by done. intros Hy Hm. destruct (S1 m y Hy Hm). split; [done|lia].
  - intros m m' y. destruct (decide (m = n)) as [->|?]; destruct (decide (m' = n)) as [->|?]; [done| | |].
    + rewrite upn_eq, upn_ne by done. intros [= <-] Hy _ Hh2. by apply Hfresh in Hy.
    + rewrite upn_eq, upn_ne by done. intros Hy [= <-] Hh2. by apply Hfresh in Hy.
    + rewrite !upn_ne by done. apply S2.
  - intros m L p Hm HL. assert (m <> n) by (intros ->; by rewrite Hh in HL). rewrite upn_ne in Hm by done. by apply Hs, (S3 m L p).
  - intros M md f outs o HM HkM Ho. assert (M <> n) by (intros ->; rewrite HM in Hn; injection Hn as ->; by apply (Hk f outs)). assert (o <> n) by (intros ->; apply Hmo; by exists M, md, f, outs).
    rewrite !upn_ne by done. by apply (S4 M md f outs).
  - intros L ld c HL Hctl HLn Hin. apply Hs. destruct (decide (L = n)) as [->|?]; [rewrite HL in Hn; injection Hn as ->; by apply Hc|]. rewrite upn_ne in HLn by done. by apply (S5 L ld).
Qed.
Lemma TE_new st n nd e e' v : TS st -> TE (g_name st) e -> G !! n = Some nd -> g_name st n = None -> home n = None -> is_val (n_kind nd) ->
  let x := mkV None (g_ctr st) None in e' x = Some v -> aval nothing (N n) v -> (forall y, e' y = e y \/ y = x \/ exists b, home b = None /\ base_of G n b /\ g_name st b = Some y) ->
  TE (upn (g_name st) n (Some x)) e'.
Proof.
  intros (S1 & S2 & S3 & S4 & S5) (T1 & T2) Hn Hnn Hh Hval x Hx Hv Hfr.
  assert (Hfresh : forall m, home m = None -> g_name st m <> Some x). { intros m Hm Hx'. destruct (S1 m x Hx' Hm) as (_ & Hlt). cbn in Hlt. lia. }
  split.
  - intros m md y Hm Hvm Hhm Hy Ht. destruct (decide (m = n)) as [->|Hne].
    + rewrite upn_eq in Hy. injection Hy as <-. exists v. done.
    + rewrite upn_ne in Hy by done. destruct (T1 m md y Hm Hvm Hhm Hy) as (w & Hw & Aw).
      { intros Ht'. apply Ht. apply (touched_mono (g_name st)); [by apply mono_upn|done]. }
      exists w. split; [|done]. destruct (Hfr y) as [->|[->|(b & Hb & Hbo & Hby)]]; [done|by apply Hfresh in Hy|].
      exfalso. apply Ht. left. exists n. rewrite upn_eq. split; [|done]. assert (b = m) by (by apply (S2 b m y)). by subst b.
  - intros L ld m i y HL HLn Hu Hy. assert (Hctl : is_ctl (n_kind ld) /\ n_args ld !! i = Some (N m)). { destruct Hu as (ld' & HL' & H1 & _ & H2). rewrite HL in HL'. by injection HL' as <-. }
    assert (HnL : L <> n). { intros ->. rewrite HL in Hn. injection Hn as ->. destruct Hctl as (Hctl & _). by destruct (n_kind nd). }
    rewrite upn_ne in HLn by done. assert (Hin : N m ∈ n_args ld) by (apply (elem_of_list_lookup_2 _ i), Hctl).
    assert (Hmn : m <> n). { intros ->. apply (S5 L ld n HL (proj1 Hctl) HLn Hin). done. }
    rewrite upn_ne in Hy by done. destruct (wf_ctl _ _ _ Hwf L ld HL (proj1 Hctl)) as (HhL & _).
    destruct (wf_top _ _ _ Hwf L ld m HL HhL ltac:(apply elem_of_app; by left)) as (Hhm & _).
    destruct (T2 L ld m i y HL HLn Hu Hy) as (vs & w & Ha & Hi & Hw). exists vs, w. split; [done|]. split; [done|].
    destruct (Hfr y) as [->|[->|(b & Hb & Hbo & Hby)]]; [done|by apply Hfresh in Hy|].
    exfalso. assert (b = m) by (by apply (S2 b m y)). subst b. destruct Hbo as (nd' & Hn' & Hk' & Hb0). rewrite Hn in Hn'. injection Hn' as <-.
    assert (Hus : uses G n m). { exists nd. split; [done|]. apply elem_of_app. left. by apply (elem_of_list_lookup_2 _ 0). }
    destruct (proj1 (proj2 Hex) L m i n nd Hu Hn Hus) as [E|[[E _]|[p E]]]; [by symmetry in E|by rewrite Hk' in E|by rewrite Hh in E].
Qed.

(** Functions with several results *)
Lemma name_outs_in names x i outs k o : NoDup outs -> outs !! k = Some o -> name_outs names x i outs o = Some (mkV (v_pre x) (v_num x) (Some (i + k))).
Proof.
  intros Hnd. revert names i k. induction outs as [|o' outs IH]; intros names i k Hk; [done|]. apply NoDup_cons in Hnd as [Hn Hnd]. cbn [name_outs]. destruct k as [|k].
  - cbn in Hk. injection Hk as ->. clear IH. rewrite Nat.add_0_r.
    assert (H : forall names i, o ∉ outs -> name_outs names x i outs o = names o). { clear. induction outs as [|o' outs IH]; intros names i Hn; [done|]. cbn [name_outs]. apply not_elem_of_cons in Hn as [? ?]. rewrite IH by done. by apply upn_ne. }
    rewrite H by done. apply upn_eq.
  - cbn in Hk. rewrite (IH Hnd _ _ k Hk). by replace (S i + k) with (i + S k) by lia.
Qed.
Lemma name_outs_out names x i outs o : o ∉ outs -> name_outs names x i outs o = names o.
Proof. revert names i. induction outs as [|o' outs IH]; intros names i Hn; [done|]. cbn [name_outs]. apply not_elem_of_cons in Hn as [? ?]. rewrite IH by done. by apply upn_ne. Qed.
Lemma setm_in e x f i vs (ks : list nat) y : let xs := (fun k => mkV (v_pre x) (v_num x) (Some k)) <$> seq i (length ks) in
  (forall k, k < length ks -> y = mkV (v_pre x) (v_num x) (Some (i + k)) -> setm appm e xs f i vs y = Some (appm f (i + k) vs)) /\
  ((forall k, k < length ks -> y <> mkV (v_pre x) (v_num x) (Some (i + k))) -> setm appm e xs f i vs y = e y).
Proof.
  revert e i. induction ks as [|o ks IH]; intros e i; cbn [length seq fmap list_fmap setm]; [split; [lia|done]|].
  destruct (IH (setv e (mkV (v_pre x) (v_num x) (Some i)) (appm f i vs)) (S i)) as (I1 & I2). split.
  - intros [|k] Hk ->.
    + etransitivity; [apply I2; intros k _ [=]; lia|]. rewrite Nat.add_0_r. apply setv_eq.
    + specialize (I1 k ltac:(lia)). replace (S i + k) with (i + S k) in I1 by lia. by apply I1.
  - intros Hne. etransitivity; [apply I2|].
    2: { apply setv_ne. specialize (Hne 0 ltac:(lia)). by rewrite Nat.add_0_r in Hne. }
    intros k Hk E. apply (Hne (S k) ltac:(lia)). by replace (i + S k) with (S i + k) by lia.
Qed.
Lemma multi_case st e n nd f outs us ks lvl code : TS st -> TE (g_name st) e -> G !! n = Some nd -> n_kind nd = KMulti f outs -> g_name st n = None ->
  Forall2 (refof (g_name st)) (n_args nd ++ n_named nd) (us ++ ks) ->
  let x := mkV None (g_ctr st) None in let names := name_outs (upn (g_name st) n (Some x)) x 0 outs in
  TS (mkG names lvl (S (g_ctr st)) code) /\ mono (g_name st) names /\ names n = Some x /\ (forall m, m <> n -> m ∉ outs -> names m = g_name st m) /\
  exists e', exec (SMulti ((fun i => mkV None (g_ctr st) (Some i)) <$> seq 0 (length outs)) f (us ++ ks)) e = Some e' /\ TE names e'.
Proof.
  intros HS HE Hn Hk Hnn HR x names. pose proof HS as (S1 & S2 & S3 & S4 & S5). destruct (wf_multi _ _ _ Hwf n nd f outs Hn Hk) as (Hh & Hsrc & Hnd & Hout).
  assert (Hon : n ∉ outs). { intros Hin. destruct (Hout n Hin) as (_ & od & op & Hod & Hko & _). rewrite Hn in Hod. injection Hod as <-. by rewrite Hk in Hko. }
  assert (Hnn2 : names n = Some x) by (unfold names; rewrite name_outs_out by done; apply upn_eq).
  assert (Hoth : forall m, m <> n -> m ∉ outs -> names m = g_name st m) by (intros m H1 H2; unfold names; rewrite name_outs_out by done; by apply upn_ne).
  assert (Hok : forall k o, outs !! k = Some o -> names o = Some (mkV None (g_ctr st) (Some k))) by (intros k o Ho; unfold names; by apply (name_outs_in _ x 0)).
  assert (Houn : forall o, o ∈ outs -> g_name st o = None). { intros o Ho. destruct (g_name st o) as [y|] eqn:E; [|done]. exfalso. apply (proj1 (S4 n nd f outs o Hn Hk Ho)); [by rewrite E|done]. }
  assert (Hcase : forall m y, names m = Some y -> (m = n /\ y = x) \/ (exists k, outs !! k = Some m /\ y = mkV None (g_ctr st) (Some k)) \/ (m <> n /\ m ∉ outs /\ g_name st m = Some y)).
  { intros m y Hy. destruct (decide (m = n)) as [->|Hne]; [left; split; [done|congruence]|]. destruct (decide (m ∈ outs)) as [Hin|Hin]; [|right; right; by rewrite Hoth in Hy].
    right. left. apply elem_of_list_lookup in Hin as [k Hm]. exists k. split; [done|]. rewrite (Hok k m Hm) in Hy. by injection Hy as <-. }
  assert (Hmono : mono (g_name st) names). { intros m y Hy. rewrite Hoth; [done| |]; [intros ->; by rewrite Hnn in Hy|intros Hin; by rewrite Houn in Hy]. }
  assert (Hs : forall m, g_name st m <> None -> names m <> None). { intros m Hm. destruct (g_name st m) as [y|] eqn:E; [|done]. by rewrite (Hmono m y E). }
  split; [|split; [done|split; [done|split; [done|]]]].
  { split; [|split; [|split; [|split]]]; cbn [g_name g_ctr].
    - intros m y Hy Hm. destruct (Hcase m y Hy) as [(_ & ->)|[(k & _ & ->)|(_ & _ & Hy')]]; [cbn; split; [done|lia]|cbn; split; [done|lia]|]. destruct (S1 m y Hy' Hm). split; [done|lia].
    - intros m m' y Hy Hy' Hm Hm'. destruct (Hcase m y Hy) as [(-> & ->)|[(k & Hk1 & ->)|(_ & _ & Hy1)]]; destruct (Hcase m' _ Hy') as [(-> & E)|[(k' & Hk2 & E)|(_ & _ & Hy2)]].
      + done.
      + done.
      + destruct (S1 m' _ Hy2 Hm') as (_ & Hlt). cbn in Hlt. lia.
      + done.
      + injection E as <-. congruence.
      + destruct (S1 m' _ Hy2 Hm') as (_ & Hlt). cbn in Hlt. lia.
      + subst y. destruct (S1 m _ Hy1 Hm) as (_ & Hlt). cbn in Hlt. lia.
      + subst y. destruct (S1 m _ Hy1 Hm) as (_ & Hlt). cbn in Hlt. lia.
      + by apply (S2 m m' y).
    - intros m L p Hm HL. apply Hs, (S3 m L p); [|done]. rewrite <- Hoth; [done|intros ->; by rewrite Hh in HL|]. intros Hin. destruct (Hout m Hin) as (Hhm & _). by rewrite Hhm in HL.
    - intros M md f' outs' o HM HkM Ho. destruct (decide (M = n)) as [->|HMn].
      + rewrite HM in Hn. injection Hn as ->. rewrite Hk in HkM. injection HkM as <- <-. rewrite Hnn2. apply elem_of_list_lookup in Ho as [k Ho]. rewrite (Hok k o Ho). done.
      + destruct (wf_multi _ _ _ Hwf M md f' outs' HM HkM) as (_ & _ & _ & HoutM). destruct (HoutM o Ho) as (_ & od & op & Hod & Hko & Hsrco).
        rewrite (Hoth M), (Hoth o); [by apply (S4 M md f' outs')| | |done|].
        * intros ->. rewrite Hn in Hod. injection Hod as <-. by rewrite Hk in Hko.
        * intros Hin. destruct (Hout o Hin) as (_ & od' & op' & Hod' & _ & Hsrco'). congruence.
        * intros Hin. destruct (Hout M Hin) as (_ & od' & op' & Hod' & Hko' & _). rewrite HM in Hod'. injection Hod' as <-. by rewrite HkM in Hko'.
    - intros L ld c HL Hctl HLn Hin. apply Hs, (S5 L ld c HL Hctl); [|done]. rewrite <- Hoth; [done| |].
      + intros ->. rewrite Hn in HL. injection HL as <-. by rewrite Hk in Hctl.
      + intros Hin'. destruct (Hout L Hin') as (_ & od' & op' & Hod' & Hko' & _). rewrite HL in Hod'. injection Hod' as <-. by rewrite Hko' in Hctl. }
  destruct (arg_vals (g_name st) e n nd (n_args nd ++ n_named nd) (us ++ ks) HE Hn Hh ltac:(by rewrite Hk) Hnn ltac:(done) HR) as (vs & Ev & Hvs).
  eexists. split; [cbn [PyModel.exec]; rewrite Ev; cbn [mbind option_bind]; done|].
  assert (Hset : forall y, v_num y < g_ctr st -> setm appm e ((fun i => mkV None (g_ctr st) (Some i)) <$> seq 0 (length outs)) f 0 vs y = e y).
  { intros y Hy. apply (proj2 (setm_in e x f 0 vs outs y)). intros k _ ->. cbn in Hy. lia. }
  destruct HE as (T1 & T2). split.
  - intros m md y Hm Hvm Hhm Hy Ht. destruct (Hcase m y Hy) as [(-> & ->)|[(k & Hk1 & ->)|(Hmn & Hmo & Hy')]].
    + rewrite Hn in Hm. injection Hm as <-. by rewrite Hk in Hvm.
    + exists (appm f k vs). split; [apply (proj1 (setm_in e x f 0 vs outs _) k); [by apply lookup_lt_Some in Hk1|done]|].
      destruct (Hout m) as (_ & od & op & Hod & Hko & Hsrco); [by apply (elem_of_list_lookup_2 _ k)|]. intros fu Hfu. cbn in Hfu. destruct fu as [|fu]; [lia|]. cbn [PySpec.darg PySpec.den]. cbn [nothing]. unfold nothing at 1.
      rewrite Hod. cbn [mbind option_bind]. rewrite Hsrco, Hn. cbn [mbind option_bind]. rewrite Hk.
      rewrite (pos_of_first m outs k Hk1); [|intros j Hj Hj2; pose proof (NoDup_lookup _ _ _ _ Hnd Hj2 Hk1); lia]. cbn [mbind option_bind].
      change (mapM _ _) with (mapM (darg fu nothing) (n_args nd ++ n_named nd)). rewrite (avals_mapM lit app appm upd truth range bound G rank nothing _ vs fu Hvs); [done|].
      intros [b|t] Hb; [|done]. destruct (wf_deps _ _ _ Hwf n nd b Hn) as (_ & Hr); [left; rewrite app_assoc; apply elem_of_app; by left|]. destruct (wf_deps _ _ _ Hwf m od n Hod) as (_ & Hr2); [by right|]. cbn. lia.
    + destruct (T1 m md y Hm Hvm Hhm Hy') as (w & Hw & Aw); [intros Ht'; apply Ht; by apply (touched_mono (g_name st))|]. exists w. split; [|done]. rewrite Hset; [done|]. by apply (S1 m).
  - intros L ld m i y HL HLn Hu Hy. assert (Hctl : is_ctl (n_kind ld) /\ n_args ld !! i = Some (N m)). { destruct Hu as (ld' & HL' & H1 & _ & H2). rewrite HL in HL'. by injection HL' as <-. }
    assert (HLn' : g_name st L <> None).
    { rewrite <- Hoth; [done| |].
      + intros ->. rewrite Hn in HL. injection HL as <-. destruct Hctl as (Hctl & _). by rewrite Hk in Hctl.
      + intros Hin'. destruct (Hout L Hin') as (_ & od' & op' & Hod' & Hko' & _). rewrite HL in Hod'. injection Hod' as <-. destruct Hctl as (Hctl & _). by rewrite Hko' in Hctl. }
    assert (Hin : N m ∈ n_args ld) by (apply (elem_of_list_lookup_2 _ i), Hctl). pose proof (S5 L ld m HL (proj1 Hctl) HLn' Hin) as Hm. destruct (wf_ctl _ _ _ Hwf L ld HL (proj1 Hctl)) as (HhL & _).
    destruct (wf_top _ _ _ Hwf L ld m HL HhL ltac:(apply elem_of_app; by left)) as (Hhm & _).
    destruct (g_name st m) as [z|] eqn:Ez; [|done]. pose proof (Hmono m z Ez) as Hy2. rewrite Hy in Hy2. injection Hy2 as <-.
    destruct (T2 L ld m i y HL HLn' Hu Ez) as (ws & w & Ha & Hi & Hw). exists ws, w. split; [done|]. split; [done|]. rewrite Hset; [done|]. by apply (S1 m).
Qed.

(** Control structures *)
Lemma ctl_case st e n nd us ks f : TS st -> TE (g_name st) e -> G !! n = Some nd -> is_ctl (n_kind nd) -> g_name st n = None -> rank n <= f ->
  Forall2 (refof (g_name st)) (n_args nd) us -> Forall2 (refof (g_name st)) (n_named nd) ks ->
  let x := mkV None (g_ctr st) None in let st1 := mkG (upn (g_name st) n (Some x)) (g_lvl st) (S (g_ctr st)) (g_code st) in
  exists code st' e', code_line (dfs f) n nd x us ks st1 = Some (code, st') /\ g_code st' = g_code st /\ TS st' /\ mono (g_name st) (g_name st') /\ g_name st' n = Some x /\
    (forall m, g_name st m = None -> g_name st' m <> None -> rank m <= rank n) /\ execs e code = Some e' /\ TE (g_name st') e'.
Proof.
  intros HS HE Hn Hctl Hnn Hf HU HK x st1. destruct (wf_ctl _ _ _ Hwf n nd Hn Hctl) as (Hh & Hsrc & up & outer & Ha & Hlen & Hnd & Hup & Huo).
  assert (Hmo : ~ multi_out n). { intros (M & md & g & outs & HM & HkM & Ho). destruct (wf_multi _ _ _ Hwf M md g outs HM HkM) as (_ & _ & _ & Hout). destruct (Hout n Ho) as (_ & od & op & Hod & Hko & _). rewrite Hn in Hod. injection Hod as <-. by rewrite Hko in Hctl. }
  assert (Hargn : forall c, N c ∈ n_args nd -> g_name st c <> None).
  { intros c Hc. apply elem_of_list_lookup in Hc as [k Hc]. destruct (Forall2_lookup_l _ _ _ _ _ HU Hc) as (r & _ & y & Hy & _). by rewrite Hy. }
  assert (HS1 : TS st1). { apply (TS_new st n nd); try done. intros g outs E. by rewrite E in Hctl. }
  assert (Hm1 : mono (g_name st) (g_name st1)) by (by apply mono_upn).
  pose proof HS1 as (S1 & S2 & S3 & S4 & S5).
  destruct (arg_vals (g_name st) e n nd (n_args nd) us HE Hn Hh ltac:(intros E; by rewrite E in Hctl) Hnn ltac:(intros a Hin; apply elem_of_app; by left) HU) as (vs & Ev & Hvs).
  destruct (arg_vals (g_name st) e n nd (n_named nd) ks HE Hn Hh ltac:(intros E; by rewrite E in Hctl) Hnn ltac:(intros a Hin; apply elem_of_app; by right) HK) as (kvs & Ekv & Hkvs).
  apply (refs_mono _ _ _ _ Hm1) in HU, HK. rewrite Ha in HU. apply Forall2_app_inv_l in HU as (u1 & ro & Hu1 & Hro & ->). apply refs_vars in Hu1 as (xs & -> & Hxs).
  assert (Hhb : forall c, binds nd c -> home c = None).
  { intros c [Hc|Hc]; [apply (wf_top _ _ _ Hwf n nd c Hn Hh); apply elem_of_app; by left|]. destruct (n_kind nd); try done. apply (wf_top _ _ _ Hwf n nd c Hn Hh). apply elem_of_app. right. by apply elem_of_list_lookup_2 in Hc. }
  assert (Hbn : forall c, binds nd c -> g_name st1 c <> None).
  { intros c [Hc|Hc]; [pose proof (Hargn c Hc) as Hc2; destruct (g_name st c) as [y|] eqn:E; [|done]; by rewrite (Hm1 c y E)|]. destruct (n_kind nd); try done.
    destruct (Forall2_lookup_l _ _ _ _ _ HK Hc) as (r & _ & y & Hy & _). by rewrite Hy. }
  assert (Hun : forall m p, home m = Some (n, p) -> g_name st1 m = None).
  { intros m p Hm. destruct (g_name st1 m) as [y|] eqn:E; [|done]. exfalso. assert (m <> n) by (intros ->; by rewrite Hh in Hm). cbn [st1 g_name] in E. rewrite upn_ne in E by done.
    destruct HS as (_ & _ & S3' & _). apply (S3' m n p); [by rewrite E|done|done]. }
  assert (Hpre : forall m y, g_name st1 m = Some y -> home m = None -> v_pre y = None) by (intros m y Hy Hm; by apply (S1 m y)).
  assert (Hmain : forall ci code st', gen_ok rank home n st1 st' -> run_ok lit app appm upd truth range bound G rank n nd (num_upd (n_kind nd)) xs e ci code ->
    (forall i y, ci = Some (i, y) -> counter_of G n i /\ g_name st1 i = Some y /\ home i = None) ->
    exists e', g_code st' = g_code st /\ TS st' /\ mono (g_name st) (g_name st') /\ g_name st' n = Some x /\
    (forall m, g_name st m = None -> g_name st' m <> None -> rank m <= rank n) /\ execs e code = Some e' /\ TE (g_name st') e').
  { intros ci code st' (G1 & G2 & G3 & G4 & G5) (e' & cur & Ex & (L1 & L2 & L3) & Haft) Hci. exists e'. split; [by rewrite G2|].
    assert (Hsame : forall m, home m = None -> g_name st' m = g_name st1 m) by (intros m Hm; apply G4; intros p; by rewrite Hm).
    assert (Hnn' : g_name st' n = Some x) by (rewrite Hsame by done; cbn; apply upn_eq).
    assert (Hs : forall m, g_name st1 m <> None -> g_name st' m <> None). { intros m Hm. destruct (g_name st1 m) as [y|] eqn:E; [|done]. by rewrite (G3 m y E). }
    split; [|split; [by apply (mono_trans _ (g_name st1))|split; [done|split; [|split; [done|]]]]].
    - split; [|split; [|split; [|split]]].
      + intros m y Hy Hm. rewrite Hsame in Hy by done. rewrite G1. by apply (S1 m).
      + intros m m' y Hy Hy' Hm Hm'. rewrite Hsame in Hy, Hy' by done. by apply (S2 m m' y).
      + intros m L p Hm HL. destruct (decide (L = n)) as [->|Hne]; [by rewrite Hnn'|]. apply Hs, (S3 m L p); [|done]. rewrite <- G4; [done|]. intros p' E. rewrite HL in E. by injection E as -> ->.
      + intros M md g outs o HM HkM Ho. destruct (wf_multi _ _ _ Hwf M md g outs HM HkM) as (HhM & _ & _ & Hout). destruct (Hout o Ho) as (Hho & _). rewrite !Hsame by done. by apply (S4 M md g outs).
      + intros L ld c HL Hc HLn Hin. apply Hs, (S5 L ld c HL Hc); [|done]. destruct (wf_ctl _ _ _ Hwf L ld HL Hc) as (HhL & _). by rewrite <- Hsame.
    - intros m Hm1' Hm2. destruct (decide (m = n)) as [->|Hne]; [done|]. apply Nat.lt_le_incl, G5; [|done]. cbn. by rewrite upn_ne.
    - destruct HE as (T1 & T2). assert (Hxu : forall y, y ∈ xs -> exists m i, updated_by G n m i /\ g_name st1 m = Some y /\ home m = None).
      { intros y [k Hy]%elem_of_list_lookup. destruct (Forall2_lookup_r _ _ _ _ _ Hxs Hy) as (m & Hm & Em). exists m, k. assert (Hk : n_args nd !! k = Some (N m)) by (rewrite Ha; apply lookup_app_l_Some; by rewrite list_lookup_fmap, Hm).
        split; [exists nd; split; [done|]; split; [done|]; split; [rewrite <- Hlen; by apply lookup_lt_Some in Hm|done]|]. split; [done|]. apply Hhb. left. by apply (elem_of_list_lookup_2 _ k). }
      assert (Hframe : forall m y, home m = None -> g_name st1 m = Some y -> (forall i, ~ updated_by G n m i) -> ~ counter_of G n m -> e' y = e y).
      { intros m y Hm Hy Hnu Hnc. apply L3; [by apply (Hpre m)| |].
        - intros Hin. destruct (Hxu y Hin) as (m' & i & Hu & Hy' & Hm'). assert (m = m') by (by apply (S2 m m' y)). subst m'. by apply (Hnu i).
        - intros i Ei. destruct (Hci i y Ei) as (Hc & Hy' & Hi). assert (m = i) by (by apply (S2 m i y)). by subst i. }
      split.
      + intros m md y Hm Hvm Hhm Hy Ht. rewrite Hsame in Hy by done. assert (Hmn : m <> n) by (intros ->; rewrite Hn in Hm; injection Hm as <-; by destruct (n_kind nd)).
        assert (Hy' : g_name st m = Some y) by (cbn in Hy; by rewrite upn_ne in Hy).
        destruct (T1 m md y Hm Hvm Hhm Hy') as (w & Hw & Aw); [intros Ht'; apply Ht; apply (touched_mono (g_name st)); [by apply (mono_trans _ (g_name st1))|done]|].
        exists w. split; [|done]. rewrite (Hframe m y Hhm Hy); [done| |].
        * intros i Hu. apply Ht. right. left. exists n, i. by rewrite Hnn'.
        * intros Hc. apply Ht. right. right. exists n. by rewrite Hnn'.
      + intros L ld m i y HL HLn Hu Hy. assert (Hctl2 : is_ctl (n_kind ld) /\ i < num_upd (n_kind ld) /\ n_args ld !! i = Some (N m)). { destruct Hu as (ld' & HL' & H1 & H0 & H2). rewrite HL in HL'. by injection HL' as <-. }
        destruct Hctl2 as (Hc2 & Hi2 & Hm2). destruct (wf_ctl _ _ _ Hwf L ld HL Hc2) as (HhL & _). assert (Hin : N m ∈ n_args ld) by (by apply (elem_of_list_lookup_2 _ i)).
        destruct (wf_top _ _ _ Hwf L ld m HL HhL ltac:(apply elem_of_app; by left)) as (Hhm & _). rewrite Hsame in Hy by done. rewrite Hsame in HLn by done.
        destruct (decide (L = n)) as [->|HLne].
        * rewrite Hn in HL. injection HL as <-. assert (Hum : up !! i = Some m). { rewrite Ha, lookup_app_l in Hm2 by (rewrite fmap_length; lia). rewrite list_lookup_fmap in Hm2. destruct (up !! i); [|done]. cbn in Hm2. by injection Hm2 as ->. }
          destruct (Forall2_lookup_l _ _ _ _ _ Hxs Hum) as (z & Hz & Ez). rewrite Hy in Ez. injection Ez as <-.
          destruct (lookup_lt_is_Some_2 cur i) as [v Hv]; [lia|]. exists cur, v. split; [done|]. split; [done|]. by rewrite (L2 i y Hz).
        * cbn in HLn. rewrite upn_ne in HLn by done. assert (Hus : uses G L m). { exists ld. split; [done|]. apply elem_of_app. by left. }
          assert (Hmn : m <> n). { intros ->. destruct HS as (_ & _ & _ & _ & S5'). apply (S5' L ld n HL Hc2 HLn Hin). done. }
          assert (Hy' : g_name st m = Some y) by (cbn in Hy; by rewrite upn_ne in Hy).
          destruct (T2 L ld m i y HL HLn Hu Hy') as (ws & w & Haf & Hi & Hw). exists ws, w. split; [done|]. split; [done|]. destruct Hex as (_ & X2 & X3). rewrite (Hframe m y Hhm Hy); [done| |].
          -- intros j Hu2. destruct (X2 n m j L ld Hu2 HL Hus) as [?|[[E _]|[p E]]]; [done|by rewrite E in Hc2|by rewrite HhL in E].
          -- intros Hc. destruct (X3 n m L Hc Hus) as [?|[p E]]; [done|by rewrite HhL in E]. }
  assert (Hup' : forall z, z ∈ up -> N z ∉ outer). { intros z Hz Hz2. apply (Hup z Hz). apply elem_of_app. by left. }
  destruct (n_kind nd) as [| | | |nc outs|nc th el|nc c outs|nc c outs] eqn:Hk; try done.
  - destruct (wf_for _ _ _ Hwf n nd nc outs Hn Hk) as (a & b & s & i & Hnm & Hni). rewrite Hnm in HK, Hkvs.
    inversion HK as [|? ra ? ? Ra HK1]; subst. inversion HK1 as [|? rb ? ? Rb HK2]; subst. inversion HK2 as [|? rs ? ? Rs HK3]; subst. inversion HK3 as [|? ri ? ? Ri HK4]; subst. inversion HK4; subst. clear HK HK1 HK2 HK3 HK4.
    destruct Ri as (y & Hy & ->). inversion Hkvs as [|? va ? ? Va HV1]; subst. inversion HV1 as [|? vb ? ? Vb HV2]; subst. inversion HV2 as [|? vw ? ? Vw HV3]; subst. inversion HV3 as [|? vi ? ? Vi HV4]; subst. inversion HV4; subst. clear Hkvs HV1 HV2 HV3 HV4.
    unfold PyModel.evals in Ekv. cbn [mapM] in Ekv. destruct (evalr e ra) as [va'|] eqn:Ea; [|done]. destruct (evalr e rb) as [vb'|] eqn:Eb; [|done]. destruct (evalr e rs) as [vw'|] eqn:Es; [|done]. cbn in Ekv. destruct (e y) as [vy|]; [|done]. cbn in Ekv. injection Ekv as -> -> -> ->.
    assert (Hbi : binds nd i). { right. rewrite Hk, Hnm. done. }
    destruct (line_for lit app appm upd truth range bound G rank home Hwf Hsw n nd Hn nc ltac:(by rewrite Hk) up outer Ha Hlen Hnd Hup' (g_name st1) Hpre S2 Hhb ltac:(by rewrite Hk) xs ro Hxs Hro vs e Ev
      (Some (i, y)) ltac:(split; [done|split; [by apply Hhb|intros Hin; apply Hni; apply elem_of_app; by left]])) with (f := f) (st := st1) (x := x) (outs := outs) (a := a) (b := b) (s := s) (i := i) (y := y) (ra := ra) (rb := rb) (rs := rs) (va := va) (vb := vb) (vw := vw)
      as (code & st' & El & Hgen & Hrun); try done.
    + intros c [Hc|Hc]; [by left|]. right. rewrite Hk, Hnm in Hc. cbn in Hc. injection Hc as ->. by exists y.
    + by rewrite Hk.
    + destruct (Hmain (Some (i, y)) code st' Hgen Hrun) as (e' & He'); [intros i' y' [= <- <-]; split; [by exists nd, nc, outs; rewrite Hnm|split; [done|by apply Hhb]]|]. by exists code, st', e'.
  - destruct (wf_cond _ _ _ Hwf n nd nc th el Hn Hk) as (c & Hnm). rewrite Hnm in HK, Hkvs.
    inversion HK as [|? rc ? ? Rc HK1]; subst. inversion HK1; subst. clear HK HK1. inversion Hkvs as [|? vc ? ? Vc HV1]; subst. inversion HV1; subst. clear Hkvs HV1.
    unfold PyModel.evals in Ekv. cbn [mapM] in Ekv. destruct (evalr e rc) as [vc'|] eqn:Ec; [|done]. cbn in Ekv. injection Ekv as ->.
    destruct (line_cond lit app appm upd truth range bound G rank home Hwf Hsw n nd Hn nc ltac:(by rewrite Hk) up outer Ha Hlen Hnd Hup' (g_name st1) Hpre S2 Hhb ltac:(by rewrite Hk) xs ro Hxs Hro vs e Ev
      None I) with (f := f) (st := st1) (x := x) (th := th) (el := el) (c := c) (rc := rc) (vc := vc) as (code & st' & El & Hgen & Hrun); try done.
    + intros c' [Hc|Hc]; [by left|]. by rewrite Hk in Hc.
    + by rewrite Hk.
    + destruct (Hmain None code st' Hgen Hrun ltac:(done)) as (e' & He'). by exists code, st', e'.
  - pose proof (wf_while _ _ _ Hwf n nd Hn) as Hnm. rewrite Hk in Hnm. rewrite Hnm in HK. inversion HK; subst.
    destruct (line_loop lit app appm upd truth range bound G rank home Hwf Hsw n nd Hn nc ltac:(by rewrite Hk) up outer Ha Hlen Hnd Hup' (g_name st1) Hpre S2 Hhb ltac:(by rewrite Hk) xs ro Hxs Hro vs e Ev
      None I) with (f := f) (st := st1) (x := x) (c := c) (outs := outs) as (code & st' & El & Hgen & Hrun); try done.
    + intros c' [Hc|Hc]; [by left|]. by rewrite Hk in Hc.
    + by rewrite Hk.
    + by rewrite Hk.
    + by rewrite Hk.
    + by apply (Hterm n nd Hn); rewrite Hk.
    + by left.
    + destruct (Hmain None code st' Hgen Hrun ltac:(done)) as (e' & He'). by exists code, st', e'.
  - pose proof (wf_while _ _ _ Hwf n nd Hn) as Hnm. rewrite Hk in Hnm. rewrite Hnm in HK. inversion HK; subst.
    destruct (line_loop lit app appm upd truth range bound G rank home Hwf Hsw n nd Hn nc ltac:(by rewrite Hk) up outer Ha Hlen Hnd Hup' (g_name st1) Hpre S2 Hhb ltac:(by rewrite Hk) xs ro Hxs Hro vs e Ev
      None I) with (f := f) (st := st1) (x := x) (c := c) (outs := outs) as (code & st' & El & Hgen & Hrun); try done.
    + intros c' [Hc|Hc]; [by left|]. by rewrite Hk in Hc.
    + by rewrite Hk.
    + by rewrite Hk.
    + by rewrite Hk.
    + by apply (Hterm n nd Hn); rewrite Hk.
    + by right.
    + destruct (Hmain None code st' Hgen Hrun ltac:(done)) as (e' & He'). by exists code, st', e'.
Qed.

(** The search *)
Lemma src_top n nd m : G !! n = Some nd -> home n = None -> n_src nd = Some m -> home m = None.
Proof.
  intros Hn Hh Hs. destruct (n_kind nd) eqn:Hk.
  - destruct (wf_op _ _ _ Hwf n nd _ m Hn Hk Hs) as (_ & _ & md & f & outs & Hm & Hkm & _). exact (proj1 (wf_multi _ _ _ Hwf m md f outs Hm Hkm)).
  - destruct (wf_copy _ _ _ Hwf n nd Hn Hk) as (_ & _ & L & x & i & Hs' & _ & ld & HL & Hc & _). rewrite Hs in Hs'. injection Hs' as ->. exact (proj1 (wf_ctl _ _ _ Hwf L ld HL Hc)).
  - destruct (wf_left _ _ _ Hwf n nd Hn Hk) as (_ & _ & Hs' & _). congruence.
  - destruct (wf_multi _ _ _ Hwf n nd _ _ Hn Hk) as (_ & Hs' & _). congruence.
  - destruct (wf_ctl _ _ _ Hwf n nd Hn ltac:(by rewrite Hk)) as (_ & Hs' & _). congruence.
  - destruct (wf_ctl _ _ _ Hwf n nd Hn ltac:(by rewrite Hk)) as (_ & Hs' & _). congruence.
  - destruct (wf_ctl _ _ _ Hwf n nd Hn ltac:(by rewrite Hk)) as (_ & Hs' & _). congruence.
  - destruct (wf_ctl _ _ _ Hwf n nd Hn ltac:(by rewrite Hk)) as (_ & Hs' & _). congruence.
Qed.
Lemma not_multi n nd : G !! n = Some nd -> n_src nd = None \/ (forall op, n_kind nd <> KOp op) -> ~ multi_out n.
Proof.
  intros Hn Hs (M & md & f & outs & HM & HkM & Ho). destruct (wf_multi _ _ _ Hwf M md f outs HM HkM) as (_ & _ & _ & Hout). destruct (Hout n Ho) as (_ & od & op & Hod & Hko & Hso).
  rewrite Hn in Hod. injection Hod as <-. destruct Hs as [Hs|Hs]; [congruence|by apply (Hs op)].
Qed.
Lemma top_dfs fuel : forall n st e, is_Some (G !! n) -> home n = None -> rank n < fuel -> TS st -> TE (g_name st) e -> exists r st' e', dfs fuel None (N n) st = Some (r, st') /\ top_ok [N n] [r] st e st' e'.
Proof.
  induction fuel as [|f IH]; intros n st e [nd Hn] Hh Hr HS HE; [lia|]. cbn [PyModel.dfs]. rewrite Hn. cbn [mbind option_bind].
  destruct (g_name st n) as [x|] eqn:Ex.
  { exists (RV x), st, e. split; [done|]. split; [done|]. split; [constructor; [by exists x|constructor]|]. split; [apply mono_refl|]. split; [by intros m ->|]. split; [done|]. exists []. split; [by rewrite app_nil_r|done]. }
  assert (Hdep : forall c, N c ∈ n_args nd ++ n_named nd -> is_Some (G !! c) /\ rank c < rank n).
  { intros c Hc. destruct (wf_deps _ _ _ Hwf n nd c Hn) as (Hl & Hrk); [left; rewrite app_assoc; apply elem_of_app; by left|]. split; [by apply lookup_lt_is_Some_2|done]. }
  assert (Hsrc : exists l0 r0 st0 e0, (match n_src nd with Some m => snd <$> dfs f None (N m) st | None => Some st end) = Some st0 /\ top_ok l0 r0 st e st0 e0 /\
    l0 = match n_src nd with Some m => [N m] | None => [] end).
  { destruct (n_src nd) as [m|] eqn:Es; [|exists [], [], st, e; split; [done|]; split; [by apply top_ok_refl|done]].
    destruct (wf_deps _ _ _ Hwf n nd m Hn ltac:(by right)) as (Hl & Hrk). destruct (IH m st e) as (r & st0 & e0 & E0 & O0); [by apply lookup_lt_is_Some_2|by apply (src_top n nd)|lia|done|done|].
    exists [N m], [r], st0, e0. split; [by rewrite E0|]. done. }
  destruct Hsrc as (l0 & r0 & st0 & e0 & -> & O0 & El0). cbn [mbind option_bind].
  assert (Hg : forall l, (forall a, a ∈ l -> a ∈ n_args nd ++ n_named nd) -> forall st e, TS st -> TE (g_name st) e -> exists rs st' e', gen_list (dfs f None) l st = Some (rs, st') /\ top_ok l rs st e st' e').
  { intros l Hl. apply gen_list_top. intros [c|t] st1 e1 Hin H1 H2.
    - apply Hl in Hin. destruct (Hdep c Hin) as (Hc & Hrk). apply IH; [done|by apply (wf_top _ _ _ Hwf n nd c Hn Hh)|lia|done|done].
    - exists (RL t), st1, e1. split; [by destruct f|]. destruct (top_ok_refl st1 e1 H1 H2) as (A & _ & B & _ & D & E). split; [done|]. split; [by repeat constructor|]. split; [done|]. split; [by intros m ->|]. done. }
  destruct (Hg (n_args nd) ltac:(intros a Ha; apply elem_of_app; by left) st0 e0 (proj1 O0) ltac:(by apply O0)) as (us & st1 & e1 & E1 & O1). rewrite E1. cbn [mbind option_bind].
  destruct (Hg (n_named nd) ltac:(intros a Ha; apply elem_of_app; by right) st1 e1 (proj1 O1) ltac:(by apply O1)) as (ks & st2 & e2 & E2 & O2). rewrite E2. cbn [mbind option_bind]. clear E1 E2 Hg.
  pose proof (top_ok_trans _ _ _ _ _ _ _ _ _ _ O1 O2) as O12. pose proof (top_ok_trans _ _ _ _ _ _ _ _ _ _ O0 O12) as (HS2 & HR2 & HM2 & HN2 & HE2 & c & Hc & Hx).
  assert (HR : Forall2 (refof (g_name st2)) (n_args nd ++ n_named nd) (us ++ ks)) by apply O12. assert (HRk : Forall2 (refof (g_name st2)) (n_named nd) ks) by apply O2.
  assert (HRu : Forall2 (refof (g_name st2)) (n_args nd) us) by (apply (refs_mono (g_name st1)); [apply O2|apply O1]).
  assert (HR0 : forall m, n_src nd = Some m -> g_name st2 m <> None).
  { intros m Em. rewrite Em in El0. subst l0. apply Forall2_app_inv_l in HR2 as (ra & rb & Hra & _ & _). inversion Hra as [|a1 a2 a3 a4 Hy0 a5]; subst. destruct Hy0 as (z & Hz & _). by rewrite Hz. }
  assert (Hnew : forall m, g_name st m = None -> g_name st2 m <> None -> exists b, rank b < rank n /\ (rank m <= rank b \/ exists M md f outs, G !! M = Some md /\ n_kind md = KMulti f outs /\ m ∈ outs /\ rank M <= rank b)).
  { intros m H1 H2. destruct (HN2 m H1 H2) as (b & Hb & Hrb). exists b. split; [|done]. apply elem_of_app in Hb as [Hb|Hb]; [|by apply Hdep].
    subst l0. destruct (n_src nd) as [m'|] eqn:Es; [|by apply elem_of_nil in Hb]. apply elem_of_list_singleton in Hb. injection Hb as ->. apply (wf_deps _ _ _ Hwf n nd m' Hn). by right. }
  assert (Hnew2 : newly [N n] (g_name st) (g_name st2)).
  { intros m H1 H2. destruct (Hnew m H1 H2) as (b & Hb & Hrb). exists n. split; [by left|]. destruct Hrb as [?|(M & md & g & outs & ? & ? & ? & ?)]; [left; lia|right; exists M, md, g, outs; repeat split; try done; lia]. }
  destruct (g_name st2 n) as [x|] eqn:Ex2.
  { exists (RV x), st2, e2. split; [done|]. split; [done|]. split; [constructor; [by exists x|constructor]|]. split; [done|]. split; [done|]. split; [done|]. by exists c. }
  set (x := mkV None (g_ctr st2) None). set (st3 := mkG (upn (g_name st2) n (Some x)) (g_lvl st2) (S (g_ctr st2)) (g_code st2)).
  assert (Hm3 : mono (g_name st) (upn (g_name st2) n (Some x))) by (apply (mono_trans _ (g_name st2)); [done|by apply mono_upn]).
  assert (Hnew3 : newly [N n] (g_name st) (upn (g_name st2) n (Some x))).
  { intros m H1 H2. destruct (decide (m = n)) as [->|Hne]; [exists n; split; [by left|]; by left|]. rewrite upn_ne in H2 by done. by apply Hnew2. }
  (* values *)
  assert (Hvalue : forall cd e3 v, is_val (n_kind nd) -> ~ multi_out n -> code_line (dfs f) n nd x us ks st3 = Some (cd, st3) -> execs e2 cd = Some e3 -> e3 x = Some v -> aval nothing (N n) v ->
    (forall y, e3 y = e2 y \/ y = x \/ exists b, home b = None /\ base_of G n b /\ g_name st2 b = Some y) ->
    exists r st' e', (c ← code_line (dfs f) n nd x us ks st3; let '(code, st) := c in Some (RV x, mkG (g_name st) (g_lvl st) (g_ctr st) (g_code st ++ code))) = Some (r, st') /\ top_ok [N n] [r] st e st' e').
  { intros cd e3 v Hval Hmo Ecl Ex3 Hx3 Hav Hfr. rewrite Ecl. cbn [mbind option_bind st3 g_name g_lvl g_ctr g_code]. eexists _, _, e3. split; [done|]. split.
    - apply (TS_new st2 n nd); try done; [intros g outs E; by rewrite E in Hval|]. intros Hctl. by destruct (n_kind nd).
    - cbn [g_name g_code]. split; [constructor; [exists x; split; [apply upn_eq|done]|constructor]|]. split; [done|]. split; [done|]. split; [by apply (TE_new st2 n nd e2 e3 v)|].
      exists (c ++ cd). split; [by rewrite Hc, app_assoc|]. rewrite execs_app, Hx. done. }
  destruct (n_kind nd) as [op| | |g outs|nc outs|nc th el|nc cc outs|nc cc outs] eqn:Hk.
  - destruct (n_src nd) as [m|] eqn:Es.
    { exfalso. destruct (wf_op _ _ _ Hwf n nd op m Hn Hk Es) as (_ & _ & md & g & outs & Hm & Hkm & Hin). destruct HS2 as (_ & _ & _ & S4 & _). by apply (proj2 (S4 m md g outs n Hm Hkm Hin)); [by apply HR0|]. }
    destruct (arg_vals (g_name st2) e2 n nd (n_args nd ++ n_named nd) (us ++ ks) HE2 Hn Hh ltac:(by rewrite Hk) Ex2 ltac:(done) HR) as (vs & Ev & Hvs).
    apply (Hvalue [SAssign x op (us ++ ks)] (setv e2 x (app op vs)) (app op vs)).
    + done.
    + apply (not_multi n nd Hn). by left.
    + unfold code_line. by rewrite Hk.
    + rewrite execs_one. cbn [PyModel.exec]. by rewrite Ev.
    + apply setv_eq.
    + intros fu Hfu. cbn in Hfu. destruct fu as [|fu]; [lia|]. cbn [PySpec.darg PySpec.den]. unfold nothing at 1. rewrite Hn. cbn [mbind option_bind]. rewrite Es, Hk. change (mapM _ _) with (mapM (darg fu nothing) (n_args nd ++ n_named nd)).
      rewrite (avals_mapM lit app appm upd truth range bound G rank nothing _ vs fu Hvs); [done|]. intros [b|t] Ha; [|done]. cbn. apply Hdep in Ha. lia.
    + intros y. destruct (decide (y = x)) as [->|?]; [right; by left|]. left. by apply setv_ne.
  - destruct (wf_copy _ _ _ Hwf n nd Hn Hk) as (_ & Hnm & L & z & i & Es & Ea & Hu). rewrite Ea in HRu. inversion HRu as [|a1 r a3 a4 Hy0 HRn]; subst us. destruct Hy0 as (y & Hy & ->). inversion HRn; subst. clear HRn.
    pose proof Hu as (ld & HL & Hcl & Hi & Hz). pose proof (HR0 L Es) as HLn. destruct (proj2 HE2 L ld z i y HL HLn Hu Hy) as (ws & w & Haf & Hwi & Hw).
    apply (Hvalue [SCopy x (RV y)] (setv e2 x w) w).
    + done.
    + apply (not_multi n nd Hn). right. by rewrite Hk.
    + unfold code_line. by rewrite Hk.
    + rewrite execs_one. cbn. by rewrite Hw.
    + apply setv_eq.
    + intros fu Hfu. cbn in Hfu. destruct fu as [|fu]; [lia|]. destruct (wf_deps _ _ _ Hwf n nd L Hn ltac:(by right)) as (_ & HrL). cbn [PySpec.darg PySpec.den]. unfold nothing at 1. rewrite Hn. cbn [mbind option_bind]. rewrite Es, HL. cbn [mbind option_bind].
      destruct (wf_ctl _ _ _ Hwf L ld HL Hcl) as (_ & _ & up & outer & HaL & Hlen & Hnd & _).
      assert (Hpos : pos_of (N z) (n_args ld) = Some i).
      { apply pos_of_first; [done|]. intros j Hj Hj2. rewrite HaL, lookup_app_l in Hj2, Hz by (rewrite fmap_length; lia). rewrite list_lookup_fmap in Hj2, Hz. destruct (up !! i) as [u1|] eqn:Eu1; [|done]. destruct (up !! j) as [u2|] eqn:Eu2; [|done]. cbn in Hz, Hj2. injection Hz as ->. injection Hj2 as ->. pose proof (NoDup_lookup _ _ _ _ Hnd Eu1 Eu2). lia. }
      change (PySpec.after truth range bound _ nothing ld) with (after (darg fu) nothing ld). rewrite Haf by lia. rewrite Ea, Hpos. cbn [mbind option_bind]. rewrite Hwi. by destruct (n_kind ld).
    + intros y'. destruct (decide (y' = x)) as [->|?]; [right; by left|]. left. by apply setv_ne.
  - destruct (wf_left _ _ _ Hwf n nd Hn Hk) as (_ & Hnm & Es & b & w & idx & Ea & Hbn).
    destruct (arg_vals (g_name st2) e2 n nd (n_args nd) us HE2 Hn Hh ltac:(by rewrite Hk) Ex2 ltac:(intros a Hin; apply elem_of_app; by left) HRu) as (vs & Ev & Hvs).
    pose proof Hvs as Hvs'. rewrite Ea in HRu, Hvs. inversion HRu as [|a1 rb a3 a4 Hy0 HRu1]; subst. destruct Hy0 as (yb & Hyb & ->). inversion HRu1 as [|? rw ? rx Hrw Hrx]; subst. clear HRu HRu1.
    inversion Hvs as [|? vb ? ? Vb HV1]; subst. inversion HV1 as [|? vw ? vi Vw Vi]; subst. clear HV1.
    unfold PyModel.evals in Ev. cbn [mapM] in Ev. cbn in Ev. destruct (e2 yb) as [vb'|] eqn:Eb; [|done]. cbn in Ev. destruct (evalr e2 rw) as [vw'|] eqn:Ew; [|done]. cbn in Ev. destruct (mapM (evalr e2) rx) as [vi'|] eqn:Ei; [|done]. cbn in Ev. injection Ev as -> -> ->.
    assert (Hhb : home b = None) by (apply (wf_top _ _ _ Hwf n nd b Hn Hh); apply elem_of_app; left; rewrite Ea; by left).
    assert (Hyx : yb <> x). { intros ->. destruct HS2 as (S1 & _). destruct (S1 b x Hyb Hhb) as (_ & Hlt). cbn in Hlt. lia. }
    apply (Hvalue [SLeft yb rx rw; SCopy x (RV yb)] (setv (setv e2 yb (upd vb vw vi)) x (upd vb vw vi)) (upd vb vw vi)).
    + done.
    + apply (not_multi n nd Hn). by left.
    + unfold code_line. by rewrite Hk.
    + unfold PyModel.execs. cbn [foldo PyModel.exec]. rewrite Eb. cbn [mbind option_bind]. unfold PyModel.evals. rewrite Ei. cbn [mbind option_bind]. rewrite Ew. cbn [mbind option_bind PyModel.evalr]. rewrite setv_eq. done.
    + apply setv_eq.
    + intros fu Hfu. cbn in Hfu. destruct fu as [|fu]; [lia|]. cbn [PySpec.darg PySpec.den]. unfold nothing at 1. rewrite Hn. cbn [mbind option_bind]. rewrite Es, Hk, Ea.
      assert (Hfok : forall a, a ∈ N b :: w :: idx -> fok rank fu a). { intros [c'|t] Hin; [|done]. rewrite <- Ea in Hin. destruct (Hdep c') as (_ & ?); [apply elem_of_app; by left|]. cbn. lia. }
      pose proof (Vb fu ltac:(apply Hfok; by left)) as Vb'. cbn in Vb'. rewrite Vb'. cbn [mbind option_bind].
      pose proof (Vw fu ltac:(apply Hfok; right; by left)) as Vw'. change (match w with N m => den fu nothing m | Lit t => Some (lit t) end) with (darg fu nothing w). rewrite Vw'. cbn [mbind option_bind].
      change (mapM _ idx) with (mapM (darg fu nothing) idx). rewrite (avals_mapM lit app appm upd truth range bound G rank nothing _ vi fu Vi); [done|]. intros a Hin. apply Hfok. right. by right.
    + intros y. destruct (decide (y = x)) as [->|?]; [right; by left|]. destruct (decide (y = yb)) as [->|?].
      * right. right. exists b. split; [done|]. split; [|done]. exists nd. split; [done|]. split; [done|]. by rewrite Ea.
      * left. rewrite !setv_ne by done. done.
  - destruct (wf_multi _ _ _ Hwf n nd g outs Hn Hk) as (_ & _ & _ & Hout).
    destruct (multi_case st2 e2 n nd g outs us ks (g_lvl st2) (g_code st2 ++ [SMulti ((fun i => mkV None (g_ctr st2) (Some i)) <$> seq 0 (length outs)) g (us ++ ks)]) HS2 HE2 Hn Hk Ex2 HR) as (A & B & Cn & D & e3 & Ex3 & HE3).
    unfold code_line. rewrite Hk. cbn [mbind option_bind g_name g_lvl g_ctr g_code st3]. eexists _, _, e3. split; [done|]. split; [exact A|]. cbn [g_name g_code].
    split; [constructor; [exists x; split; [exact Cn|done]|constructor]|]. split; [by apply (mono_trans _ (g_name st2))|]. split.
    { intros m H1 H2. exists n. split; [by left|]. destruct (decide (m = n)) as [->|Hne]; [by left|]. destruct (decide (m ∈ outs)) as [Hin|Hin]; [right; by exists n, nd, g, outs|].
      rewrite D in H2 by done. destruct (Hnew2 m H1 H2) as (b & Hb & Hrb). apply elem_of_list_singleton in Hb. injection Hb as ->. done. }
    split; [exact HE3|]. eexists. split; [rewrite Hc, <- app_assoc; done|]. rewrite execs_app, Hx. cbn [mbind option_bind]. rewrite execs_one. exact Ex3.
  - destruct (ctl_case st2 e2 n nd us ks f HS2 HE2 Hn ltac:(by rewrite Hk) Ex2 ltac:(lia) HRu HRk) as (code & st' & e3 & El & Gc & A & B & Cn & D & Ex3 & HE3). fold x st3 in El. rewrite El. cbn [mbind option_bind].
    eexists _, _, e3. split; [done|]. split; [exact A|]. cbn [g_name g_code]. split; [constructor; [exists x; split; [exact Cn|done]|constructor]|]. split; [by apply (mono_trans _ (g_name st2))|]. split.
    { intros m H1 H2. destruct (g_name st2 m) as [y|] eqn:E; [apply Hnew2; [done|by rewrite E]|]. exists n. split; [by left|]. left. by apply D. }
    split; [exact HE3|]. exists (c ++ code). split; [by rewrite Gc, Hc, app_assoc|]. rewrite execs_app, Hx. exact Ex3.
  - destruct (ctl_case st2 e2 n nd us ks f HS2 HE2 Hn ltac:(by rewrite Hk) Ex2 ltac:(lia) HRu HRk) as (code & st' & e3 & El & Gc & A & B & Cn & D & Ex3 & HE3). fold x st3 in El. rewrite El. cbn [mbind option_bind].
    eexists _, _, e3. split; [done|]. split; [exact A|]. cbn [g_name g_code]. split; [constructor; [exists x; split; [exact Cn|done]|constructor]|]. split; [by apply (mono_trans _ (g_name st2))|]. split.
    { intros m H1 H2. destruct (g_name st2 m) as [y|] eqn:E; [apply Hnew2; [done|by rewrite E]|]. exists n. split; [by left|]. left. by apply D. }
    split; [exact HE3|]. exists (c ++ code). split; [by rewrite Gc, Hc, app_assoc|]. rewrite execs_app, Hx. exact Ex3.
  - destruct (ctl_case st2 e2 n nd us ks f HS2 HE2 Hn ltac:(by rewrite Hk) Ex2 ltac:(lia) HRu HRk) as (code & st' & e3 & El & Gc & A & B & Cn & D & Ex3 & HE3). fold x st3 in El. rewrite El. cbn [mbind option_bind].
    eexists _, _, e3. split; [done|]. split; [exact A|]. cbn [g_name g_code]. split; [constructor; [exists x; split; [exact Cn|done]|constructor]|]. split; [by apply (mono_trans _ (g_name st2))|]. split.
    { intros m H1 H2. destruct (g_name st2 m) as [y|] eqn:E; [apply Hnew2; [done|by rewrite E]|]. exists n. split; [by left|]. left. by apply D. }
    split; [exact HE3|]. exists (c ++ code). split; [by rewrite Gc, Hc, app_assoc|]. rewrite execs_app, Hx. exact Ex3.
  - destruct (ctl_case st2 e2 n nd us ks f HS2 HE2 Hn ltac:(by rewrite Hk) Ex2 ltac:(lia) HRu HRk) as (code & st' & e3 & El & Gc & A & B & Cn & D & Ex3 & HE3). fold x st3 in El. rewrite El. cbn [mbind option_bind].
    eexists _, _, e3. split; [done|]. split; [exact A|]. cbn [g_name g_code]. split; [constructor; [exists x; split; [exact Cn|done]|constructor]|]. split; [by apply (mono_trans _ (g_name st2))|]. split.
    { intros m H1 H2. destruct (g_name st2 m) as [y|] eqn:E; [apply Hnew2; [done|by rewrite E]|]. exists n. split; [by left|]. left. by apply D. }
    split; [exact HE3|]. exists (c ++ code). split; [by rewrite Gc, Hc, app_assoc|]. rewrite execs_app, Hx. exact Ex3.
Qed.
End py.
