(** Proofs about the generation of scripts: the bodies of callbacks. *)
From stdpp Require Import base numbers list strings.
From Coq Require Import Lia.
From Verif Require Import CppBase PyModel PySpec.

Lemma foldo_app {A B} (f : A -> B -> option A) a l1 l2 : foldo f a (l1 ++ l2) = a' ← foldo f a l1; foldo f a' l2.
Proof. revert a. induction l1 as [|b l1 IH]; intros a; [done|]. cbn. destruct (f a b) as [a'|]; [|done]. cbn. apply IH. Qed.
Lemma pos_of_first {A} `{EqDecision A} (a : A) (l : list A) i : l !! i = Some a -> (forall j, j < i -> l !! j <> Some a) -> pos_of a l = Some i.
Proof.
  intros Hi Hj. unfold pos_of. assert (E : list_find (eq a) l = Some (i, a)); [|by rewrite E].
  apply list_find_Some. split; [done|]. split; [done|]. intros j y Hy Hlt E. subst y. by apply (Hj j).
Qed.
Lemma pos_of_in {A} `{EqDecision A} (a : A) (l : list A) : a ∈ l -> exists i, pos_of a l = Some i /\ l !! i = Some a /\ forall j, j < i -> l !! j <> Some a.
Proof.
  intros Hin. destruct (list_find_elem_of (eq a) l a Hin eq_refl) as ([i y] & E). exists i. unfold pos_of. rewrite E. split; [done|].
  apply list_find_Some in E as (E & -> & Hj). split; [done|]. intros j Hlt E'. by apply (Hj j _ E' Hlt).
Qed.
Lemma pos_of_none {A} `{EqDecision A} (a : A) (l : list A) : a ∉ l -> pos_of a l = None.
Proof. intros Hn. unfold pos_of. destruct (list_find (eq a) l) as [[i y]|] eqn:E; [|done]. apply list_find_Some in E as (E & -> & _). apply elem_of_list_lookup_2 in E. done. Qed.
Lemma upn_eq {A} (f : nat -> A) n a : upn f n a n = a.
Proof. unfold upn. by rewrite decide_True. Qed.
Lemma upn_ne {A} (f : nat -> A) n m a : m <> n -> upn f n a m = f m.
Proof. intros. unfold upn. by rewrite decide_False. Qed.
Lemma setv_eq {V} (e : @env V) x v : setv e x v x = Some v.
Proof. unfold setv. by rewrite decide_True. Qed.
Lemma setv_ne {V} (e : @env V) x y v : y <> x -> setv e x v y = e y.
Proof. intros. unfold setv. by rewrite decide_False. Qed.

(** What the input [a] is called. *)
Definition refof (names : nat -> option var) (a : arg) (r : ref) : Prop :=
  match a with Lit t => r = RL t | N n => exists x, names n = Some x /\ r = RV x end.
Definition mono (n1 n2 : nat -> option var) : Prop := forall n x, n1 n = Some x -> n2 n = Some x.
Lemma refof_mono n1 n2 a r : mono n1 n2 -> refof n1 a r -> refof n2 a r.
Proof. intros Hm. destruct a as [n|t]; [|done]. intros (x & Hx & ->). exists x. split; [by apply Hm|done]. Qed.
Lemma refs_mono n1 n2 l rs : mono n1 n2 -> Forall2 (refof n1) l rs -> Forall2 (refof n2) l rs.
Proof. intros Hm HF. apply (Forall2_impl _ _ _ _ HF). intros a r. by apply refof_mono. Qed.
Lemma mono_refl n1 : mono n1 n1.
Proof. by intros n x. Qed.
Lemma mono_trans n1 n2 n3 : mono n1 n2 -> mono n2 n3 -> mono n1 n3.
Proof. intros H1 H2 n x Hx. by apply H2, H1. Qed.

Section py.
Context {V : Type} (lit : string -> V) (app : string -> list V -> V) (appm : string -> nat -> list V -> V) (upd : V -> V -> list V -> V)
  (truth : V -> bool) (range : V -> V -> option V -> list V) (bound : nat) (G : graph) (rank : nat -> nat) (home : nat -> option (nat * nat)).
Notation exec := (exec lit app appm upd truth range bound).
Notation execs := (execs lit app appm upd truth range bound).
Notation den := (den lit app appm upd truth range bound G).
Notation darg := (darg lit app appm upd truth range bound G).
Notation evalr := (evalr lit).
Notation evals := (evals lit).
Notation dfs := (dfs G).
Context (Hwf : wf_graph G rank home).

Lemma execs_app e c1 c2 : execs e (c1 ++ c2) = e' ← execs e c1; execs e' c2.
Proof. apply foldo_app. Qed.
Lemma execs_one e s : execs e [s] = exec s e.
Proof. unfold PyModel.execs. cbn. by destruct (exec s e). Qed.
Definition fok (fu : nat) (a : arg) : Prop := match a with N n => rank n < fu | Lit _ => True end.
(** The input [a] has the value [v]. *)
Definition aval (ρ : nat -> option V) (a : arg) (v : V) : Prop := forall fu, fok fu a -> darg fu ρ a = Some v.
Lemma aval_lit ρ t : aval ρ (Lit t) (lit t).
Proof. done. Qed.
Lemma avals_mapM ρ l vs fu : Forall2 (aval ρ) l vs -> (forall a, a ∈ l -> fok fu a) -> mapM (darg fu ρ) l = Some vs.
Proof.
  induction 1 as [|a v l vs Ha Hl IH]; intros Hr; [done|]. cbn. rewrite (Ha fu) by (apply Hr; left). cbn. rewrite IH; [done|]. intros b Hb. apply Hr. by right.
Qed.

(** * Callback [h] of the control structure [ld], in a script with prefix [q] *)
Section body.
Context (h : nat * nat) (q : nat * nat) (ld : node) (HL : G !! h.1 = Some ld).
Definition inscope (a : arg) : Prop := match a with Lit _ => True | N c => is_Some (G !! c) /\ (home c = Some h \/ binds ld c) end.
(** Names are unique; nodes that are given have names of the outer script. *)
Definition SI (st : gst) : Prop :=
  (forall n x, g_name st n = Some x -> home n = Some h -> v_pre x = Some q /\ v_num x < g_ctr st /\ v_idx x = None) /\
  (forall n n' x, g_name st n = Some x -> g_name st n' = Some x -> home n = Some h -> home n' = Some h -> n = n') /\
  (forall c, binds ld c -> home c = None /\ exists x, g_name st c = Some x /\ v_pre x = None).
(** The variables have the values of their nodes. *)
Definition EI (names : nat -> option var) (ρ : nat -> option V) (e : env) : Prop :=
  forall n x, names n = Some x -> (home n = Some h \/ binds ld n) -> exists v, e x = Some v /\ aval ρ (N n) v.
Definition RI (ρ : nat -> option V) : Prop := (forall n, home n = Some h -> ρ n = None).

Lemma EI_refs names ρ e l rs : EI names ρ e -> Forall inscope l -> Forall2 (refof names) l rs -> exists vs, evals e rs = Some vs /\ Forall2 (aval ρ) l vs.
Proof.
  intros HE Hl. revert rs. induction Hl as [|a l Ha Hl IH]; intros rs Hr; inversion Hr as [|? r ? rs' Har Hrs]; subst; [by exists []|].
  destruct (IH rs' Hrs) as (vs & Ev & Hvs).
  assert (Hv : exists v, evalr e r = Some v /\ aval ρ a v).
  { destruct a as [n|t]; cbn in Har; [|subst; exists (lit t); split; [done|apply aval_lit]].
    destruct Har as (x & Hx & ->). apply (HE n x Hx (proj2 Ha)). }
  destruct Hv as (v & Er & Hav). exists (v :: vs). split; [|by constructor]. unfold PyModel.evals in *. cbn. rewrite Er. cbn. rewrite Ev. done.
Qed.

(** The result of a search: code that computes the values. *)
Definition body_ok (a : list arg) (rs : list ref) (st st' : gst) : Prop :=
  SI st' /\ Forall2 (refof (g_name st')) a rs /\ mono (g_name st) (g_name st') /\ (forall n, home n <> Some h -> g_name st' n = g_name st n) /\ g_ctr st <= g_ctr st' /\
  (forall m, g_name st m = None -> g_name st' m <> None -> exists b, N b ∈ a /\ rank m <= rank b) /\
  exists c, g_code st' = g_code st ++ c /\
    forall ρ e, RI ρ -> EI (g_name st) ρ e -> exists e', execs e c = Some e' /\ EI (g_name st') ρ e' /\ (forall y, v_pre y <> Some q -> e' y = e y) /\ (forall y, e y <> None -> e' y <> None).
Lemma body_ok_refl st : SI st -> body_ok [] [] st st.
Proof. intros H. split; [done|]. split; [constructor|]. split; [apply mono_refl|]. split; [done|]. split; [lia|]. split; [by intros m ->|]. exists []. split; [by rewrite app_nil_r|]. intros ρ e _ HE. by exists e. Qed.
Lemma body_ok_trans l1 l2 r1 r2 st1 st2 st3 : body_ok l1 r1 st1 st2 -> body_ok l2 r2 st2 st3 -> body_ok (l1 ++ l2) (r1 ++ r2) st1 st3.
Proof.
  intros (S1 & R1 & M1 & F1 & C1 & N1 & c1 & E1 & X1) (S2 & R2 & M2 & F2 & C2 & N2 & c2 & E2 & X2).
  split; [done|]. split; [apply Forall2_app; [by apply (refs_mono (g_name st2))|done]|]. split; [by apply (mono_trans _ (g_name st2))|]. split; [intros n Hn; by rewrite F2, F1|]. split; [lia|]. split.
  { intros m H1 H3. destruct (g_name st2 m) as [x|] eqn:H2.
    - destruct (N1 m H1 ltac:(by rewrite H2)) as (b & Hb & Hr). exists b. split; [|done]. apply elem_of_app. by left.
    - destruct (N2 m H2 H3) as (b & Hb & Hr). exists b. split; [|done]. apply elem_of_app. by right. }
  exists (c1 ++ c2). split; [by rewrite E2, E1, app_assoc|]. intros ρ e Hρ HE. destruct (X1 ρ e Hρ HE) as (e1 & Ex1 & HE1 & P1 & D1). destruct (X2 ρ e1 Hρ HE1) as (e2 & Ex2 & HE2 & P2 & D2).
  exists e2. split; [rewrite execs_app, Ex1; done|]. split; [done|]. split; [intros y Hy; by rewrite P2, P1|]. intros y Hy. by apply D2, D1.
Qed.
Lemma gen_list_ok (g : arg -> gst -> option (ref * gst)) l : (forall a st, a ∈ l -> SI st -> exists r st', g a st = Some (r, st') /\ body_ok [a] [r] st st') ->
  forall st, SI st -> exists rs st', gen_list g l st = Some (rs, st') /\ body_ok l rs st st'.
Proof.
  induction l as [|a l IH]; intros Hg st Hst.
  - exists [], st. split; [done|]. by apply body_ok_refl.
  - destruct (Hg a st ltac:(left) Hst) as (r & st1 & E1 & O1). destruct (IH ltac:(intros b st0 Hb; apply Hg; by right) st1 (proj1 O1)) as (rs & st2 & E2 & O2).
    exists (r :: rs), st2. split; [cbn; rewrite E1; cbn; rewrite E2; done|]. by apply (body_ok_trans [a] l [r] rs _ st1).
Qed.

Lemma SI_same st st0 : g_name st0 = g_name st -> g_ctr st0 = g_ctr st -> SI st -> SI st0.
Proof. intros E1 E2. unfold SI. by rewrite E1, E2. Qed.
Lemma body_dfs fuel : forall a st, inscope a -> fok fuel a -> SI st -> exists r st', dfs fuel (Some q) a st = Some (r, st') /\ body_ok [a] [r] st st'.
Proof.
  induction fuel as [|f IH]; intros a st Hin Hr Hst; (destruct a as [n|t]; cbn [PyModel.dfs];
    [|exists (RL t), st; split; [done|]; destruct (body_ok_refl st Hst) as (A & _ & B & C & D & _ & F); split; [done|]; split; [by repeat constructor|]; split; [done|]; split; [done|]; split; [done|]; split; [by intros m ->|done]]); [cbn in Hr; lia|].
  cbn [fok] in Hr. destruct Hin as ([nd Hn] & Hin). rewrite Hn. cbn [mbind option_bind].
  set (st0 := match n_src nd with Some m => _ | None => st end).
  assert (Hsame : g_name st0 = g_name st /\ g_ctr st0 = g_ctr st /\ g_code st0 = g_code st) by (unfold st0; by destruct (n_src nd)).
  destruct Hsame as (HsN & HsC & HsK). rewrite HsN.
  destruct (g_name st n) as [x|] eqn:Ex.
  { exists (RV x), st0. split; [done|]. split; [by apply (SI_same st)|]. split; [constructor; [|constructor]; exists x; by rewrite HsN|]. rewrite HsN. split; [apply mono_refl|]. split; [done|]. split; [lia|].
    split; [by intros m ->|]. exists []. split; [by rewrite app_nil_r|]. intros ρ e _ HE. by exists e. }
  destruct Hin as [Hh|Hb]; [|destruct (proj2 (proj2 Hst) n Hb) as (_ & x & Hx & _); by rewrite Hx in Ex].
  assert (Eh : h = (h.1, h.2)) by (by destruct h). pose proof Hh as Hh'. rewrite Eh in Hh'.
  destruct (wf_body _ _ _ Hwf n nd _ _ Hn Hh') as ((op & Hk) & Hsrc & Hch). unfold st0. rewrite Hsrc. cbn [mbind option_bind]. clear st0 HsN HsC HsK.
  assert (Hdep : forall c, N c ∈ n_args nd ++ n_named nd -> is_Some (G !! c) /\ rank c < rank n).
  { intros c Hc. destruct (wf_deps _ _ _ Hwf n nd c Hn) as (Hl & Hrk); [left; rewrite app_assoc; apply elem_of_app; by left|]. split; [by apply lookup_lt_is_Some_2|done]. }
  assert (Hsc : Forall inscope (n_args nd ++ n_named nd)).
  { apply Forall_forall. intros [c|t] Ha; [|done]. split; [by apply Hdep|]. destruct (Hch c Ha) as [?|(ld' & Hld' & ?)]; [left; by rewrite Eh|]. right. rewrite HL in Hld'. by injection Hld' as ->. }
  assert (Hg : forall l, (forall a, a ∈ l -> a ∈ n_args nd ++ n_named nd) -> forall st, SI st -> exists rs st', gen_list (dfs f (Some q)) l st = Some (rs, st') /\ body_ok l rs st st').
  { intros l Hl. apply gen_list_ok. intros a st1 Ha H1. apply IH; [|destruct a as [c|t]; cbn; [apply Hl, Hdep in Ha; lia|done]|done].
    by apply (proj1 (Forall_forall _ _) Hsc), Hl. }
  destruct (Hg (n_args nd) ltac:(intros a Ha; apply elem_of_app; by left) st Hst) as (us & st1 & E1 & O1). rewrite E1. cbn [mbind option_bind].
  destruct (Hg (n_named nd) ltac:(intros a Ha; apply elem_of_app; by right) st1 (proj1 O1)) as (ks & st2 & E2 & O2). rewrite E2. cbn [mbind option_bind].
  pose proof (body_ok_trans _ _ _ _ _ _ _ O1 O2) as (HS & HR & HM & HF & HC & HN & c & Hcode & HX). clear O1 O2 Hg E1 E2.
  destruct (g_name st2 n) as [x|] eqn:Ex2.
  { destruct (HN n Ex ltac:(by rewrite Ex2)) as (b & Hb & Hrk). apply Hdep in Hb. lia. }
  unfold code_line. rewrite Hk. cbn [mbind option_bind]. eexists _, _. split; [done|].
  set (x := mkV (Some q) (g_ctr st2) None).
  assert (Hmn : mono (g_name st2) (upn (g_name st2) n (Some x))). { intros m y Hm. destruct (decide (m = n)) as [->|?]; [by rewrite Hm in Ex2|]. by rewrite upn_ne. }
  destruct HS as (HS1 & HS2 & HS3).
  assert (Hfresh : forall m, home m = Some h -> g_name st2 m <> Some x). { intros m Hm Hx. destruct (HS1 m x Hx Hm) as (_ & Hlt & _). cbn in Hlt. lia. }
  split; [split; [|split]|split; [|split; [|split; [|split; [|split]]]]]; cbn [g_name g_ctr g_code g_lvl].
  - intros m y. destruct (decide (m = n)) as [->|?]; [rewrite upn_eq; intros [= <-]; cbn; split; [done|split; [lia|done]]|]. rewrite upn_ne by done. intros Hy Hm. destruct (HS1 m y Hy Hm) as (? & ? & ?). split; [done|]. split; [lia|done].
  - intros m m' y. destruct (decide (m = n)) as [->|Hm]; destruct (decide (m' = n)) as [->|Hm']; [done| | |].
    + rewrite upn_eq, upn_ne by done. intros [= <-] Hy _ Hh2. by apply Hfresh in Hy.
    + rewrite upn_eq, upn_ne by done. intros Hy [= <-] Hh2. by apply Hfresh in Hy.
    + rewrite !upn_ne by done. apply HS2.
  - intros b Hb. destruct (HS3 b Hb) as (Hhb & y & Hy & Hp). split; [done|]. exists y. split; [|done]. by apply Hmn.
  - constructor; [|constructor]. exists x. split; [by rewrite upn_eq|done].
  - by apply (mono_trans _ (g_name st2)).
  - intros m Hm. rewrite upn_ne; [by apply HF|]. intros ->. done.
  - lia.
  - intros m Hm1 Hm2. exists n. split; [by left|]. destruct (decide (m = n)) as [->|Hne]; [done|]. rewrite upn_ne in Hm2 by done. destruct (HN m Hm1 Hm2) as (b & Hb & Hrk). apply Hdep in Hb. lia.
  - exists (c ++ [SAssign x op (us ++ ks)]). split; [by rewrite Hcode, app_assoc|]. intros ρ e Hρ HE. destruct (HX ρ e Hρ HE) as (e1 & Ex1 & HE1 & P1 & D1).
    destruct (EI_refs _ _ _ _ _ HE1 Hsc HR) as (vs & Ev & Hvs).
    exists (setv e1 x (app op vs)). split; [rewrite execs_app, Ex1; cbn [mbind option_bind]; rewrite execs_one; cbn [PyModel.exec]; rewrite Ev; done|].
    assert (Hxn : forall m y, g_name st2 m = Some y -> home m = Some h \/ binds ld m -> y <> x).
    { intros m y Hy [Hm|Hm] ->; [by apply Hfresh in Hy|]. destruct (HS3 m Hm) as (_ & z & Hz & Hp). rewrite Hy in Hz. injection Hz as <-. done. }
    split; [|split].
    + intros m y. destruct (decide (m = n)) as [->|Hne].
      * rewrite upn_eq. intros [= <-] _. exists (app op vs). rewrite setv_eq. split; [done|]. intros fu Hfu. cbn in Hfu. destruct fu as [|fu]; [lia|]. cbn [PySpec.darg PySpec.den].
        rewrite (Hρ n Hh), Hn. cbn [mbind option_bind]. rewrite Hsrc, Hk. change (mapM _ _) with (mapM (darg fu ρ) (n_args nd ++ n_named nd)).
        rewrite (avals_mapM ρ _ vs); [done|done|]. intros [b|t] Ha; [|done]. cbn. apply Hdep in Ha. lia.
      * rewrite upn_ne by done. intros Hy Hm. destruct (HE1 m y Hy Hm) as (v & Hv & Hav). exists v. split; [|done]. rewrite setv_ne; [done|]. by apply (Hxn m).
    + intros y Hy. rewrite setv_ne; [by apply P1|]. intros ->. done.
    + intros y Hy. destruct (decide (y = x)) as [->|?]; [by rewrite setv_eq|]. rewrite setv_ne by done. by apply D1.
Qed.
End body.
End py.
