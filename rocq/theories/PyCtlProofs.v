(** Proofs about the generation of scripts: control structures. *)
From stdpp Require Import base numbers list strings.
From Coq Require Import Lia.
From Verif Require Import CppBase PyModel PySpec PyProofs.

Lemma foldo_sim {A B I X} (R : A -> B -> Prop) (P : I -> Prop) (f : A -> X -> option A) (g : I -> B -> X -> option B) l : forall a b, R a b ->
  (forall v a b, R a b -> exists a' b', f a v = Some a' /\ (forall i, P i -> g i b v = Some b') /\ R a' b') ->
  exists a' b', foldo f a l = Some a' /\ (forall i, P i -> foldo (g i) b l = Some b') /\ R a' b'.
Proof.
  induction l as [|v l IH]; intros a b Hab Hs; [by exists a, b|]. destruct (Hs v a b Hab) as (a1 & b1 & Ef & Eg & H1). destruct (IH a1 b1 H1 Hs) as (a2 & b2 & Ef2 & Eg2 & H2).
  exists a2, b2. split; [cbn; by rewrite Ef|]. split; [|done]. intros i Hi. cbn. rewrite (Eg i Hi). cbn. by apply Eg2.
Qed.
Lemma whileo_sim {A B I} (R : A -> B -> Prop) (P : I -> Prop) c (f : A -> option A) c' (g : I -> B -> option B) n : forall a b, R a b ->
  (forall a b, R a b -> exists t, c a = Some t /\ forall i, P i -> c' i b = Some t) ->
  (forall a b, R a b -> exists a' b', f a = Some a' /\ (forall i, P i -> g i b = Some b') /\ R a' b') ->
  (forall i, P i -> whileo n (c' i) (g i) b = None) \/
  exists a' b', whileo n c f a = Some a' /\ (forall i, P i -> whileo n (c' i) (g i) b = Some b') /\ R a' b'.
Proof.
  induction n as [|n IH]; intros a b Hab Hc Hs; destruct (Hc a b Hab) as (t & Ec & Ec').
  - destruct t; [left|right; exists a, b]; cbn; [|rewrite Ec; cbn; split; [done|split; [|done]]]; intros i Hi; rewrite (Ec' i Hi); done.
  - destruct t.
    + destruct (Hs a b Hab) as (a1 & b1 & Ef & Eg & H1). destruct (IH a1 b1 H1 Hc Hs) as [Hn|(a2 & b2 & Ef2 & Eg2 & H2)].
      * left. intros i Hi. cbn. rewrite (Ec' i Hi). cbn. rewrite (Eg i Hi). cbn. by apply Hn.
      * right. exists a2, b2. split; [cbn; rewrite Ec; cbn; by rewrite Ef|]. split; [|done]. intros i Hi. cbn. rewrite (Ec' i Hi). cbn. rewrite (Eg i Hi). cbn. by apply Eg2.
    + right. exists a, b. split; [cbn; by rewrite Ec|]. split; [|done]. intros i Hi. cbn. by rewrite (Ec' i Hi).
Qed.
Lemma mapM_lookup {A B} (f : A -> option B) l k (vs : list B) i a : mapM f l = Some vs -> l !! i = Some a -> k = i -> exists v, vs !! k = Some v /\ f a = Some v.
Proof. intros H Hi ->. apply mapM_Some in H. destruct (Forall2_lookup_l _ _ _ _ _ H Hi) as (v & Hv & E). by exists v. Qed.

Section py.
Context {V : Type} (lit : string -> V) (app : string -> list V -> V) (appm : string -> nat -> list V -> V) (upd : V -> V -> list V -> V)
  (truth : V -> bool) (range : V -> V -> option V -> list V) (bound : nat) (G : graph) (rank : nat -> nat) (home : nat -> option (nat * nat)).
Notation exec := (exec lit app appm upd truth range bound).
Notation execs := (execs lit app appm upd truth range bound).
Notation den := (den lit app appm upd truth range bound G).
Notation darg := (darg lit app appm upd truth range bound G).
Notation evalr := (evalr lit).
Notation evals := (evals lit).
Notation dfs := (dfs G).
Notation aval := (aval lit app appm upd truth range bound G rank).
Notation EI := (EI lit app appm upd truth range bound G rank home).
Context (Hwf : wf_graph G rank home) (Hsw : no_swap G).

(** Assignments one after the other. *)
Lemma assigns_zip xs us' rs : length rs = length xs -> assigns ((RV <$> xs) ++ us') rs = Some (zip_with SCopy xs rs).
Proof. revert rs. induction xs as [|x xs IH]; intros [|r rs] Hl; [by destruct us'|discriminate|discriminate|]. cbn. rewrite IH by (cbn in Hl; lia). done. Qed.
Lemma seq_assign xs rs ws e : NoDup xs -> length rs = length xs -> evals e rs = Some ws -> (forall k j x, rs !! k = Some (RV x) -> xs !! j = Some x -> k <= j) ->
  exists e', execs e (zip_with SCopy xs rs) = Some e' /\ (forall k x, xs !! k = Some x -> e' x = ws !! k) /\ (forall y, y ∉ xs -> e' y = e y).
Proof.
  revert rs ws e. induction xs as [|x xs IH]; intros [|r rs] ws e Hnd Hl Hv Hs; [|discriminate|discriminate|].
  { exists e. split; [done|]. split; [by intros k x|done]. }
  unfold PyModel.evals in Hv. cbn in Hv. destruct (evalr e r) as [w|] eqn:Er; [|done]. cbn in Hv. destruct (mapM (evalr e) rs) as [ws'|] eqn:Es; [|done]. cbn in Hv. injection Hv as <-.
  apply NoDup_cons in Hnd as [Hx Hnd].
  assert (Hes : forall rs ws', (forall k, rs !! k <> Some (RV x)) -> mapM (evalr e) rs = Some ws' -> mapM (evalr (setv e x w)) rs = Some ws').
  { clear. intros rs. induction rs as [|r rs IH]; intros ws' Hr Hm; [done|]. cbn in *. destruct (evalr e r) as [v|] eqn:E; [|done]. cbn in *. destruct (mapM (evalr e) rs) as [vs|] eqn:E2; [|done]. cbn in Hm.
    assert (E3 : evalr (setv e x w) r = Some v). { destruct r as [y|t]; [|done]. cbn in *. rewrite setv_ne; [done|]. intros ->. by apply (Hr 0). }
    rewrite E3. cbn. rewrite (IH vs); [done| |done]. intros k. apply (Hr (S k)). }
  destruct (IH rs ws' (setv e x w)) as (e' & E' & H1 & H2); [done|cbn in Hl; lia| | |].
  { apply Hes; [|done]. intros k Hk. specialize (Hs (S k) 0 x Hk eq_refl). lia. }
  { intros k j y Hk Hj. specialize (Hs (S k) (S j) y Hk Hj). lia. }
  exists e'. split; [unfold PyModel.execs; cbn; rewrite Er; cbn; done|]. split.
  - intros [|k] y Hy; [|by apply H1]. cbn in Hy. injection Hy as <-. rewrite H2 by done. by rewrite setv_eq.
  - intros y Hy. rewrite H2; [|intros Hin; apply Hy; by right]. apply setv_ne. intros ->. apply Hy. by left.
Qed.

Section ctl.
Context (L : nat) (ld : node) (HL : G !! L = Some ld) (nc : nat) (Hnc : nc = num_upd (n_kind ld)) (up : list nat) (outer : list arg)
  (Ha : n_args ld = (N <$> up) ++ outer) (Hlen : length up = nc) (Hnd : NoDup up) (Hup : forall x, x ∈ up -> N x ∉ outer).
Context (names : nat -> option var) (Hpre : forall n x, names n = Some x -> home n = None -> v_pre x = None)
  (Hinj : forall n n' x, names n = Some x -> names n' = Some x -> home n = None -> home n' = None -> n = n').
Context (Hhome : forall c, binds ld c -> home c = None) (Hctl : is_ctl (n_kind ld)).
Context (xs : list var) (ro : list ref) (Hxs : Forall2 (fun n x => names n = Some x) up xs) (Hro : Forall2 (refof names) outer ro).
Context (vs : list V) (e0 : @env V) (Hvs : evals e0 ((RV <$> xs) ++ ro) = Some vs).
Context (ci : option (nat * var)) (Hci : match ci with Some (i, y) => names i = Some y /\ home i = None /\ N i ∉ n_args ld | None => True end)
  (Hbinds : forall c, binds ld c -> N c ∈ n_args ld \/ exists y, ci = Some (c, y)).
Definition ext_l : list arg := match ci with Some (i, _) => [N i] | None => [] end.
Definition LI (cur : list V) (e : @env V) : Prop :=
  length cur = nc /\ (forall k x, xs !! k = Some x -> e x = cur !! k) /\ (forall y, v_pre y = None -> y ∉ xs -> (forall i, ci <> Some (i, y)) -> e y = e0 y).
Definition ext (w : list V) (e : @env V) : Prop := match ci with Some (_, y) => exists v, w = [v] /\ e y = Some v | None => w = [] end.
Definition bnd (cur w : list V) : nat -> option V := given (n_args ld ++ ext_l) (cur ++ drop nc vs ++ w) nothing.

Lemma Lxs : length xs = nc.
Proof. by rewrite <- (Forall2_length _ _ _ Hxs). Qed.
Lemma xs_up k x : xs !! k = Some x -> exists n, up !! k = Some n /\ names n = Some x /\ home n = None.
Proof.
  intros Hx. destruct (Forall2_lookup_r _ _ _ _ _ Hxs Hx) as (n & Hn & E). exists n. split; [done|]. split; [done|]. apply Hhome. left. rewrite Ha. apply elem_of_app. left. apply elem_of_list_fmap. exists n. split; [done|]. by apply elem_of_list_lookup_2 in Hn.
Qed.
Lemma xs_pre x : x ∈ xs -> v_pre x = None.
Proof. intros [k Hk]%elem_of_list_lookup. apply xs_up in Hk as (n & _ & Hn & Hh). by apply (Hpre n). Qed.
Lemma xs_NoDup : NoDup xs.
Proof.
  apply NoDup_alt. intros i j x Hi Hj. apply xs_up in Hi as (n & Hn & Nn & Hhn). apply xs_up in Hj as (m & Hm & Nm & Hhm).
  assert (n = m) by (by apply (Hinj n m x)). subst m. by apply (NoDup_lookup _ _ _ _ Hnd Hn Hm).
Qed.
Lemma ci_pre i y : ci = Some (i, y) -> v_pre y = None /\ y ∉ xs.
Proof.
  intros E. rewrite E in Hci. destruct Hci as (H1 & H2 & H3). split; [by apply (Hpre i)|]. intros [k Hk]%elem_of_list_lookup. apply xs_up in Hk as (n & Hn & Nn & Hhn).
  assert (n = i) by (by apply (Hinj n i y)). subst n. apply H3. rewrite Ha. apply elem_of_app. left. apply elem_of_list_fmap. exists i. split; [done|]. by apply elem_of_list_lookup_2 in Hn.
Qed.
Lemma len_vs : length vs = length (n_args ld).
Proof. apply mapM_length in Hvs. rewrite <- Hvs, Ha, !app_length, !fmap_length, Lxs, Hlen. by rewrite (Forall2_length _ _ _ Hro). Qed.

Lemma LI_same cur e e' : LI cur e -> (forall y, v_pre y = None -> e' y = e y) -> LI cur e'.
Proof.
  intros (H1 & H2 & H3) Hs. split; [done|]. split.
  - intros k x Hx. rewrite Hs; [by apply H2|]. by apply xs_pre, (elem_of_list_lookup_2 _ k).
  - intros y Hy Hn Hc. rewrite Hs by done. by apply H3.
Qed.
Lemma LI_leave cur cur' e e' : LI cur e -> LI cur' e' -> LI cur' (leave e e').
Proof.
  intros (H1 & H2 & H3) (G1 & G2 & G3). split; [done|]. split.
  - intros k x Hx. unfold leave. rewrite (H2 k x Hx). destruct (lookup_lt_is_Some_2 cur k) as [v Hv]; [rewrite H1, <- Lxs; by apply lookup_lt_Some in Hx|]. rewrite Hv. by apply G2.
  - intros y Hy Hn Hc. unfold leave. rewrite (H3 y Hy Hn Hc), (G3 y Hy Hn Hc). by destruct (e0 y).
Qed.
Lemma LI_init : LI (take nc vs) e0.
Proof.
  pose proof len_vs as E. rewrite Ha, app_length, fmap_length, Hlen in E.
  split; [rewrite take_length; lia|]. split; [|done]. intros k x Hx.
  assert (Hk : ((RV <$> xs) ++ ro) !! k = Some (RV x)). { apply lookup_app_l_Some. rewrite list_lookup_fmap, Hx. done. }
  destruct (mapM_lookup _ _ k _ _ _ Hvs Hk eq_refl) as (v & Hv & Ex). cbn in Ex. rewrite Ex, lookup_take; [done|]. rewrite <- Lxs. by apply lookup_lt_Some in Hx.
Qed.

(** The bound nodes have their values when a callback is entered. *)
Lemma enter p names1 cur w e : LI cur e -> ext w e -> (forall n, home n = None -> names1 n = names n) -> (forall n, home n = Some (L, p) -> names1 n = None) ->
  EI (L, p) ld names1 (bnd cur w) e /\ RI home (L, p) (bnd cur w).
Proof.
  intros (H1 & H2 & H3) Hext Hn1 Hn2. pose proof len_vs as Elen. pose proof Elen as Elen2. rewrite Ha, app_length, fmap_length, Hlen in Elen2. split.
  - intros n x Hx [Hh|Hb]; [by rewrite Hn2 in Hx|].
    pose proof (Hhome n Hb) as Hhn. rewrite Hn1 in Hx by done.
    assert (Hv : exists v, e x = Some v /\ bnd cur w n = Some v).
    { destruct (decide (N n ∈ n_args ld)) as [Hin|Hin].
      - destruct (pos_of_in (N n) (n_args ld) Hin) as (k & Hp & Hk & Hf).
        assert (Hpos : pos_of (N n) (n_args ld ++ ext_l) = Some k).
        { apply pos_of_first; [by apply lookup_app_l_Some|]. intros j Hj. rewrite lookup_app_l; [by apply Hf|]. apply lookup_lt_Some in Hk. lia. }
        unfold bnd, given. rewrite Hpos. destruct (decide (k < nc)) as [Hlt|Hge].
        + rewrite lookup_app_l by lia. rewrite Ha, lookup_app_l in Hk by (rewrite fmap_length; lia). rewrite list_lookup_fmap in Hk. destruct (up !! k) as [m|] eqn:Em; [|done]. cbn in Hk. injection Hk as ->.
          destruct (Forall2_lookup_l _ _ _ _ _ Hxs Em) as (x' & Hx' & En). rewrite Hx in En. injection En as <-. rewrite (H2 k x Hx').
          destruct (lookup_lt_is_Some_2 cur k) as [v Hv]; [lia|]. by exists v.
        + assert (Hkl : k < length (n_args ld)) by (by apply lookup_lt_Some in Hk).
          rewrite lookup_app_r by lia. rewrite lookup_app_l by (rewrite drop_length; lia). rewrite lookup_drop, H1. replace (nc + (k - nc)) with k by lia.
          rewrite Ha, lookup_app_r in Hk by (rewrite fmap_length; lia). rewrite fmap_length, Hlen in Hk.
          destruct (Forall2_lookup_l _ _ _ _ _ Hro Hk) as (r & Hr & x' & Hx' & ->). rewrite Hx in Hx'. injection Hx' as <-.
          assert (Hk2 : ((RV <$> xs) ++ ro) !! k = Some (RV x)). { rewrite lookup_app_r by (rewrite fmap_length, Lxs; lia). by rewrite fmap_length, Lxs. }
          destruct (mapM_lookup _ _ k _ _ _ Hvs Hk2 eq_refl) as (v & Hv & Ex). cbn in Ex. exists v. split; [|done]. rewrite H3; [done| | |].
          * by apply (Hpre n).
          * intros [j Hj]%elem_of_list_lookup. apply xs_up in Hj as (m & Hm & Nm & Hhm). assert (m = n) by (by apply (Hinj m n x)). subst m.
            apply (Hup n); [by apply elem_of_list_lookup_2 in Hm|by apply elem_of_list_lookup_2 in Hk].
          * intros i Ei. rewrite Ei in Hci. destruct Hci as (C1 & C2 & C3). assert (i = n) by (by apply (Hinj i n x)). by subst i.
      - destruct (Hbinds n Hb) as [?|(y & Ey)]; [done|]. unfold ext, ext_l, bnd in *. unfold given, ext_l. rewrite Ey in Hext, Hci |- *. destruct Hext as (v & -> & Hv). destruct Hci as (C1 & C2 & C3). rewrite Hx in C1. injection C1 as <-.
        exists v. split; [done|]. rewrite (pos_of_first (N n) (n_args ld ++ [N n]) (length (n_args ld))).
        + rewrite app_assoc, lookup_app_r by (rewrite app_length, drop_length; lia). rewrite app_length, drop_length. replace (length (n_args ld) - _) with 0 by lia. done.
        + rewrite lookup_app_r by lia. by rewrite Nat.sub_diag.
        + intros j Hj. rewrite lookup_app_l by lia. intros E. apply elem_of_list_lookup_2 in E. done. }
    destruct Hv as (v & He & Hb2). exists v. split; [done|]. intros fu Hfu. cbn in Hfu. destruct fu as [|fu]; [lia|]. cbn. by rewrite Hb2.
  - intros n Hn. unfold bnd, given. rewrite pos_of_none; [done|]. intros [Hin|Hin]%elem_of_app.
    + assert (binds ld n) as Hb by (by left). apply Hhome in Hb. by rewrite Hb in Hn.
    + unfold ext_l in Hin. destruct ci as [[i y]|]; [|by apply elem_of_nil in Hin]. apply elem_of_list_singleton in Hin. injection Hin as ->. destruct Hci as (_ & Hh & _). by rewrite Hh in Hn.
Qed.

(** A callback *)
Lemma callback f q p outs st : rank L <= f -> returns (n_kind ld) !! p = Some outs -> (forall n, home n = None -> g_name st n = names n) -> (forall n, home n = Some (L, p) -> g_name st n = None) ->
  (forall c, binds ld c -> names c <> None) ->
  exists rs body st', nested (dfs f (Some q)) outs st = Some (rs, body, st') /\ g_ctr st' = g_ctr st /\ g_code st' = g_code st /\ mono (g_name st) (g_name st') /\
    (forall n, home n <> Some (L, p) -> g_name st' n = g_name st n) /\ (forall m, g_name st m = None -> g_name st' m <> None -> rank m < rank L) /\ Forall2 (refof (g_name st')) outs rs /\
    (forall n x, g_name st' n = Some x -> home n = Some (L, p) -> v_pre x = Some q) /\ (forall c, N c ∈ outs -> home c = Some (L, p) \/ binds ld c) /\
    forall cur w e, LI cur e -> ext w e -> exists e' ws, execs e body = Some e' /\ evals e' rs = Some ws /\ (forall fu, rank L <= fu -> mapM (darg fu (bnd cur w)) outs = Some ws) /\ LI cur e' /\ (forall y, e y <> None -> e' y <> None).
Proof.
  intros Hf Hret Hn1 Hn2 Hbn.
  assert (Hdep : forall c, N c ∈ outs -> is_Some (G !! c) /\ rank c < rank L).
  { intros c Hc. destruct (wf_deps _ _ _ Hwf L ld c HL) as (Hl & Hrk).
    - left. apply elem_of_app. right. apply elem_of_app. right. apply elem_of_list_In, in_concat. exists outs. split; apply elem_of_list_In; [by apply elem_of_list_lookup_2 in Hret|done].
    - split; [by apply lookup_lt_is_Some_2|done]. }
  assert (Hsc : Forall (inscope G home (L, p) ld) outs).
  { apply Forall_forall. intros [c|t] Hc; [|done]. split; [by apply Hdep|]. by apply (wf_returns _ _ _ Hwf L ld p outs). }
  set (st0 := mkG (g_name st) (g_lvl st) 0 []).
  assert (HS : SI home (L, p) q ld st0).
  { split; [|split]; cbn [st0 g_name g_ctr].
    - intros n x Hx Hh. by rewrite Hn2 in Hx.
    - intros n n' x Hx _ Hh _. by rewrite Hn2 in Hx.
    - intros c Hc. pose proof (Hhome c Hc) as Hh. split; [done|]. rewrite Hn1 by done. destruct (names c) as [x|] eqn:Ex; [|by apply Hbn in Hc]. exists x. split; [done|]. by apply (Hpre c). }
  destruct (gen_list_ok lit app appm upd truth range bound G rank home (L, p) q ld (dfs f (Some q)) outs) with (st := st0) as (rs & st1 & E1 & S1 & R1 & M1 & F1 & C1 & N1 & c & Ec & X1); [|done|].
  { intros a st2 Hin H2. apply (body_dfs lit app appm upd truth range bound G rank home Hwf (L, p) q ld HL); [by apply (proj1 (Forall_forall _ _) Hsc)| |done]. destruct a as [m|t]; [|done]. apply Hdep in Hin. cbn. lia. }
  exists rs, c, (mkG (g_name st1) (g_lvl st1) (g_ctr st) (g_code st)). unfold nested. fold st0. rewrite E1. cbn [mbind option_bind].
  split; [by rewrite Ec|]. split; [done|]. split; [done|]. cbn [g_name]. split; [done|]. split; [done|]. split.
  { intros m Hm1 Hm2. destruct (N1 m Hm1 Hm2) as (b & Hb & Hr). apply Hdep in Hb. lia. }
  split; [done|]. split; [intros n x Hx Hh; by apply (proj1 S1 n x Hx)|]. split; [intros c' Hc'; by apply (wf_returns _ _ _ Hwf L ld p outs)|].
  intros cur w e HLI Hext. destruct (enter p (g_name st) cur w e HLI Hext Hn1 Hn2) as (HE & HR). destruct (X1 (bnd cur w) e HR HE) as (e1 & Ex1 & HE1 & P1 & D1).
  destruct (EI_refs lit app appm upd truth range bound G rank home (L, p) ld _ _ _ _ _ HE1 Hsc R1) as (ws & Ew & Hws).
  exists e1, ws. split; [done|]. split; [done|]. split.
  { intros fu Hfu. apply (avals_mapM lit app appm upd truth range bound G rank _ _ _ _ Hws). intros [b|t] Hb; [|done]. apply Hdep in Hb. cbn. lia. }
  split; [|done]. apply (LI_same cur e); [done|]. intros y Hy. apply P1. by rewrite Hy.
Qed.

Lemma asg_step q p outs rs names1 : outs ∈ updates (n_kind ld) -> length outs = nc -> Forall2 (refof names1) outs rs -> (forall n, home n = None -> names1 n = names n) ->
  (forall n x, names1 n = Some x -> home n = Some (L, p) -> v_pre x = Some q) -> (forall c, N c ∈ outs -> home c = Some (L, p) \/ binds ld c) ->
  exists asg, assigns ((RV <$> xs) ++ ro) rs = Some asg /\ forall cur ws e, LI cur e -> evals e rs = Some ws -> exists e', execs e asg = Some e' /\ LI ws e' /\ (forall y, e y <> None -> e' y <> None).
Proof.
  intros Hout Hl Hrs Hn1 Hq Hsc. assert (Hlr : length rs = length xs) by (rewrite <- (Forall2_length _ _ _ Hrs), Lxs; done).
  exists (zip_with SCopy xs rs). split; [by apply assigns_zip|]. intros cur ws e (H1 & H2 & H3) Hv.
  destruct (seq_assign xs rs ws e xs_NoDup Hlr Hv) as (e' & E' & A1 & A2).
  { intros k j x Hk Hj. destruct (Forall2_lookup_r _ _ _ _ _ Hrs Hk) as (a & Hak & Hr). destruct a as [c|t]; [|done]. destruct Hr as (x' & Hx' & [= <-]).
    assert (Hin : N c ∈ outs) by (by apply elem_of_list_lookup_2 in Hak). apply xs_up in Hj as Hj'. destruct Hj' as (n & Hn & Nn & Hhn).
    destruct (Hsc c Hin) as [Hh|Hb].
    - pose proof (Hq c x Hx' Hh) as Hp. rewrite (Hpre n x Nn Hhn) in Hp. done.
    - pose proof (Hhome c Hb) as Hhc. rewrite Hn1 in Hx' by done. assert (c = n) by (by apply (Hinj c n x)). subst c.
      apply (Hsw L ld outs k j n HL Hout Hak). exists ld. split; [done|]. split; [done|]. rewrite <- Hnc. split; [rewrite <- Hlen; by apply lookup_lt_Some in Hn|]. rewrite Ha. apply lookup_app_l_Some. by rewrite list_lookup_fmap, Hn. }
  assert (Hlw : length ws = nc). { apply mapM_length in Hv. rewrite <- Hv, Hlr. apply Lxs. }
  exists e'. split; [done|]. split; [split; [done|split; [done|]]|].
  - intros y Hy Hn Hc. rewrite A2 by done. by apply H3.
  - intros y Hy. destruct (decide (y ∈ xs)) as [[k Hk]%elem_of_list_lookup|Hn]; [|by rewrite A2].
    rewrite (A1 k y Hk). destruct (lookup_lt_is_Some_2 ws k) as [v ->]; [|done]. rewrite Hlw, <- Lxs. by apply lookup_lt_Some in Hk.
Qed.

(** The whole control structure *)
Definition gen_ok (st st' : gst) : Prop :=
  g_ctr st' = g_ctr st /\ g_code st' = g_code st /\ mono (g_name st) (g_name st') /\ (forall n, (forall p, home n <> Some (L, p)) -> g_name st' n = g_name st n) /\
  (forall m, g_name st m = None -> g_name st' m <> None -> rank m < rank L).
Definition run_ok (code : list stmt) : Prop :=
  exists e' cur, execs e0 code = Some e' /\ LI cur e' /\ forall fu, rank L <= fu -> after truth range bound (darg fu) nothing ld = Some cur.
Context (Hbn : forall c, binds ld c -> names c <> None) (Hav : Forall2 (aval nothing) (n_args ld) vs) (Huo : forall outs, outs ∈ updates (n_kind ld) -> length outs = nc).
Lemma depf fu a : rank L <= fu -> a ∈ n_args ld ++ n_named ld -> fok rank fu a.
Proof. intros Hfu Hin. destruct a as [c|t]; [|done]. destruct (wf_deps _ _ _ Hwf L ld c HL) as (_ & Hr); [left; rewrite app_assoc; apply elem_of_app; by left|]. cbn. lia. Qed.
Lemma args_after fu : rank L <= fu -> mapM (darg fu nothing) (n_args ld) = Some vs.
Proof. intros Hfu. apply (avals_mapM lit app appm upd truth range bound G rank _ _ _ _ Hav). intros a Hin. apply depf; [done|]. apply elem_of_app. by left. Qed.
Lemma execs_leave e c e' : execs e c = Some e' -> (leave e <$> foldo (fun e s => exec s e) e c) = Some (leave e e').
Proof. unfold PyModel.execs. intros ->. done. Qed.

Context (f : nat) (Hf : rank L <= f) (st : gst) (Hst1 : forall n, home n = None -> g_name st n = names n) (Hst2 : forall n p, home n = Some (L, p) -> g_name st n = None) (x : var).
Lemma line_for outs a b s i y ra rb rs va vb vw : n_kind ld = KFor nc outs -> n_named ld = [a; b; s; N i] -> ci = Some (i, y) -> refof names s rs ->
  evalr e0 ra = Some va -> evalr e0 rb = Some vb -> evalr e0 rs = Some vw -> aval nothing a va -> aval nothing b vb -> aval nothing s vw ->
  exists code st', code_line (dfs f) L ld x ((RV <$> xs) ++ ro) [ra; rb; rs; RV y] st = Some (code, st') /\ gen_ok st st' /\ run_ok code.
Proof.
  intros Hk Hnm Ec Hrs Ea Eb Es Va Vb Vs. assert (Hret : returns (n_kind ld) !! 0 = Some outs) by (by rewrite Hk). assert (Hup2 : outs ∈ updates (n_kind ld)) by (rewrite Hk; by left).
  unfold code_line. rewrite Hk.
  destruct (callback f (CL, S (g_lvl st L)) 0 outs st Hf Hret Hst1 ltac:(intros n Hn; by apply (Hst2 n 0)) Hbn) as (r1 & body & st1 & E1 & C1 & K1 & M1 & F1 & N1 & R1 & Q1 & I1 & X1). rewrite E1. cbn [mbind option_bind].
  destruct (asg_step (CL, S (g_lvl st L)) 0 outs r1 (g_name st1) Hup2 (Huo _ Hup2) R1) as (asg & Ea2 & Xa); [|done|done|].
  { intros n Hn. rewrite F1 by (by rewrite Hn). by apply Hst1. }
  rewrite Ea2. cbn [mbind option_bind]. eexists _, _. split; [done|]. split; [split; [done|split; [done|split; [done|split; [|done]]]]; intros n Hn; by apply F1|].
  assert (Hstep : exists o, match rs with RL t => if decide (t = "None"%string) then None else Some rs | RV _ => Some rs end = o /\ exists vst, match o with None => Some None | Some r => Some <$> evalr e0 r end = Some vst /\
    forall fu, rank L <= fu -> (if decide (s = Lit "None") then Some None else Some <$> darg fu nothing s) = Some vst).
  { eexists. split; [done|]. destruct s as [c|t]; cbn in Hrs.
    - destruct Hrs as (z & Hz & ->). exists (Some vw). split; [by rewrite Es|]. intros fu Hfu. rewrite decide_False by done. rewrite Vs; [done|]. apply depf; [done|]. rewrite Hnm. apply elem_of_app. right. right. right. by left.
    - subst rs. cbn in Es. injection Es as <-. destruct (decide (t = "None"%string)) as [->|Hne].
      + exists None. split; [done|]. intros fu _. by rewrite decide_True.
      + exists (Some (lit t)). split; [done|]. intros fu _. rewrite decide_False by congruence. done. }
  destruct Hstep as (o & -> & vst & Eo & Vst).
  destruct (foldo_sim (fun e cur => LI cur e) (fun fu => rank L <= fu) (fun e v => leave e <$> foldo (fun e s => exec s e) (setv e y v) (body ++ asg))
    (fun fu cur v => mapM (darg fu (given (n_args ld ++ [N i]) (cur ++ drop nc vs ++ [v]) nothing)) outs) (range va vb vst) e0 (take nc vs) LI_init) as (e' & cur' & Ef & Eg & HR).
  { intros v e cur HLI. pose proof (ci_pre i y Ec) as (Py & Ny).
    assert (HLI2 : LI cur (setv e y v)).
    { destruct HLI as (H1 & H2 & H3). split; [done|]. split.
      - intros k z Hz. rewrite setv_ne; [by apply H2|]. intros ->. apply Ny. by apply elem_of_list_lookup_2 in Hz.
      - intros z Hz Hn Hc. rewrite setv_ne; [by apply H3|]. intros ->. by apply (Hc i). }
    destruct (X1 cur [v] (setv e y v) HLI2) as (e1 & ws & Ex1 & Ew & Hw & L1 & D1).
    { unfold ext. rewrite Ec. exists v. split; [done|]. apply setv_eq. }
    destruct (Xa cur ws e1 L1 Ew) as (e2 & Ex2 & L2 & D2). exists (leave e e2), ws. split; [|split].
    - assert (E12 : execs (setv e y v) (body ++ asg) = Some e2) by (rewrite execs_app, Ex1; done). unfold PyModel.execs in E12. by rewrite E12.
    - intros fu Hfu. specialize (Hw fu Hfu). unfold bnd, ext_l in Hw. rewrite Ec in Hw. done.
    - by apply (LI_leave cur). }
  exists e', cur'. split; [|split; [done|]].
  - rewrite execs_one. cbn [PyModel.exec]. rewrite Ea, Eb. cbn [mbind option_bind]. rewrite Eo. cbn [mbind option_bind]. done.
  - intros fu Hfu. unfold after. rewrite args_after by done. cbn [mbind option_bind]. rewrite Hk, Hnm. rewrite Va, Vb; [| apply depf; [done|]; rewrite Hnm; apply elem_of_app; right; right; by left|apply depf; [done|]; rewrite Hnm; apply elem_of_app; right; by left].
    cbn [mbind option_bind]. rewrite Vst by done. cbn [mbind option_bind]. by apply Eg.
Qed.

Lemma bnd_none cur : ci = None -> bnd cur [] = given (n_args ld) (cur ++ drop nc vs) nothing.
Proof. intros E. unfold bnd, ext_l. by rewrite E, !app_nil_r. Qed.
Lemma line_cond th el c rc vc : n_kind ld = KCond nc th el -> n_named ld = [c] -> ci = None -> evalr e0 rc = Some vc -> aval nothing c vc ->
  exists code st', code_line (dfs f) L ld x ((RV <$> xs) ++ ro) [rc] st = Some (code, st') /\ gen_ok st st' /\ run_ok code.
Proof.
  intros Hk Hnm Ec Er Vc. assert (Hret : returns (n_kind ld) !! 0 = Some th) by (rewrite Hk; by destruct el). assert (Hup2 : th ∈ updates (n_kind ld)) by (rewrite Hk; destruct el; by left).
  unfold code_line. rewrite Hk.
  destruct (callback f (CL, S (g_lvl st L)) 0 th st Hf Hret Hst1 ltac:(intros n Hn; by apply (Hst2 n 0)) Hbn) as (r1 & body & st1 & E1 & C1 & K1 & M1 & F1 & N1 & R1 & Q1 & I1 & X1). rewrite E1. cbn [mbind option_bind].
  destruct (asg_step (CL, S (g_lvl st L)) 0 th r1 (g_name st1) Hup2 (Huo _ Hup2) R1) as (asg & Ea2 & Xa); [|done|done|].
  { intros n Hn. rewrite F1 by (by rewrite Hn). by apply Hst1. }
  rewrite Ea2. cbn [mbind option_bind].
  assert (Hvc : forall fu, rank L <= fu -> darg fu nothing c = Some vc). { intros fu Hfu. apply Vc. apply depf; [done|]. rewrite Hnm. apply elem_of_app. right. by left. }
  assert (Hth : exists e1 ws, execs e0 (body ++ asg) = Some e1 /\ LI ws e1 /\ forall fu, rank L <= fu -> mapM (darg fu (given (n_args ld) vs nothing)) th = Some ws).
  { destruct (X1 (take nc vs) [] e0 LI_init) as (e1 & ws & Ex1 & Ew & Hw & L1 & D1); [unfold ext; by rewrite Ec|]. destruct (Xa _ ws e1 L1 Ew) as (e2 & Ex2 & L2 & D2). exists e2, ws. split; [rewrite execs_app, Ex1; done|]. split; [done|].
    intros fu Hfu. specialize (Hw fu Hfu). rewrite (bnd_none _ Ec), take_drop in Hw. done. }
  destruct Hth as (e1 & ws & Ex1 & L1 & V1).
  destruct el as [el|].
  - assert (Hret2 : returns (n_kind ld) !! 1 = Some el) by (by rewrite Hk). assert (Hup3 : el ∈ updates (n_kind ld)) by (rewrite Hk; right; by left).
    destruct (callback f (CL, S (g_lvl st L)) 1 el st1 Hf Hret2) as (r2 & body2 & st2 & E2 & C2 & K2 & M2 & F2 & N2 & R2 & Q2 & I2 & X2);
      [intros n Hn; rewrite F1 by (by rewrite Hn); by apply Hst1|intros n Hn; rewrite F1 by (rewrite Hn; congruence); by apply (Hst2 n 1)|done|]. rewrite E2. cbn [mbind option_bind].
    destruct (asg_step (CL, S (g_lvl st L)) 1 el r2 (g_name st2) Hup3 (Huo _ Hup3) R2) as (asg2 & Ea3 & Xa2); [|done|done|].
    { intros n Hn. rewrite F2 by (by rewrite Hn). rewrite F1 by (by rewrite Hn). by apply Hst1. }
    rewrite Ea3. cbn [mbind option_bind]. eexists _, _. split; [done|]. split.
    { split; [by rewrite C2|]. split; [by rewrite K2|]. split; [by apply (mono_trans _ (g_name st1))|]. split; [intros n Hn; rewrite F2 by done; by apply F1|].
      intros m H1 H2. destruct (g_name st1 m) eqn:E; [apply N1; [done|by rewrite E]|by apply N2]. }
    assert (Hel : exists e2 ws2, execs e0 (body2 ++ asg2) = Some e2 /\ LI ws2 e2 /\ forall fu, rank L <= fu -> mapM (darg fu (given (n_args ld) vs nothing)) el = Some ws2).
    { destruct (X2 (take nc vs) [] e0 LI_init) as (e2 & ws2 & Ex2 & Ew & Hw & L2 & D2); [unfold ext; by rewrite Ec|]. destruct (Xa2 _ ws2 e2 L2 Ew) as (e3 & Ex3 & L3 & D3). exists e3, ws2. split; [rewrite execs_app, Ex2; done|]. split; [done|].
      intros fu Hfu. specialize (Hw fu Hfu). rewrite (bnd_none _ Ec), take_drop in Hw. done. }
    destruct Hel as (e2 & ws2 & Ex2 & L2 & V2).
    unfold run_ok. rewrite execs_one. cbn [PyModel.exec]. rewrite Er. cbn [mbind option_bind]. unfold after. rewrite Hk, Hnm. destruct (truth vc) eqn:Et.
    + exists (leave e0 e1), ws. split; [by apply execs_leave|]. split; [by apply (LI_leave _ _ _ _ LI_init)|]. intros fu Hfu. rewrite args_after by done. cbn [mbind option_bind]. rewrite Hvc by done. cbn [mbind option_bind]. rewrite Et. by apply V1.
    + exists (leave e0 e2), ws2. split; [by apply execs_leave|]. split; [by apply (LI_leave _ _ _ _ LI_init)|]. intros fu Hfu. rewrite args_after by done. cbn [mbind option_bind]. rewrite Hvc by done. cbn [mbind option_bind]. rewrite Et. by apply V2.
  - eexists _, _. split; [done|]. split; [split; [done|split; [done|split; [done|split; [|done]]]]; intros n Hn; by apply F1|].
    unfold run_ok. rewrite execs_one. cbn [PyModel.exec]. rewrite Er. cbn [mbind option_bind]. unfold after. rewrite Hk, Hnm. destruct (truth vc) eqn:Et.
    + exists (leave e0 e1), ws. split; [by apply execs_leave|]. split; [by apply (LI_leave _ _ _ _ LI_init)|]. intros fu Hfu. rewrite args_after by done. cbn [mbind option_bind]. rewrite Hvc by done. cbn [mbind option_bind]. rewrite Et. by apply V1.
    + exists (leave e0 e0), (take nc vs). split; [done|]. split; [apply (LI_leave _ _ _ _ LI_init), LI_init|]. intros fu Hfu. rewrite args_after by done. cbn [mbind option_bind]. rewrite Hvc by done. cbn [mbind option_bind]. by rewrite Et.
Qed.

(** Loops with conditions *)
Lemma line_loop c outs : returns (n_kind ld) = [outs; [c]] -> updates (n_kind ld) = [outs] -> ci = None -> (exists k vs', forall fu, k <= fu -> after truth range bound (darg fu) nothing ld = Some vs') ->
  (n_kind ld = KWhile nc c outs \/ n_kind ld = KDoWhile nc c outs) ->
  exists code st', code_line (dfs f) L ld x ((RV <$> xs) ++ ro) [] st = Some (code, st') /\ gen_ok st st' /\ run_ok code.
Proof.
  intros Hrets Hups Ec (k0 & vs' & Hterm) Hk. assert (Hret : returns (n_kind ld) !! 0 = Some outs) by (by rewrite Hrets). assert (Hret1 : returns (n_kind ld) !! 1 = Some [c]) by (by rewrite Hrets).
  assert (Hup2 : outs ∈ updates (n_kind ld)) by (rewrite Hups; by left).
  destruct (callback f (CL, g_lvl st L) 0 outs st Hf Hret Hst1 ltac:(intros n Hn; by apply (Hst2 n 0)) Hbn) as (r1 & body & st1 & E1 & C1 & K1 & M1 & F1 & N1 & R1 & Q1 & I1 & X1).
  destruct (asg_step (CL, g_lvl st L) 0 outs r1 (g_name st1) Hup2 (Huo _ Hup2) R1) as (asg & Ea2 & Xa); [|done|done|].
  { intros n Hn. rewrite F1 by (by rewrite Hn). by apply Hst1. }
  destruct (callback f (CC, S (g_lvl st L)) 1 [c] st1 Hf Hret1) as (r2 & cbody & st2 & E2 & C2 & K2 & M2 & F2 & N2 & R2 & Q2 & I2 & X2);
    [intros n Hn; rewrite F1 by (by rewrite Hn); by apply Hst1|intros n Hn; rewrite F1 by (rewrite Hn; congruence); by apply (Hst2 n 1)|done|].
  inversion R2 as [|? r ? ? Hr Hnil]; subst. inversion Hnil; subst. clear Hnil.
  assert (Hgen : gen_ok st st2).
  { split; [by rewrite C2|]. split; [by rewrite K2|]. split; [by apply (mono_trans _ (g_name st1))|]. split; [intros n Hn; rewrite F2 by done; by apply F1|].
    intros m H1 H2. destruct (g_name st1 m) eqn:E; [apply N1; [done|by rewrite E]|by apply N2]. }
  set (R := fun (e : @env V) (cur : list V) => LI cur e /\ exists v, evalr e r = Some v /\ forall fu, rank L <= fu -> darg fu (given (n_args ld) (cur ++ drop nc vs) nothing) c = Some v).
  assert (Hcond : forall cur e, LI cur e -> exists e', execs e cbody = Some e' /\ R e' cur /\ (forall y, e y <> None -> e' y <> None)).
  { intros cur e HLI. destruct (X2 cur [] e HLI) as (e1 & ws & Ex1 & Ew & Hw & L1 & D1); [unfold ext; by rewrite Ec|]. exists e1. split; [done|]. split; [|done]. split; [done|].
    unfold PyModel.evals in Ew. cbn in Ew. destruct (evalr e1 r) as [v|]; [|done]. exists v. split; [done|]. injection Ew as <-.
    intros fu Hfu. specialize (Hw fu Hfu). rewrite (bnd_none _ Ec) in Hw. cbn [mapM] in Hw. destruct (darg fu (given (n_args ld) (cur ++ drop nc vs) nothing) c); [|done]. cbn in Hw. by injection Hw as ->. }
  set (run := fun e : @env V => leave e <$> foldo (fun e s => exec s e) e (body ++ asg ++ cbody)).
  assert (Hrun : forall e cur, R e cur -> exists e' cur', run e = Some e' /\ (forall fu, rank L <= fu -> mapM (darg fu (given (n_args ld) (cur ++ drop nc vs) nothing)) outs = Some cur') /\ R e' cur').
  { intros e cur (HLI & v & Ev & _). destruct (X1 cur [] e HLI) as (e1 & ws & Ex1 & Ew & Hw & L1 & D1); [unfold ext; by rewrite Ec|]. destruct (Xa cur ws e1 L1 Ew) as (e2 & Ex2 & L2 & D2).
    destruct (Hcond ws e2 L2) as (e3 & Ex3 & (L3 & v3 & Ev3 & Vv3) & D3). exists (leave e e3), ws. split; [|split].
    - apply execs_leave. rewrite execs_app, Ex1. cbn [mbind option_bind]. rewrite execs_app, Ex2. done.
    - intros fu Hfu. specialize (Hw fu Hfu). by rewrite (bnd_none _ Ec) in Hw.
    - split; [by apply (LI_leave cur)|]. exists v3. split; [|done]. destruct r as [z|t]; [|done]. cbn in *. unfold leave. by rewrite Ev. }
  assert (Htest : forall e cur, R e cur -> exists t, (truth <$> evalr e r) = Some t /\ forall fu, rank L <= fu -> (truth <$> darg fu (given (n_args ld) (cur ++ drop nc vs) nothing) c) = Some t).
  { intros e cur (_ & v & Ev & Vv). exists (truth v). split; [by rewrite Ev|]. intros fu Hfu. by rewrite Vv. }
  destruct (Hcond _ _ LI_init) as (ec & Exc & HR & _).
  unfold code_line. destruct Hk as [Hk|Hk]; rewrite Hk.
  - rewrite E1. cbn [mbind option_bind]. rewrite Ea2. cbn [mbind option_bind]. rewrite E2. cbn [mbind option_bind]. eexists _, _. split; [done|]. split; [done|].
    destruct (whileo_sim R (fun fu => rank L <= fu) _ run _ _ bound ec (take nc vs) HR Htest Hrun) as [Hnone|(e' & cur' & Ef & Eg & HR')].
    + exfalso. specialize (Hterm (Nat.max k0 (rank L)) ltac:(lia)). unfold after in Hterm. rewrite args_after in Hterm by lia. cbn [mbind option_bind] in Hterm. rewrite Hk in Hterm. rewrite Hnone in Hterm by lia. done.
    + exists e', cur'. split; [|split; [apply HR'|]].
      * rewrite execs_app, Exc. cbn [mbind option_bind]. rewrite execs_one. exact Ef.
      * intros fu Hfu. unfold after. rewrite args_after by done. cbn [mbind option_bind]. rewrite Hk. by apply Eg.
  - rewrite E1. cbn [mbind option_bind]. rewrite Ea2. cbn [mbind option_bind]. rewrite E2. cbn [mbind option_bind]. eexists _, _. split; [done|]. split; [done|].
    destruct (Hrun ec (take nc vs) HR) as (ed & cur1 & Er1 & Ev1 & HR1). rewrite take_drop in Ev1.
    destruct (whileo_sim R (fun fu => rank L <= fu) _ run _ _ bound ed cur1 HR1 Htest Hrun) as [Hnone|(e' & cur' & Ef & Eg & HR')].
    + exfalso. specialize (Hterm (Nat.max k0 (rank L)) ltac:(lia)). unfold after in Hterm. rewrite args_after in Hterm by lia. cbn [mbind option_bind] in Hterm. rewrite Hk in Hterm. rewrite Ev1 in Hterm by lia. cbn [mbind option_bind] in Hterm. rewrite Hnone in Hterm by lia. done.
    + exists e', cur'. split; [|split; [apply HR'|]].
      * rewrite execs_app, Exc. cbn [mbind option_bind]. rewrite execs_one. cbn [PyModel.exec]. change (leave ec <$> _) with (run ec). rewrite Er1. exact Ef.
      * intros fu Hfu. unfold after. rewrite args_after by done. cbn [mbind option_bind]. rewrite Hk. rewrite Ev1 by done. cbn [mbind option_bind]. by apply Eg.
Qed.
End ctl.
End py.
