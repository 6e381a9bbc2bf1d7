(** Proofs about names that are cleared, and about assignments to parts of a matrix. *)
From stdpp Require Import base numbers list strings relations.
From Coq Require Import Lia.
From Verif Require Import CppBase PyModel PySpec PyProofs.

Definition child (G : graph) (n c : nat) : Prop := exists nd, G !! n = Some nd /\ (N c ∈ n_args nd ++ n_named nd \/ n_src nd = Some c).
(** The nodes that the value of [n] depends on (outside of callbacks) *)
Definition reaches (G : graph) : nat -> nat -> Prop := rtc (child G).

Section py.
Context (G : graph) (rank : nat -> nat) (home : nat -> option (nat * nat)) (Hwf : wf_graph G rank home).
Definition closed (names : nat -> option var) : Prop := forall n c, names n <> None -> child G n c -> names c <> None.
Definition smono (n1 n2 : nat -> option var) : Prop := forall n, n1 n <> None -> n2 n <> None.
Definition good (st st' : gst) : Prop := smono (g_name st) (g_name st') /\ (closed (g_name st) -> closed (g_name st')).
Lemma good_refl st : good st st.
Proof. split; [by intros n Hn|done]. Qed.
Lemma good_trans st1 st2 st3 : good st1 st2 -> good st2 st3 -> good st1 st3.
Proof. intros (A & B) (C & D). split; [intros n Hn; by apply C, A|]. intros H. by apply D, B. Qed.
Definition good1 (g : arg -> gst -> option (ref * gst)) : Prop := forall a st r st', g a st = Some (r, st') -> good st st' /\ forall n, a = N n -> g_name st' n <> None.
Lemma gen_list_good g l : good1 g -> forall st rs st', gen_list g l st = Some (rs, st') -> good st st' /\ forall n, N n ∈ l -> g_name st' n <> None.
Proof.
  intros Hg. induction l as [|a l IH]; intros st rs st' E; cbn in E.
  - injection E as _ <-. split; [apply good_refl|]. intros n Hn. by apply elem_of_nil in Hn.
  - destruct (g a st) as [[r st1]|] eqn:E1; [|done]. cbn in E. destruct (gen_list g l st1) as [[rs' st2]|] eqn:E2; [|done]. cbn in E. injection E as _ <-.
    destruct (Hg a st r st1 E1) as (G1 & H1). destruct (IH st1 rs' st2 E2) as (G2 & H2). split; [by apply (good_trans _ st1)|].
    intros n [<-|Hn]%elem_of_cons; [by apply G2, H1|by apply H2].
Qed.
Lemma nested_good g l st rs c st' : good1 g -> nested g l st = Some (rs, c, st') -> good st st'.
Proof.
  intros Hg. unfold nested. destruct (gen_list g l (mkG (g_name st) (g_lvl st) 0 [])) as [[rs' st1]|] eqn:E; [|done]. cbn. intros [= _ _ <-]. apply (gen_list_good g l Hg) in E as (Hgo & _). done.
Qed.
Lemma name_outs_some names x i outs m : name_outs names x i outs m <> None <-> names m <> None \/ m ∈ outs.
Proof.
  revert names i. induction outs as [|o outs IH]; intros names i; cbn [name_outs].
  - split; [by left|]. intros [?|H]; [done|by apply elem_of_nil in H].
  - rewrite IH. destruct (decide (m = o)) as [->|Hne].
    + rewrite upn_eq. split; [intros _; right; by left|by left].
    + rewrite upn_ne by done. rewrite elem_of_cons. naive_solver.
Qed.
Lemma code_line_good g n nd x us ks st c st' : (forall q, good1 (g q)) -> G !! n = Some nd -> g_name st n <> None -> code_line g n nd x us ks st = Some (c, st') -> good st st'.
Proof.
  intros Hg Hn Hnn. unfold code_line. destruct (n_kind nd) as [op| | |f outs|nc outs|nc th el|nc cc outs|nc cc outs] eqn:Hk.
  - intros [= _ <-]. apply good_refl.
  - destruct us; [done|]. intros [= _ <-]. apply good_refl.
  - destruct us as [|[b|t] [|w idx]]; try done. intros [= _ <-]. apply good_refl.
  - intros [= _ <-]. destruct (wf_multi _ _ _ Hwf n nd f outs Hn Hk) as (_ & _ & _ & Hout). split; cbn [g_name].
    + intros m Hm. apply name_outs_some. by left.
    + intros Hc m c' Hm Hch. apply name_outs_some. apply name_outs_some in Hm as [Hm|Hm]; [left; by apply (Hc m)|].
      destruct (Hout m Hm) as (_ & od & op & Hod & Hko & Hs). destruct (wf_op _ _ _ Hwf m od op n Hod Hko Hs) as (Ea & En & _). destruct Hch as (md & Hmd & Hin). rewrite Hod in Hmd. injection Hmd as <-.
      rewrite Ea, En in Hin. destruct Hin as [Hin|Hin]; [by apply elem_of_nil in Hin|]. rewrite Hs in Hin. injection Hin as <-. by left.
  - destruct (nested (g (Some (CL, S (g_lvl st n)))) outs st) as [[[rs b] st1]|] eqn:E1; [|done]. cbn [mbind option_bind]. destruct (assigns us rs); [|done]. cbn [mbind option_bind]. destruct ks as [|? [|? [|? [|[i|] [|]]]]]; try done. intros [= _ <-]. by apply nested_good in E1.
  - destruct (nested (g (Some (CL, S (g_lvl st n)))) th st) as [[[rs b] st1]|] eqn:E1; [|done]. cbn [mbind option_bind]. destruct (assigns us rs); [|done]. cbn [mbind option_bind]. destruct ks as [|? [|]]; try done. destruct el as [el|]; [|intros [= _ <-]; by apply nested_good in E1].
    destruct (nested (g (Some (CL, S (g_lvl st n)))) el st1) as [[[rs2 b2] st2]|] eqn:E2; [|done]. cbn [mbind option_bind]. destruct (assigns us rs2); [|done]. cbn [mbind option_bind]. intros [= _ <-]. apply nested_good in E1; [|done]. apply nested_good in E2; [|done]. by apply (good_trans _ st1).
  - destruct (nested (g (Some (CL, g_lvl st n))) outs st) as [[[rs b] st1]|] eqn:E1; [|done]. cbn [mbind option_bind]. destruct (assigns us rs); [|done]. cbn [mbind option_bind].
    destruct (nested (g (Some (CC, S (g_lvl st n)))) [cc] st1) as [[[rs2 b2] st2]|] eqn:E2; [|done]. cbn [mbind option_bind]. destruct rs2 as [|? [|]]; try done. intros [= _ <-]. apply nested_good in E1; [|done]. apply nested_good in E2; [|done]. by apply (good_trans _ st1).
  - destruct (nested (g (Some (CL, g_lvl st n))) outs st) as [[[rs b] st1]|] eqn:E1; [|done]. cbn [mbind option_bind]. destruct (assigns us rs); [|done]. cbn [mbind option_bind].
    destruct (nested (g (Some (CC, S (g_lvl st n)))) [cc] st1) as [[[rs2 b2] st2]|] eqn:E2; [|done]. cbn [mbind option_bind]. destruct rs2 as [|? [|]]; try done. intros [= _ <-]. apply nested_good in E1; [|done]. apply nested_good in E2; [|done]. by apply (good_trans _ st1).
Qed.
Lemma dfs_good fuel : forall pre, good1 (dfs G fuel pre).
Proof.
  induction fuel as [|f IH]; intros pre [n|t] st r st' E; cbn [PyModel.dfs] in E; [done|injection E as _ <-; split; [apply good_refl|done]| |injection E as _ <-; split; [apply good_refl|done]].
  destruct (G !! n) as [nd|] eqn:Hn; [|done]. cbn [mbind option_bind] in E. set (st0 := match pre with Some _ => _ | None => st end) in E.
  assert (Hst0 : g_name st0 = g_name st) by (unfold st0; destruct pre; [by destruct (n_src nd)|done]).
  assert (Hgo : forall st2, good st0 st2 -> good st st2) by (unfold good; by rewrite Hst0).
  destruct (g_name st0 n) as [x|] eqn:Ex.
  { injection E as _ <-. split; [apply Hgo, good_refl|]. intros m [= <-]. by rewrite Ex. }
  destruct (match n_src nd with Some m => snd <$> dfs G f pre (N m) st0 | None => Some st0 end) as [st1|] eqn:Es; [|done]. cbn [mbind option_bind] in E.
  assert (Hs : good st0 st1 /\ forall m, n_src nd = Some m -> g_name st1 m <> None).
  { destruct (n_src nd) as [m|]; [|injection Es as <-; split; [apply good_refl|done]]. destruct (dfs G f pre (N m) st0) as [[r1 st1']|] eqn:E1; [|done]. cbn in Es. injection Es as <-. destruct (IH pre _ _ _ _ E1) as (A & B). split; [done|]. intros m' [= <-]. by apply B. }
  destruct Hs as (G1 & H1). destruct (gen_list (dfs G f pre) (n_args nd) st1) as [[us st2]|] eqn:E2; [|done]. cbn [mbind option_bind] in E. destruct (gen_list_good _ _ (IH pre) _ _ _ E2) as (G2 & H2).
  destruct (gen_list (dfs G f pre) (n_named nd) st2) as [[ks st3]|] eqn:E3; [|done]. cbn [mbind option_bind] in E. destruct (gen_list_good _ _ (IH pre) _ _ _ E3) as (G3 & H3).
  assert (G123 : good st st3) by (apply Hgo, (good_trans _ st1), (good_trans _ st2); done).
  destruct (g_name st3 n) as [x|] eqn:Ex3.
  { injection E as _ <-. split; [done|]. intros m [= <-]. by rewrite Ex3. }
  set (x := mkV pre (g_ctr st3) None) in E. set (st4 := mkG (upn (g_name st3) n (Some x)) (g_lvl st3) (S (g_ctr st3)) (g_code st3)) in E.
  destruct (code_line (dfs G f) n nd x us ks st4) as [[c st5]|] eqn:E5; [|done]. cbn [mbind option_bind] in E. injection E as _ <-.
  assert (G4 : good st3 st4).
  { assert (Hsm : smono (g_name st3) (g_name st4)). { intros m Hm. cbn. destruct (decide (m = n)) as [->|?]; [by rewrite upn_eq|by rewrite upn_ne]. }
    split; [done|]. intros Hc m c' Hm Hch. apply Hsm. cbn in Hm. destruct (decide (m = n)) as [->|?]; [|rewrite upn_ne in Hm by done; by apply (Hc m)].
    destruct Hch as (nd' & Hn' & Hin). rewrite Hn in Hn'. injection Hn' as <-. destruct Hin as [[Hin|Hin]%elem_of_app|Hin]; [by apply G3, H2|by apply H3|by apply G3, G2, H1]. }
  assert (Hn4 : g_name st4 n <> None) by (cbn; by rewrite upn_eq).
  assert (G5 : good st4 st5) by (by apply (code_line_good (dfs G f) n nd x us ks st4 c)). cbn [g_name]. split.
  - assert (G35 : good st st5) by (by apply (good_trans _ st3), (good_trans _ st4)). exact G35.
  - intros m [= <-]. by apply G5.
Qed.

(** Clearing *)
Definition cok (n1 n2 : nat -> option var) : Prop := (forall m, n1 m = None -> n2 m = None) /\ (forall m c, n1 m <> None -> n2 m = None -> child G m c -> n2 c = None).
Lemma cok_refl n1 : cok n1 n1.
Proof. split; [done|]. intros m c H1 H2. by rewrite H2 in H1. Qed.
Lemma cok_trans n1 n2 n3 : cok n1 n2 -> cok n2 n3 -> cok n1 n3.
Proof. intros (A & B) (C & D). split; [intros m Hm; by apply C, A|]. intros m c H1 H3 Hc. destruct (n2 m) eqn:E; [apply (D m c); [by rewrite E|done|done]|]. by apply C, (B m c). Qed.
Lemma clear_list_ok g l : (forall a names, a ∈ l -> exists names', g a names = Some names' /\ cok names names' /\ forall n, a = N n -> names' n = None) ->
  forall names, exists names', clear_list g l names = Some names' /\ cok names names' /\ forall n, N n ∈ l -> names' n = None.
Proof.
  induction l as [|a l IH]; intros Hg names.
  - exists names. split; [done|]. split; [apply cok_refl|]. intros n Hn. by apply elem_of_nil in Hn.
  - destruct (Hg a names ltac:(left)) as (n1 & E1 & C1 & H1). destruct (IH ltac:(intros b n0 Hb; apply Hg; by right) n1) as (n2 & E2 & C2 & H2).
    exists n2. split; [cbn; by rewrite E1|]. split; [by apply (cok_trans _ n1)|]. intros n [<-|Hn]%elem_of_cons; [by apply C2, H1|by apply H2].
Qed.
Lemma clear_outs_spec names outs m : clear_outs names outs m = if decide (m ∈ outs) then None else names m.
Proof.
  revert names. induction outs as [|o outs IH]; intros names; cbn [clear_outs]; [by rewrite decide_False by apply not_elem_of_nil|]. rewrite IH. destruct (decide (m ∈ outs)) as [Hin|Hin]; [rewrite decide_True; [done|by right]|].
  destruct (decide (m = o)) as [->|Hne]; [rewrite upn_eq, decide_True; [done|by left]|]. rewrite upn_ne by done. rewrite decide_False; [done|]. intros [?|?]%elem_of_cons; done.
Qed.
Lemma clear_ok fuel : forall a names, fok rank fuel a -> (match a with N n => is_Some (G !! n) | _ => True end) -> exists names', clear G fuel a names = Some names' /\ cok names names' /\ forall n, a = N n -> names' n = None.
Proof.
  induction fuel as [|f IH]; intros [n|t] names Hr Hn; cbn [clear]; [cbn in Hr; lia|exists names; split; [done|]; split; [apply cok_refl|done]| |exists names; split; [done|]; split; [apply cok_refl|done]].
  cbn in Hr. destruct (names n) as [x|] eqn:Ex; [|exists names; split; [done|]; split; [apply cok_refl|]; by intros m [= <-]]. destruct Hn as [nd Hn]. rewrite Hn. cbn [mbind option_bind].
  assert (Hdep : forall c, child G n c -> is_Some (G !! c) /\ rank c < rank n).
  { intros c (nd' & Hn' & Hc). rewrite Hn in Hn'. injection Hn' as <-. destruct (wf_deps _ _ _ Hwf n nd c Hn) as (Hl & Hrk); [destruct Hc as [Hc|Hc]; [left; rewrite app_assoc; apply elem_of_app; by left|by right]|]. split; [by apply lookup_lt_is_Some_2|done]. }
  assert (Hl : forall l, (forall a, a ∈ l -> a ∈ n_args nd ++ n_named nd) -> forall names, exists names', clear_list (clear G f) l names = Some names' /\ cok names names' /\ forall n, N n ∈ l -> names' n = None).
  { intros l Hin. apply clear_list_ok. intros a names1 Ha. apply Hin in Ha. destruct a as [c|t]; [|by apply IH]. destruct (Hdep c) as (Hc1 & Hc2); [exists nd; split; [done|by left]|]. apply IH; [cbn; lia|done]. }
  destruct (Hl (n_args nd) ltac:(intros a Ha; apply elem_of_app; by left) (upn names n None)) as (n1 & E1 & C1 & H1). rewrite E1. cbn [mbind option_bind].
  assert (Hs : exists n2, (match n_src nd with None => Some n1 | Some m => n2 ← clear G f (N m) n1; md ← G !! m; Some (match n_kind md with KMulti _ outs => clear_outs n2 outs | _ => n2 end) end) = Some n2 /\ cok n1 n2 /\ forall m, n_src nd = Some m -> n2 m = None).
  { destruct (n_src nd) as [m|] eqn:Es; [|exists n1; split; [done|]; split; [apply cok_refl|done]]. destruct (Hdep m) as ([md Hm] & Hrm); [exists nd; split; [done|by right]|].
    destruct (IH (N m) n1 ltac:(cbn; lia) ltac:(by exists md)) as (n2 & E2 & C2 & H2). rewrite E2. cbn [mbind option_bind]. rewrite Hm. cbn [mbind option_bind]. specialize (H2 m eq_refl).
    destruct (n_kind md) as [| | |g outs| | | |] eqn:Hk; try (exists n2; split; [done|]; split; [done|]; by intros m' [= <-]).
    exists (clear_outs n2 outs). split; [done|]. split; [|intros m' [= <-]; rewrite clear_outs_spec; by destruct (decide _)].
    apply (cok_trans _ n2); [done|]. split.
    - intros k Hk'. rewrite clear_outs_spec. by destruct (decide _).
    - intros k c Hk1 Hk2 Hc. rewrite clear_outs_spec in Hk2 |- *. destruct (decide (k ∈ outs)) as [Hin|]; [|done].
      destruct (wf_multi _ _ _ Hwf m md g outs Hm Hk) as (_ & _ & _ & Hout). destruct (Hout k Hin) as (_ & od & op & Hod & Hko & Hso). destruct (wf_op _ _ _ Hwf k od op m Hod Hko Hso) as (Ea & En & _).
      destruct Hc as (kd & Hkd & Hc). rewrite Hod in Hkd. injection Hkd as <-. rewrite Ea, En in Hc. destruct Hc as [Hc|Hc]; [by apply elem_of_nil in Hc|]. rewrite Hso in Hc. injection Hc as <-. rewrite H2. by destruct (decide _). }
  destruct Hs as (n2 & E2 & C2 & H2). rewrite E2. cbn [mbind option_bind].
  destruct (Hl (n_named nd) ltac:(intros a Ha; apply elem_of_app; by right) n2) as (n3 & E3 & C3 & H3). exists n3. split; [done|].
  assert (Hn3 : n3 n = None) by (apply C3, C2, C1, upn_eq). split; [|by intros m [= <-]].
  assert (C123 : cok (upn names n None) n3) by (by apply (cok_trans _ n1), (cok_trans _ n2)). destruct C123 as (A & B). split.
  - intros m Hm. apply A. destruct (decide (m = n)) as [->|?]; [apply upn_eq|by rewrite upn_ne].
  - intros m c Hm1 Hm2 Hc. destruct (decide (m = n)) as [->|Hne]; [|apply (B m c); [by rewrite upn_ne|done|done]].
    destruct Hc as (nd' & Hn' & Hc). rewrite Hn in Hn'. injection Hn' as <-. destruct Hc as [[Hc|Hc]%elem_of_app|Hc]; [by apply C3, C2, H1|by apply H3|by apply C3, H2].
Qed.
End py.

(** Assignment to a part of a matrix: the consumers *)
Lemma redirect_hangs fuel : forall self new H cons k fresh j c a rest, new <> self -> k <= j -> cons !! j = Some c -> p_args (H c) = N a :: rest -> a <> self -> (forall m, m ∈ cons -> m < fresh) ->
  redirect fuel self new H cons k fresh = None.
Proof.
  induction fuel as [|f IH]; intros self new H cons k fresh j c a rest Hns Hkj Hj Ha Has Hfr; [done|]. cbn [redirect].
  destruct (cons !! k) as [d|] eqn:Hd; [|apply lookup_lt_Some in Hj; apply lookup_ge_None in Hd; lia].
  assert (Hcf : c < fresh) by (apply Hfr; by apply (elem_of_list_lookup_2 _ j)). assert (Hdf : d < fresh) by (apply Hfr; by apply (elem_of_list_lookup_2 _ k)).
  assert (Hfr2 : forall m, m ∈ cons ++ [fresh] -> m < S fresh). { intros m [Hm|Hm]%elem_of_app; [apply Hfr in Hm; lia|apply elem_of_list_singleton in Hm; lia]. }
  destruct (decide (d = c)) as [->|Hne].
  - rewrite Ha. rewrite decide_False by congruence. apply (IH _ _ _ _ _ _ (length cons) fresh a [N self]); try done.
    + apply lookup_lt_Some in Hd. lia.
    + rewrite lookup_app_r by lia. by rewrite Nat.sub_diag.
    + by rewrite upn_eq.
  - assert (Hkj2 : S k <= j). { destruct (decide (k = j)) as [->|]; [congruence|lia]. }
    destruct (p_args (H d)) as [|b rest'] eqn:Hb; [by apply (IH _ _ _ _ _ _ j c a rest)|].
    destruct (decide (b = N self)).
    + apply (IH _ _ _ _ _ _ j c a rest); try done. by rewrite upn_ne.
    + apply (IH _ _ _ _ _ _ j c a rest); try done; [by apply lookup_app_l_Some|]. rewrite upn_ne by lia. by rewrite upn_ne.
Qed.
Lemma redirect_all fuel : forall self new H cons k fresh, NoDup cons -> (forall j c, k <= j -> cons !! j = Some c -> exists rest, p_args (H c) = N self :: rest) -> length cons - k < fuel ->
  exists H', redirect fuel self new H cons k fresh = Some (H', cons) /\ (forall j c, k <= j -> cons !! j = Some c -> p_args (H' c) = N new :: tail (p_args (H c))) /\ (forall c, (forall j, k <= j -> cons !! j <> Some c) -> H' c = H c).
Proof.
  induction fuel as [|f IH]; intros self new H cons k fresh Hnd Hall Hf; [lia|]. cbn [redirect]. destruct (cons !! k) as [d|] eqn:Hd.
  - destruct (Hall k d ltac:(lia) Hd) as (rest & Er). rewrite Er, decide_True by done. pose proof (lookup_lt_Some _ _ _ Hd) as Hlt.
    assert (Hdif : forall j c, S k <= j -> cons !! j = Some c -> c <> d). { intros j c Hj Hc ->. pose proof (NoDup_lookup _ _ _ _ Hnd Hc Hd). lia. }
    destruct (IH self new (upn H d (mkP (N new :: rest))) cons (S k) fresh Hnd) as (H' & E & A & B); [|lia|].
    { intros j c Hj Hc. rewrite upn_ne by (by apply (Hdif j)). apply (Hall j c); [lia|done]. }
    exists H'. split; [done|]. split.
    + intros j c Hj Hc. destruct (decide (j = k)) as [->|Hne].
      * rewrite Hd in Hc. injection Hc as <-. rewrite B; [by rewrite upn_eq, Er|]. intros j Hj2 Hj3. by apply (Hdif j d).
      * rewrite (A j c) by (try done; lia). rewrite upn_ne; [done|]. apply (Hdif j); [lia|done].
    + intros c Hc. rewrite B; [|intros j Hj; apply Hc; lia]. apply upn_ne. intros ->. by apply (Hc k).
  - exists H. split; [done|]. split; [|done]. intros j c Hj Hc. apply lookup_lt_Some in Hc. apply lookup_ge_None in Hd. lia.
Qed.
