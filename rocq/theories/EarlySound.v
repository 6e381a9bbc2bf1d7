(** * Early returns: one step keeps the meaning (or makes an error of it) *)

From Coq Require Import Arith Lia.
From stdpp Require Import base numbers list list_numbers.
From Verif Require Import CppBase EarlyModel EarlySpec EarlyProofs.

(** ** The invariant of the pass

    A yield is the last operation of its block and has as many operands as the
    if has results; all returns have [m] operands; the values yielded by a branch
    of an if with a return inside are not defined after the if. *)

Definition yvals (o : op) : list nat := match o with Yield xs => xs | _ => [] end.
Definition yops (l : list op) : list nat := concat (map yvals l).

Definition yarity (n : nat) (o : op) : Prop :=
  match o with Yield xs => length xs = n | _ => True end.

Definition good_branch (rs : list nat) (b : list op) : Prop :=
  Forall (yarity (length rs)) b ∧ (has_yield b = false → has_ret b = false → rs = []).

Definition link (o : op) (D : list nat) : Prop :=
  match o with
  | If rs c t e =>
      0 < odepth o →
      (has_ret t = false → ∀ y, y ∈ yops t → y ∉ D) ∧ (has_ret e = false → ∀ y, y ∈ yops e → y ∉ D)
  | _ => True
  end.

Section wf.
Context (m : nat).
Fixpoint owf (o : op) : Prop :=
  match o with
  | If rs c t e =>
      let wf := fix wf l :=
        match l with
        | [] => True
        | o :: l' => owf o ∧ (is_yield o = true → l' = []) ∧ link o (concat (map odefs l')) ∧ wf l'
        end in
      wf t ∧ wf e ∧ good_branch rs t ∧ good_branch rs e
  | Ret xs => length xs = m
  | _ => True
  end.
Fixpoint wf (l : list op) : Prop :=
  match l with
  | [] => True
  | o :: l' => owf o ∧ (is_yield o = true → l' = []) ∧ link o (concat (map odefs l')) ∧ wf l'
  end.
End wf.

Lemma owf_If m rs c t e :
  owf m (If rs c t e) ↔ wf m t ∧ wf m e ∧ good_branch rs t ∧ good_branch rs e.
Proof. split; intros H; exact H. Qed.
Lemma wf_cons m o l :
  wf m (o :: l) ↔ owf m o ∧ (is_yield o = true → l = []) ∧ link o (defs l) ∧ wf m l.
Proof. split; intros H; exact H. Qed.

(** the names of a context *)
Definition kdefs (ks : ctx) : list nat := concat (map (λ k, k.1 ++ defs k.2) ks).
Definition kuses (ks : ctx) : list nat := concat (map (λ k, uses k.2) ks).

Lemma kdefs_cons rs post (ks : ctx) : kdefs ((rs, post) :: ks) = rs ++ defs post ++ kdefs ks.
Proof. unfold kdefs. cbn [map concat fst snd]. by rewrite <- app_assoc. Qed.
Lemma kuses_cons rs post (ks : ctx) : kuses ((rs, post) :: ks) = uses post ++ kuses ks.
Proof. done. Qed.

(** the yields of a block inside the context *)
Definition kyield (ks : ctx) (l : list op) : Prop :=
  match ks with
  | [] => has_yield l = false
  | (rs, _) :: _ => Forall (yarity (length rs)) l
  end.

Fixpoint kwf (m : nat) (ks : ctx) : Prop :=
  match ks with
  | [] => True
  | (rs, post) :: ks' => wf m post ∧ kyield ks' post ∧ kwf m ks'
  end.

(** ** The shape of a block with a yield *)

Lemma has_yield_app l1 l2 : has_yield (l1 ++ l2) = has_yield l1 || has_yield l2.
Proof. apply existsb_app. Qed.
Lemma has_ret_app l1 l2 : has_ret (l1 ++ l2) = has_ret l1 || has_ret l2.
Proof. apply existsb_app. Qed.

Lemma yield_shape m l : wf m l → has_yield l = true →
  ∃ p xs, l = p ++ [Yield xs] ∧ has_yield p = false.
Proof.
  induction l as [|o l IH]; intros Hwf Hy; [done|].
  apply wf_cons in Hwf as (_ & Hlast & _ & Hwf).
  destruct (is_yield o) eqn:Eo.
  - rewrite (Hlast eq_refl). destruct o; try done. by exists [], xs.
  - cbn [has_yield existsb] in Hy. rewrite Eo in Hy. cbn [orb] in Hy.
    destruct (IH Hwf Hy) as (p & xs & -> & Hp). exists (o :: p), xs. split; [done|].
    cbn [has_yield existsb]. by rewrite Eo.
Qed.

Lemma upto_noyield p : has_yield p = false → upto p = p.
Proof.
  induction p as [|o p IH]; intros Hy; [done|].
  cbn [has_yield existsb] in Hy. apply orb_false_iff in Hy as [H1 H2].
  destruct o; try done; cbn [upto]; f_equal; by apply IH.
Qed.
Lemma upto_yield p xs : has_yield p = false → upto (p ++ [Yield xs]) = p ++ [Yield xs].
Proof.
  induction p as [|o p IH]; intros Hy; [done|].
  cbn [has_yield existsb] in Hy. apply orb_false_iff in Hy as [H1 H2].
  destruct o; try done; cbn [upto app]; f_equal; by apply IH.
Qed.
Lemma upto_wf m l : wf m l → upto l = l.
Proof.
  intros Hwf. destruct (has_yield l) eqn:Hy.
  - destruct (yield_shape _ _ Hwf Hy) as (p & xs & -> & Hp). by apply upto_yield.
  - by apply upto_noyield.
Qed.

Lemma ensure_yield_shape m b : wf m b →
  ∃ p xs, ensure_yield b = p ++ [Yield xs] ∧ has_yield p = false
    ∧ ((b = p ++ [Yield xs]) ∨ (b = p ∧ xs = [])).
Proof.
  intros Hwf. destruct (has_yield b) eqn:Hy.
  - destruct (yield_shape _ _ Hwf Hy) as (p & xs & -> & Hp). exists p, xs.
    unfold ensure_yield. rewrite last_snoc. auto.
  - exists b, []. unfold ensure_yield.
    destruct (last b) as [o|] eqn:El; [|auto].
    destruct o; auto. exfalso.
    apply last_Some in El as (l & ->). rewrite has_yield_app in Hy. apply orb_false_iff in Hy as [_ Hy]. done.
Qed.

(** ** elim *)

Lemma elim_app rss g p l : has_yield p = false →
  elim rss g (p ++ l) = (let* r := elim rss g l in Ok (map (sub g) p ++ r)).
Proof.
  induction p as [|o p IH]; intros Hy; cbn [app map].
  - by destruct (elim rss g l).
  - cbn [has_yield existsb] in Hy. apply orb_false_iff in Hy as [H1 H2].
    destruct o; try done; cbn [elim]; rewrite (IH H2); by destruct (elim rss g l).
Qed.

Lemma elim_noyield rss g l r : elim rss g l = Ok r → has_yield r = false.
Proof.
  revert rss g r. induction l as [|o l IH]; intros rss g r E.
  - by injection E as <-.
  - destruct o; cbn [elim] in E.
    1,2,4: destruct (elim rss g l) as [r'| |] eqn:E'; try done; cbn [obind] in E; injection E as <-;
      cbn [has_yield existsb sub is_yield orb]; by eapply IH.
    destruct rss as [|rs rss]; [done|]. by eapply IH.
Qed.

Lemma sub_id o : sub (λ x, x) o = o.
Proof. destruct o; cbn [sub]; by rewrite ?map_id. Qed.
Lemma subs_id l : map (sub (λ x, x)) l = l.
Proof. rewrite (map_ext _ (λ o, o) sub_id). apply map_id. Qed.

Lemma clone_yield K o : is_yield (clone K o) = is_yield o.
Proof. by destruct o. Qed.
Lemma clones_yield K p : has_yield (map (clone K) p) = has_yield p.
Proof.
  induction p as [|o p IH]; [done|]. cbn [map has_yield existsb]. rewrite clone_yield. f_equal. exact IH.
Qed.

Lemma assoc_out rs ys g x : x ∉ rs → assoc rs ys g x = g x.
Proof.
  revert ys. induction rs as [|r rs IH]; intros [|y ys] Hx; try done; cbn [assoc].
  apply not_elem_of_cons in Hx as [H1 H2]. rewrite decide_False by done. by apply IH.
Qed.
Lemma assoc_cases rs ys g x : assoc rs ys g x = g x ∨ (x ∈ rs ∧ assoc rs ys g x ∈ ys).
Proof.
  revert ys. induction rs as [|r rs IH]; intros [|y ys]; auto; cbn [assoc].
  destruct (decide (x = r)) as [->|Hne].
  - right. split; left.
  - destruct (IH ys) as [->|[H1 H2]]; [by left|]. right. split; by right.
Qed.

Lemma trim_last l : has_ret l = true → ∃ p xs, trim l = p ++ [Ret xs] ∧ has_ret p = false
  ∧ ∃ q, l = p ++ Ret xs :: q.
Proof.
  induction l as [|o l IH]; intros H; [done|].
  destruct (is_ret o) eqn:Eo.
  - destruct o; try done. exists [], xs. cbn [trim app]. eauto.
  - cbn [has_ret existsb] in H. rewrite Eo in H. destruct (IH H) as (p & xs & E & Hp & q & ->).
    exists (o :: p), xs. destruct o; try done; cbn [trim app]; rewrite E; cbn [has_ret existsb is_ret orb];
      repeat split; eauto.
Qed.

Lemma wf_app_yield m p q : wf m (p ++ q) → q ≠ [] → has_yield p = false.
Proof.
  induction p as [|o p IH]; intros Hwf Hq; [done|].
  cbn [app] in Hwf. apply wf_cons in Hwf as (_ & Hl & _ & Hwf).
  cbn [has_yield existsb]. apply orb_false_iff. split; [|by apply IH].
  destruct (is_yield o); [|done]. specialize (Hl eq_refl). destruct p, q; done.
Qed.

Lemma wf_app_r m p q : wf m (p ++ q) → wf m q.
Proof.
  induction p as [|o p IH]; intros Hwf; [done|].
  cbn [app] in Hwf. apply wf_cons in Hwf as (_ & _ & _ & Hwf). by apply IH.
Qed.

Lemma nodup5 (A B C D E : list nat) :
  NoDup (((A ++ B ++ C) ++ D) ++ E) → NoDup (B ++ A ++ D ++ E) ∧ NoDup (C ++ A ++ D ++ E).
Proof.
  rewrite !NoDup_app. setoid_rewrite elem_of_app.
  intros (((HA & HA1 & HB & HB1 & HC) & H2 & HD) & H3 & HE).
  split; repeat (split; [done|]); (split; [|split; [done|]]);
    try (split; [|split; [done|split; [|done]]]);
    intros x; pose proof (HA1 x); pose proof (HB1 x); pose proof (H2 x); pose proof (H3 x);
    rewrite ?elem_of_app in *; tauto.
Qed.
Lemma nodup3 (A B C : list nat) : NoDup ((A ++ B) ++ C) → NoDup (B ++ C).
Proof. rewrite <- app_assoc. intros H. by apply NoDup_app in H as (_ & _ & H). Qed.

Section run.
  Context {V S : Type}.
  Context (sem : nat → list V → list V → S → (nat → V) * S).
  Context (truth : V → bool).

  Notation exec := (exec sem truth).
  Notation block := (block sem truth).
  Notation plug := (plug sem truth).

  (** the results of an if are replaced by the yielded values *)
  Lemma rel_assoc K g rs xs (r2 r1 r1' : nat → option V) :
    rel K (λ x, x) r2 r1 → rel K g r2 r1 → NoDup rs →
    (∀ x, x ∈ xs → x < K) → (∀ y, y ∈ rs → r2 y = None) →
    length xs = length rs →
    bind r1 rs (map r1 xs) = Some r1' →
    rel K (λ x, x) r2 r1' ∧ rel K (assoc rs (map g xs) g) r2 r1'.
  Proof.
    intros Hid Hg Hnd Hxs Hrs Hlen E. split.
    - intros x HxK v Hv. destruct (decide (x ∈ rs)) as [Hin|Hnin].
      + by rewrite Hrs in Hv.
      + rewrite (bind_frame _ _ _ _ _ E Hnin). by apply (Hid x).
    - intros x HxK v Hv. destruct (decide (x ∈ rs)) as [Hin|Hnin].
      + assert (Hgen : ∀ r0 (H0 : ∀ x, x ∈ xs → le_opt (r2 (g x)) (r1 x)), bind r0 rs (map r1 xs) = Some r1' →
                   r1' x = Some v); [|apply (Hgen r1); [intros z Hz; apply Hg; by apply Hxs|done]].
        clear E Hg Hid Hrs.
        revert xs Hlen Hxs Hv. induction rs as [|y rs IH]; intros [|z xs] Hlen Hxs Hv r0 H0 E; try done.
        { by apply elem_of_nil in Hin. }
        cbn [assoc map bind] in *. apply NoDup_cons in Hnd as [Hny Hnd].
        destruct (decide (x = y)) as [->|Hne].
        * rewrite (bind_frame _ _ _ _ _ E Hny). unfold upd. rewrite decide_True by done.
          apply (H0 z); [left|done].
        * apply elem_of_cons in Hin as [->|Hin]; [done|].
          apply (IH Hnd Hin xs) with (r0 := upd r0 y (r1 z)); try done.
          -- cbn [length] in Hlen. lia.
          -- intros w Hw. apply Hxs. by right.
          -- intros w Hw. apply H0. by right.
      + rewrite (bind_frame _ _ _ _ _ E Hnin). rewrite assoc_out in Hv by done. by apply (Hg x).
  Qed.

  (** ** The operations after the enclosing ifs, cloned *)
  Lemma up_sim K m (ks : ctx) : ∀ g r2 r1 s xs gl L ws r2' s',
    kwf m ks → NoDup (kdefs ks) →
    (∀ y, y ∈ kuses ks → y < K) →
    (∀ y, y ∈ kdefs ks → y < K ∧ r2 y = None ∧ r2 (K + y) = None ∧ g y = y) →
    (∀ y, y < K → g y < K) →
    rel K (λ x, x) r2 r1 → rel K g r2 r1 →
    (∀ x, x ∈ xs → x < K) →
    kyield ks [Yield xs] →
    gather_up K ks = Ok gl →
    elim (map fst ks) g (Yield xs :: gl) = Ok L →
    block L r2 s = Done (RetE ws) r2' s' →
    ∃ r1', plug (Done (YieldE (map r1 xs)) r1 s) ks = Done (RetE ws) r1' s'.
  Proof.
    induction ks as [|[rs post] ks IH];
      intros g r2 r1 s xs gl L ws r2' s' Hwf Hnd Hku Hkd HgK Hid Hg Hxs Hky Hga Hel Hrun; [done|].
    cbn [kwf] in Hwf. destruct Hwf as (Hwp & Hyp & Hwk).
    rewrite kdefs_cons in Hnd, Hkd. rewrite kuses_cons in Hku.
    cbn [kyield] in Hky. rewrite Forall_singleton in Hky. cbn [yarity] in Hky.
    cbn [gather_up] in Hga. cbn [map fst elim] in Hel. cbn [EarlyProofs.plug branch_end].
    apply NoDup_app in Hnd as (Hnrs & Hd1 & Hnd). apply NoDup_app in Hnd as (Hnp & Hd2 & Hnk).
    destruct (bind_is r1 rs (map r1 xs)) as [r1a Eb]; [rewrite map_length; lia|].
    unfold binds. rewrite Eb.
    destruct (rel_assoc K g rs xs r2 r1 r1a) as [Hid1 Hg1]; try done.
    { intros y Hy. apply Hkd. rewrite !elem_of_app. auto. }
    set (g1 := assoc rs (map g xs) g) in *.
    assert (Hg1K : ∀ y, y < K → g1 y < K).
    { intros y HyK. unfold g1. destruct (assoc_cases rs (map g xs) g y) as [->|[_ Hin]]; [by apply HgK|].
      apply elem_of_list_fmap in Hin as (z & -> & Hz). apply HgK. by apply Hxs. }
    assert (Hg1out : ∀ y, y ∉ rs → g1 y = g y) by (intros y Hy; by apply assoc_out).
    clearbody g1.
    assert (Hfp : ∀ y, y ∈ defs post → y < K ∧ r2 y = None ∧ r2 (K + y) = None ∧ g1 y = y).
    { intros y Hy. rewrite Hg1out; [apply Hkd; rewrite !elem_of_app; auto|].
      intros Hin. apply (Hd1 y Hin). apply elem_of_app. by left. }
    rewrite (upto_wf m) in Hga by done.
    destruct (has_yield post) eqn:Hy.
    - destruct (yield_shape _ _ Hwp Hy) as (p & ys & -> & Hp).
      destruct (gather_up K ks) as [gl'| |] eqn:Hga'; try done. cbn [obind] in Hga.
      injection Hga as <-. rewrite map_app in Hel. cbn [map clone] in Hel.
      rewrite <- app_assoc in Hel. cbn [app] in Hel.
      rewrite elim_app in Hel by (by rewrite clones_yield).
      rewrite defs_app, app_nil_r in Hfp, Hnp. rewrite defs_app, app_nil_r in Hd2.
      destruct (elim (map fst ks) g1 (Yield ys :: gl')) as [L'| |] eqn:Hel'; try done.
      cbn [obind] in Hel. injection Hel as <-.
      rewrite block_app in Hrun.
      destruct (block (map (sub g1) (map (clone K) p)) r2 s) as [|x2 rr2 s2] eqn:E2; [done|].
      destruct (clones_sim sem truth K g1 p r2 r1a s x2 rr2 s2 Hid1 Hg1) as (r1b & E1 & Hid2 & Hg2 & Hlow & Hfr); try done.
      { intros y Hin. apply Hku. rewrite uses_app, !elem_of_app. auto. }
      rewrite block_app, E1. destruct x2.
      + cbn [EarlySpec.block EarlySpec.exec].
        eapply (IH g1 rr2 r1b s2 ys gl' L'); try done.
        * intros y Hin. apply Hku. rewrite elem_of_app. by right.
        * intros y Hin.
          destruct (Hkd y) as (HyK & Hn1 & Hn2 & Hgy); [rewrite !elem_of_app; auto|].
          assert (y ∉ rs) by (intros Hin'; apply (Hd1 y Hin'), elem_of_app; by right).
          assert (y ∉ defs p) by (intros Hin'; by apply (Hd2 y)).
          rewrite Hlow, Hfr, Hg1out by done. done.
        * intros x Hx. apply Hku. rewrite uses_app, !elem_of_app. left. right.
          unfold uses. cbn [map concat ouses]. by rewrite app_nil_r.
        * destruct ks as [|[rs' post'] ks]; [by cbn [gather_up] in Hga'|].
          cbn [kyield] in Hyp |- *. by apply Forall_app in Hyp as [_ ?].
      + exfalso. by injection Hrun.
      + injection Hrun as <- <- <-. exists r1b. apply plug_ret.
    - cbn [obind] in Hga. injection Hga as <-. rewrite app_nil_r in Hel.
      rewrite <- (app_nil_r (map (clone K) post)), elim_app in Hel by (by rewrite clones_yield).
      cbn [elim obind] in Hel. injection Hel as <-. rewrite app_nil_r in Hrun.
      destruct (clones_sim sem truth K g1 post r2 r1a s (RetE ws) r2' s' Hid1 Hg1) as (r1b & E1 & _); try done.
      { intros y Hin. apply Hku. rewrite elem_of_app. by left. }
      rewrite E1. exists r1b. apply plug_ret.
  Qed.

  (** ** One branch of the new if *)

  (** what the return after the new if makes of a run of one of its branches *)
  Definition fin (a : res V S) : option (list V * S) :=
    match a with
    | Done (YieldE os) _ s => match mapM (λ o, o) os with Some ws => Some (ws, s) | None => None end
    | Done (RetE ws) _ s => Some (ws, s)
    | _ => None
    end.

  Lemma block_noyield l : has_yield l = false → ∀ r s ws r' s', block l r s ≠ Done (YieldE ws) r' s'.
  Proof.
    induction l as [|o l IH]; intros Hy r s ws r' s' E; [done|].
    cbn [has_yield existsb] in Hy. apply orb_false_iff in Hy as [H1 H2].
    cbn [EarlySpec.block] in E. destruct (exec o r s) as [|x r1 s1] eqn:E1; [done|].
    destruct x; [by eapply IH| |done].
    destruct o as [rs f xs ns|rs c t e|xs|xs]; [| |done|].
    - cbn [EarlySpec.exec] in E1. destruct (mapM r xs); [|done]. destruct (mapM r ns); [|done].
      destruct (sem f l0 l1 s). apply binds_Done in E1 as [? _]. done.
    - rewrite exec_If in E1. destruct (r c) as [v|]; [|done].
      destruct (block (if truth v then t else e) r s) as [|[| |] r2 s2]; cbn [branch_end] in E1;
        try done; by apply binds_Done in E1 as [? _].
    - cbn [EarlySpec.exec] in E1. by destruct (mapM r xs).
  Qed.

  Lemma fin_last l xs r s ws s' : has_yield l = false →
    fin (block (l ++ [Yield xs]) r s) = Some (ws, s') →
    ∃ r', block (l ++ [Ret xs]) r s = Done (RetE ws) r' s'.
  Proof.
    intros Hy. rewrite !block_app.
    destruct (block l r s) as [|x r1 s1] eqn:E; [done|].
    destruct x.
    - cbn [EarlySpec.block EarlySpec.exec fin].
      assert (Hm : mapM (λ o : option V, o) (map r1 xs) = mapM r1 xs).
      { clear. induction xs as [|x xs IH]; [done|]. cbn [map mapM]. unfold mapM in *. cbn. by rewrite IH. }
      rewrite Hm. destruct (mapM r1 xs); [|done]. intros [= <- <-]. eauto.
    - by apply block_noyield in E.
    - cbn [fin]. intros [= <- <-]. eauto.
  Qed.

  Lemma block_trim l r s : block (trim l) r s = block l r s.
  Proof.
    revert r s. induction l as [|o l IH]; intros r s; [done|].
    destruct o; cbn [trim EarlySpec.block].
    1,2,3: destruct (exec _ r s) as [|[| |] ? ?]; try done; apply IH.
    cbn [EarlySpec.exec]. by destruct (mapM r xs).
  Qed.

  Lemma case_sound K m rs b post (ks : ctx) b' r s ws s' :
    wf m b → good_branch rs b → wf m post → kyield ks post → kwf m ks →
    NoDup (defs b ++ rs ++ defs post ++ kdefs ks) →
    (∀ y, y ∈ uses b ++ uses post ++ kuses ks → y < K) →
    (∀ y, y ∈ defs b ++ rs ++ defs post ++ kdefs ks → y < K ∧ r y = None) →
    (∀ y, K ≤ y → r y = None) →
    (has_ret b = false → ∀ y, y ∈ yops b → y ∉ defs post) →
    new_case K rs b post ks = Ok b' →
    fin (block b' r s) = Some (ws, s') →
    ∃ r1', plug (block b r s) ((rs, post) :: ks) = Done (RetE ws) r1' s'.
  Proof.
    intros Hwb Hgb Hwp Hyp Hwk Hnd Hu Hd HK Hlink Hnc Hfin.
    unfold new_case in Hnc.
    destruct (has_ret b) eqn:Hrb.
    - cbn [obind] in Hnc.
      destruct (trim_last b Hrb) as (p & xs & Et & _ & q & Eb).
      rewrite Et, last_snoc, removelast_last in Hnc. injection Hnc as <-.
      destruct (fin_last p xs r s ws s') as [r' Er]; [|done|].
      { apply (wf_app_yield m p (Ret xs :: q)); [by rewrite <- Eb|done]. }
      rewrite <- Et, block_trim in Er. rewrite Er. exists r'. apply plug_ret.
    - destruct (gather K post ks) as [gl| |] eqn:Hga; try done. cbn [obind] in Hnc.
      destruct (elim (rs :: map fst ks) (λ x, x) (ensure_yield b ++ gl)) as [L| |] eqn:Hel; try done.
      cbn [obind] in Hnc.
      assert (Hrun : ∃ r2', block L r s = Done (RetE ws) r2' s').
      { destruct (last L) as [o|] eqn:El; [|done]. destruct o; try done.
        apply last_Some in El as (L0 & ->). rewrite removelast_last in Hnc. injection Hnc as <-.
        apply elim_noyield in Hel. rewrite has_yield_app in Hel. apply orb_false_iff in Hel as [Hel _].
        by apply fin_last. }
      clear Hfin Hnc. destruct Hrun as [r2' Hrun].
      destruct (ensure_yield_shape m b Hwb) as (p & xs & Ee & Hyp0 & Hb).
      rewrite Ee, <- app_assoc in Hel. cbn [app] in Hel.
      rewrite elim_app in Hel by done. rewrite subs_id in Hel. cbn [elim] in Hel.
      rewrite map_id in Hel.
      destruct (elim (map fst ks) (assoc rs xs (λ x, x)) gl) as [L1| |] eqn:Hel1; try done.
      cbn [obind] in Hel. injection Hel as <-.
      rewrite block_app in Hrun.
      assert (Hdp : ∀ y, y ∈ defs p → y ∈ defs b).
      { intros y Hy. destruct Hb as [->|[-> _]]; [|done]. rewrite defs_app, elem_of_app. by left. }
      assert (Hxs : length xs = length rs ∧ (∀ x, x ∈ xs → x ∈ uses b ∧ x ∈ yops b)).
      { destruct Hgb as [Hg1 Hg2]. destruct Hb as [->|[-> ->]].
        - apply Forall_app in Hg1 as [_ Hg1]. rewrite Forall_singleton in Hg1. split; [done|].
          intros x Hx. rewrite uses_app. unfold yops. rewrite map_app, concat_app, !elem_of_app.
          unfold uses. cbn [map concat ouses yvals]. rewrite app_nil_r. auto.
        - rewrite (Hg2 Hyp0 Hrb). split; [done|]. intros x Hx. by apply elem_of_nil in Hx. }
      destruct Hxs as [Hlen Hxs].
      cbn [EarlyProofs.plug].
      destruct (block p r s) as [|x0 r0 s0] eqn:Ep; [done|].
      assert (Hpb : block b r s = match x0 with
                      | End => match xs, Hb with _, _ => if has_yield b then Done (YieldE (map r0 xs)) r0 s0 else Done End r0 s0 end
                      | x => Done x r0 s0 end).
      { destruct Hb as [->|[-> ->]].
        - rewrite block_app, Ep, has_yield_app. destruct x0; try done.
          by rewrite orb_true_r.
        - rewrite Ep, Hyp0. by destruct x0. }
      destruct x0; [|by injection Hrun|].
      2: { injection Hrun as <- <- <-. rewrite Hpb. cbn [branch_end]. eauto. }
      apply NoDup_app in Hnd as (Hnb & Hd1 & Hnd). apply NoDup_app in Hnd as (Hnrs & Hd2 & Hnd).
      apply NoDup_app in Hnd as (Hnp & Hd3 & Hnk).
      destruct (bind_is r0 rs (map r0 xs)) as [r1 Eb]; [rewrite map_length; lia|].
      assert (Hbe : branch_end rs (block b r s) = Done End r1 s0).
      { rewrite Hpb. destruct (has_yield b) eqn:Hyb; cbn [branch_end]; unfold binds.
        - by rewrite Eb.
        - assert (xs = []) as ->.
          { destruct Hb as [->|[_ ->]]; [|done]. rewrite has_yield_app in Hyb.
            apply orb_false_iff in Hyb as [_ Hyb]. done. }
          cbn [map] in Eb. by rewrite Eb. }
      rewrite Hbe. clear Hbe Hpb.
      assert (Hr0 : ∀ y, y ∉ defs b → r0 y = r y).
      { intros y Hy. eapply block_frame; [done|]. intros Hin. by apply Hy, Hdp. }
      assert (HbK : ∀ y, y ∈ defs b → y < K) by (intros y Hy; apply Hd, elem_of_app; by left).
      assert (Hrefl : rel K (λ x, x) r0 r0) by (intros x Hx v Hv; exact Hv).
      destruct (rel_assoc K (λ x, x) rs xs r0 r0 r1 Hrefl Hrefl) as [Hid1 Hg1]; try done.
      { intros x Hx. apply Hu, elem_of_app. left. by apply Hxs. }
      { intros y Hy. rewrite Hr0; [apply Hd; rewrite !elem_of_app; auto|].
        intros Hin. apply (Hd1 y Hin), elem_of_app. by left. }
      rewrite map_id in Hg1.
      set (g1 := assoc rs xs (λ x, x)) in *.
      assert (Hg1out : ∀ y, y ∉ rs → g1 y = y) by (intros y Hy; unfold g1; by rewrite assoc_out).
      assert (Hg1in : ∀ y, g1 y = y ∨ (y ∈ rs ∧ g1 y ∈ xs)) by (intros y; apply assoc_cases).
      clearbody g1.
      unfold gather in Hga. rewrite (upto_wf m) in Hga by done.
      assert (Hfp : ∀ D : list nat, (∀ y, y ∈ D → y ∈ defs post) → ∀ y, y < K → g1 y ≠ y → g1 y ∉ D ∧ y ∉ D).
      { intros D HD y HyK Hne. destruct (Hg1in y) as [?|[H1 H2]]; [done|]. split.
        - intros Hin%HD. apply Hxs in H2 as [_ H2]. by apply (Hlink eq_refl _ H2).
        - intros Hin%HD. apply (Hd2 y H1), elem_of_app. by left. }
      destruct (has_yield post) eqn:Hy.
      + destruct (yield_shape _ _ Hwp Hy) as (q & ys & -> & Hq).
        destruct (gather_up K ks) as [gl'| |] eqn:Hga'; try done. cbn [obind] in Hga.
        injection Hga as <-. rewrite <- app_assoc in Hel1. cbn [app] in Hel1.
        rewrite elim_app in Hel1 by done.
        destruct (elim (map fst ks) g1 (Yield ys :: gl')) as [L2| |] eqn:Hel2; try done.
        cbn [obind] in Hel1. injection Hel1 as <-.
        rewrite block_app in Hrun.
        destruct (block (map (sub g1) q) r0 s0) as [|x2 rr2 s2] eqn:E2; [done|].
        destruct (moves_sim sem truth K g1 q r0 r1 s0 x2 rr2 s2 Hid1 Hg1) as (r1b & E1 & Hid2 & Hg2); try done.
        { intros y Hin. apply Hu. rewrite uses_app, !elem_of_app. auto. }
        { apply Hfp. intros y Hin. rewrite defs_app, elem_of_app. by left. }
        rewrite block_app, E1. destruct x2; [|by injection Hrun|].
        * cbn [EarlySpec.block EarlySpec.exec].
          eapply (up_sim K m ks g1 rr2 r1b s2 ys gl' L2); try done.
          -- intros y Hin. apply Hu. rewrite !elem_of_app. auto.
          -- intros y Hin.
             assert (Hnb' : y ∉ defs b) by (intros Hin'; apply (Hd1 y Hin'); rewrite !elem_of_app; auto).
             assert (Hnrs' : y ∉ rs) by (intros Hin'; apply (Hd2 y Hin'); rewrite !elem_of_app; auto).
             assert (Hnq : y ∉ defs q).
             { intros Hin'; apply (Hd3 y); [|done]. rewrite defs_app, elem_of_app. by left. }
             destruct (Hd y) as [HyK Hny]; [rewrite !elem_of_app; auto|].
             split; [done|].
             rewrite !(block_frame _ _ _ _ _ _ _ _ _ E2).
             ++ rewrite !Hr0, Hg1out by (try done; intros Hin'; apply HbK in Hin'; lia).
                split; [done|]. split; [apply HK; lia|done].
             ++ assert (Hds : defs (map (sub g1) q) = defs q).
                { clear. unfold defs. rewrite map_map. f_equal. apply map_ext. intros o. apply odefs_sub. }
                rewrite Hds. intros Hin'.
                assert (K + y < K); [|lia]. apply Hd. rewrite defs_app, !elem_of_app. auto.
             ++ assert (Hds : defs (map (sub g1) q) = defs q).
                { clear. unfold defs. rewrite map_map. f_equal. apply map_ext. intros o. apply odefs_sub. }
                by rewrite Hds.
          -- intros y HyK. destruct (Hg1in y) as [->|[_ Hin]]; [done|].
             apply Hu. rewrite elem_of_app. left. by apply Hxs.
          -- intros x Hx. apply Hu. rewrite !elem_of_app, uses_app, elem_of_app. right. left. right.
             unfold uses. cbn [map concat ouses]. by rewrite app_nil_r.
          -- destruct ks as [|[rs' post'] ks]; [by cbn [gather_up] in Hga'|].
             cbn [kyield] in Hyp |- *. by apply Forall_app in Hyp as [_ ?].
        * injection Hrun as <- <- <-. exists r1b. apply plug_ret.
      + cbn [obind] in Hga. injection Hga as <-. rewrite app_nil_r in Hel1.
        rewrite <- (app_nil_r post), elim_app in Hel1 by done.
        cbn [elim obind] in Hel1. injection Hel1 as <-. rewrite app_nil_r in Hrun.
        destruct (moves_sim sem truth K g1 post r0 r1 s0 (RetE ws) r2' s' Hid1 Hg1) as (r1b & E1 & _); try done.
        { intros y Hin. apply Hu. rewrite !elem_of_app. auto. }
        { by apply Hfp. }
        rewrite E1. exists r1b. apply plug_ret.
  Qed.

  (** ** The new if *)

  Definition ans (a : res V S) : option (list V * S) :=
    match a with
    | Done (RetE ws) _ s => Some (ws, s)
    | Done End _ s => Some ([], s)
    | _ => None
    end.

  Lemma bind_mapM r xs (ws : list (option V)) r' :
    bind r xs ws = Some r' → NoDup xs → mapM r' xs = mapM (λ o, o) ws.
  Proof.
    revert r ws. induction xs as [|x xs IH]; intros r [|w ws] E Hnd; cbn [bind] in E; try done.
    apply NoDup_cons in Hnd as [Hx Hnd]. cbn [mapM].
    assert (Hr : r' x = w).
    { rewrite (bind_frame _ _ _ _ _ E Hx). unfold upd. by rewrite decide_True. }
    unfold mapM in *. cbn. rewrite Hr, (IH _ _ E Hnd). done.
  Qed.

  Lemma block_endyield l xs r s : ∀ r' s', block (l ++ [Yield xs]) r s ≠ Done End r' s'.
  Proof.
    intros r' s'. rewrite block_app. destruct (block l r s) as [|[| |] r1 s1]; done.
  Qed.

  Lemma new_case_last K rs b post (ks : ctx) b' :
    new_case K rs b post ks = Ok b' → ∃ l xs, b' = l ++ [Yield xs].
  Proof.
    unfold new_case. intros H.
    destruct (if has_ret b then _ else _) as [L| |]; try done. cbn [obind] in H.
    destruct (last L) as [[]|]; try done. injection H as <-. eauto.
  Qed.

  Lemma close_sound K m rs c t e post (ks : ctx) l' r s o :
    wf m (If rs c t e :: post) → kyield ks (If rs c t e :: post) → kwf m ks →
    NoDup (defs (If rs c t e :: post) ++ kdefs ks) →
    (∀ y, y ∈ uses (If rs c t e :: post) ++ kuses ks → y < K) →
    (∀ y, y ∈ defs (If rs c t e :: post) ++ kdefs ks → y < K ∧ r y = None) →
    (∀ y, K ≤ y → r y = None) →
    has_ret t || has_ret e = true →
    close K rs c t e post ks = Ok l' →
    ans (plug (block l' r s) ks) = Some o → ans (plug (block (If rs c t e :: post) r s) ks) = Some o.
  Proof.
    intros Hwf Hky Hkw Hnd Hu Hd HK Hret Hcl.
    apply wf_cons in Hwf as (How & _ & Hlink & Hwp).
    destruct (proj1 (owf_If _ _ _ _ _) How) as (Hwt & Hwe & Hgt & Hge).
    rewrite defs_cons, odefs_If in Hnd, Hd. rewrite uses_cons, ouses_If in Hu.
    assert (Hdep : 0 < odepth (If rs c t e)).
    { cbn [odepth]. assert (H : ∀ l, has_ret l = true → 0 < list_max (map odepth l)).
      { induction l as [|o' l IH]; intros H; [done|]. cbn [has_ret existsb] in H. cbn [map].
        change (0 < Nat.max (odepth o') (list_max (map odepth l))).
        destruct o'; cbn [is_ret orb odepth] in *; try (specialize (IH H)); lia. }
      apply orb_true_iff in Hret as [H1|H1]; apply H in H1;
        destruct (Nat.max _ _) eqn:E; lia. }
    specialize (Hlink Hdep) as [Hlt Hle].
    assert (Hyp : kyield ks post).
    { destruct ks as [|[rs' post'] ks]; cbn [kyield] in *.
      - by cbn [has_yield existsb] in Hky.
      - by apply Forall_cons in Hky as [_ ?]. }
    unfold close in Hcl.
    destruct (new_case K rs t post ks) as [t'| |] eqn:Ht; try done. cbn [obind] in Hcl.
    destruct (new_case K rs e post ks) as [e'| |] eqn:He; try done. cbn [obind] in Hcl.
    injection Hcl as <-.
    match goal with |- context [If ?l c t' e'] => set (rs' := l) end.
    assert (Hrs' : NoDup rs') by apply NoDup_seq. clearbody rs'.
    destruct (r c) as [v|] eqn:Ec.
    2: { cbn [EarlySpec.block]. by rewrite exec_If, Ec, plug_stuck. }
    rewrite (plug_If _ _ rs c t e post r s v ks Ec).
    cbn [EarlySpec.block]. rewrite exec_If, Ec.
    assert (Hcase : ∀ ws s', fin (block (if truth v then t' else e') r s) = Some (ws, s') →
       ∃ r1', plug (block (if truth v then t else e) r s) ((rs, post) :: ks) = Done (RetE ws) r1' s').
    { intros ws s' Hfin. destruct (truth v).
      - eapply (case_sound K m rs t post ks t'); try done.
        + exact (proj1 (nodup5 _ _ _ _ _ Hnd)).
        + intros y Hy. apply Hu. revert Hy. rewrite !elem_of_app, elem_of_cons, !elem_of_app. tauto.
        + intros y Hy. apply Hd. revert Hy. rewrite !elem_of_app. tauto.
      - eapply (case_sound K m rs e post ks e'); try done.
        + exact (proj2 (nodup5 _ _ _ _ _ Hnd)).
        + intros y Hy. apply Hu. revert Hy. rewrite !elem_of_app, elem_of_cons, !elem_of_app. tauto.
        + intros y Hy. apply Hd. revert Hy. rewrite !elem_of_app. tauto. }
    assert (Hne : ∀ r' s', block (if truth v then t' else e') r s ≠ Done End r' s').
    { intros r' s'. destruct (truth v).
      - apply new_case_last in Ht as (l0 & xs0 & ->). apply block_endyield.
      - apply new_case_last in He as (l0 & xs0 & ->). apply block_endyield. }
    destruct (block (if truth v then t' else e') r s) as [|x r' s'] eqn:Eb.
    { cbn [branch_end]. by rewrite plug_stuck. }
    destruct x; cbn [branch_end].
    - exfalso. exact (Hne _ _ eq_refl).
    - unfold binds. destruct (bind r' rs' ws) as [r1|] eqn:Ebi; [|by rewrite plug_stuck].
      cbn [EarlySpec.exec]. rewrite (bind_mapM _ _ _ _ Ebi Hrs').
      destruct (mapM (λ o0, o0) ws) as [vs|] eqn:Em; [|by rewrite plug_stuck].
      rewrite plug_ret. cbn [ans]. intros [= <-].
      destruct (Hcase vs s') as (r1' & ->); [|done]. cbn [fin]. by rewrite Em.
    - rewrite plug_ret. cbn [ans]. intros [= <-].
      destruct (Hcase ws s') as (r1' & ->); [|done]. done.
  Qed.

  (** ** One round of the loop *)

  Lemma rect_cons K d ks o post :
    rect K d ks (o :: post) =
    match
      match o with
      | If rs c t e =>
          match d with
          | 0 => if has_ret t || has_ret e then Some (close K rs c t e post ks) else None
          | Datatypes.S d' =>
              match rect K d' ((rs, post) :: ks) t with
              | Some r => Some (let* t' := r in Ok (If rs c t' e :: post))
              | None =>
                  match rect K d' ((rs, post) :: ks) e with
                  | Some r => Some (let* e' := r in Ok (If rs c t e' :: post))
                  | None => None
                  end
              end
          end
      | _ => None
      end
    with
    | Some r => Some r
    | None =>
        match rect K d ks post with
        | Some r => Some (let* l' := r in Ok (o :: l'))
        | None => None
        end
    end.
  Proof. by destruct d. Qed.

  Lemma rect_nil K d ks : rect K d ks [] = None.
  Proof. by destruct d. Qed.

  Lemma kyield_tail (ks : ctx) o l : kyield ks (o :: l) → kyield ks l.
  Proof.
    destruct ks as [|[rs' post'] ks]; cbn [kyield].
    - cbn [has_yield existsb]. intros [_ H]%orb_false_iff. done.
    - by intros [_ ?]%Forall_cons.
  Qed.

  Lemma rect_sound K m d : ∀ (ks : ctx) l l' r s o,
    rect K d ks l = Some (Ok l') →
    wf m l → kyield ks l → kwf m ks →
    NoDup (defs l ++ kdefs ks) →
    (∀ y, y ∈ uses l ++ kuses ks → y < K) →
    (∀ y, y ∈ defs l ++ kdefs ks → y < K ∧ r y = None) →
    (∀ y, K ≤ y → r y = None) →
    ans (plug (block l' r s) ks) = Some o → ans (plug (block l r s) ks) = Some o.
  Proof.
    induction d as [|d IHd]; intros ks l; induction l as [|op post IHl];
      intros l' r s o Hre Hwf Hky Hkw Hnd Hu Hd HK; try (by rewrite rect_nil in Hre);
      rewrite rect_cons in Hre.
    - assert (Hskip : match rect K 0 ks post with
                      | Some r => Some (let* l' := r in Ok (op :: l'))
                      | None => None
                      end = Some (Ok l') →
         ans (plug (block l' r s) ks) = Some o → ans (plug (block (op :: post) r s) ks) = Some o).
      { intros E. destruct (rect K 0 ks post) as [[l1| |]|] eqn:Ep; try done. cbn [obind] in E.
        injection E as <-. apply wf_cons in Hwf as (_ & _ & _ & Hwp).
        rewrite defs_cons in Hnd, Hd. rewrite uses_cons in Hu.
        cbn [EarlySpec.block].
        destruct (exec op r s) as [|x r1 s1] eqn:Ex; [done|]. destruct x; try done.
        assert (Hfr : ∀ y, y ∉ odefs op → r1 y = r y) by (intros y Hy; by eapply exec_frame).
        apply (IHl l1 r1 s1 o); try done.
        - by apply kyield_tail in Hky.
        - exact (nodup3 _ _ _ Hnd).
        - intros y Hy. apply Hu. revert Hy. rewrite !elem_of_app. tauto.
        - intros y Hy. destruct (Hd y) as [HyK Hn]; [revert Hy; rewrite !elem_of_app; tauto|].
          split; [done|]. rewrite Hfr; [done|]. intros Hin.
          revert Hnd Hy. rewrite <- app_assoc, NoDup_app. intros (_ & Hdj & _) Hy. by apply (Hdj y).
        - intros y HyK. rewrite Hfr; [by apply HK|]. intros Hin.
          assert (y < K); [|lia]. apply Hd. rewrite !elem_of_app. auto. }
      destruct op as [rs f xs ns|rs c t e|xs|xs]; [by apply Hskip| |by apply Hskip|by apply Hskip].
      destruct (has_ret t || has_ret e) eqn:Hret; [|by apply Hskip].
      injection Hre as Hre. by apply (close_sound K m rs c t e post ks l').
    - assert (Hskip : match rect K (Datatypes.S d) ks post with
                      | Some r => Some (let* l' := r in Ok (op :: l'))
                      | None => None
                      end = Some (Ok l') →
         ans (plug (block l' r s) ks) = Some o → ans (plug (block (op :: post) r s) ks) = Some o).
      { intros E. destruct (rect K (Datatypes.S d) ks post) as [[l1| |]|] eqn:Ep; try done. cbn [obind] in E.
        injection E as <-. apply wf_cons in Hwf as (_ & _ & _ & Hwp).
        rewrite defs_cons in Hnd, Hd. rewrite uses_cons in Hu.
        cbn [EarlySpec.block].
        destruct (exec op r s) as [|x r1 s1] eqn:Ex; [done|]. destruct x; try done.
        assert (Hfr : ∀ y, y ∉ odefs op → r1 y = r y) by (intros y Hy; by eapply exec_frame).
        apply (IHl l1 r1 s1 o); try done.
        - by apply kyield_tail in Hky.
        - exact (nodup3 _ _ _ Hnd).
        - intros y Hy. apply Hu. revert Hy. rewrite !elem_of_app. tauto.
        - intros y Hy. destruct (Hd y) as [HyK Hn]; [revert Hy; rewrite !elem_of_app; tauto|].
          split; [done|]. rewrite Hfr; [done|]. intros Hin.
          revert Hnd Hy. rewrite <- app_assoc, NoDup_app. intros (_ & Hdj & _) Hy. by apply (Hdj y).
        - intros y HyK. rewrite Hfr; [by apply HK|]. intros Hin.
          assert (y < K); [|lia]. apply Hd. rewrite !elem_of_app. auto. }
      destruct op as [rs f xs ns|rs c t e|xs|xs]; [by apply Hskip| |by apply Hskip|by apply Hskip].
      assert (Hkt := kyield_tail _ _ _ Hky).
      pose proof Hwf as (How & _ & _ & Hwp)%wf_cons.
      destruct (proj1 (owf_If _ _ _ _ _) How) as (Hwt & Hwe & Hgt & Hge).
      assert (Hkw' : kwf m ((rs, post) :: ks)) by done.
      destruct (rect K d ((rs, post) :: ks) t) as [[t'| |]|] eqn:Et; try done.
      + cbn [obind] in Hre. injection Hre as <-.
        destruct (r c) as [v|] eqn:Ec.
        2: { cbn [EarlySpec.block]. by rewrite exec_If, Ec, plug_stuck. }
        rewrite !(plug_If _ _ _ _ _ _ _ _ _ _ _ Ec). destruct (truth v); [|done].
        rewrite defs_cons, odefs_If in Hnd, Hd. rewrite uses_cons, ouses_If in Hu.
        apply (IHd ((rs, post) :: ks) t t' r s o); try done.
        * by destruct Hgt.
        * rewrite kdefs_cons. exact (proj1 (nodup5 _ _ _ _ _ Hnd)).
        * intros y Hy. apply Hu. revert Hy. rewrite kuses_cons, !elem_of_app, elem_of_cons, !elem_of_app. tauto.
        * intros y Hy. apply Hd. revert Hy. rewrite kdefs_cons, !elem_of_app. tauto.
      + destruct (rect K d ((rs, post) :: ks) e) as [[e'| |]|] eqn:Ee; try done; [|by apply Hskip].
        cbn [obind] in Hre. injection Hre as <-.
        destruct (r c) as [v|] eqn:Ec.
        2: { cbn [EarlySpec.block]. by rewrite exec_If, Ec, plug_stuck. }
        rewrite !(plug_If _ _ _ _ _ _ _ _ _ _ _ Ec). destruct (truth v); [done|].
        rewrite defs_cons, odefs_If in Hnd, Hd. rewrite uses_cons, ouses_If in Hu.
        apply (IHd ((rs, post) :: ks) e e' r s o); try done.
        * by destruct Hge.
        * rewrite kdefs_cons. exact (proj2 (nodup5 _ _ _ _ _ Hnd)).
        * intros y Hy. apply Hu. revert Hy. rewrite kuses_cons, !elem_of_app, elem_of_cons, !elem_of_app. tauto.
        * intros y Hy. apply Hd. revert Hy. rewrite kdefs_cons, !elem_of_app. tauto.
  Qed.
End run.
