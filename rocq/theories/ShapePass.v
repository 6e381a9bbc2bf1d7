(** C59: proofs about the pass. *)
From stdpp Require Import base numbers list gmap.
From Verif Require Import CppBase ShapeModel ShapeSpec ShapeProofs.

(** * Induction over programs *)

Section ind.
  Context (P : stmt → Prop).
  Context (HOp : ∀ rs k xs, P (Op rs k xs)).
  Context (HFor : ∀ iv args rs ini b ys, Forall P b → P (For iv args rs ini b ys)).
  Context (HWhile : ∀ bargs ini b c ps aargs rs a ys,
             Forall P b → Forall P a → P (While bargs ini b c ps aargs rs a ys)).
  Context (HIf : ∀ rs c t ty e ey, Forall P t → Forall P e → P (If rs c t ty e ey)).
  Fixpoint stmt_ind' (s : stmt) : P s :=
    let go := fix go (l : list stmt) : Forall P l :=
      match l with [] => Forall_nil_2 P | s :: l => Forall_cons_2 P s l (stmt_ind' s) (go l) end in
    match s with
    | Op rs k xs => HOp rs k xs
    | For iv args rs ini b ys => HFor iv args rs ini b ys (go b)
    | While bargs ini b c ps aargs rs a ys => HWhile bargs ini b c ps aargs rs a ys (go b) (go a)
    | If rs c t ty e ey => HIf rs c t ty e ey (go t) (go e)
    end.
End ind.

(** * Environments *)

Lemma set_all_cons {A} x xs (v : A) vs m : set_all (x :: xs) (v :: vs) m = <[x := v]> (set_all xs vs m).
Proof. done. Qed.
Lemma set_all_nil_r {A} xs (m : gmap nat A) : set_all xs [] m = m.
Proof. by destruct xs. Qed.

Lemma lookup_set_all_ne {A} xs (vs : list A) m y : y ∉ xs → set_all xs vs m !! y = m !! y.
Proof.
  revert vs. induction xs as [|x xs IH]; intros [|v vs] Hy; try done.
  rewrite set_all_cons, lookup_insert_ne by set_solver. apply IH. set_solver.
Qed.

Lemma set_tys_Ok xs ts Γ Γ' : set_tys xs ts Γ = Ok Γ' → length xs = length ts ∧ Γ' = set_all xs ts Γ.
Proof. unfold set_tys. case_decide; [|done]. intros [= <-]. done. Qed.

Lemma all_have_mono Γ Γ' ρ : Γ ⊆ Γ' → all_have Γ ρ → all_have Γ' ρ.
Proof.
  intros Hs Ho x v Hx. destruct (Ho x v Hx) as (t&Ht&Hv). exists t. split; [|done].
  by eapply lookup_weaken.
Qed.

Lemma all_have_set Γ ρ xs ts vs :
  all_have Γ ρ → Forall2 has ts vs → all_have (set_all xs ts Γ) (set_all xs vs ρ).
Proof.
  intros Ho Hf. revert xs. induction Hf as [|t v ts vs Ht _ IH]; intros xs.
  - by rewrite !set_all_nil_r.
  - destruct xs as [|x xs]; [done|]. rewrite !set_all_cons. intros y w Hy.
    destruct (decide (x = y)) as [->|].
    + rewrite lookup_insert in Hy. injection Hy as <-. exists t. by rewrite lookup_insert.
    + rewrite lookup_insert_ne in Hy by done. rewrite lookup_insert_ne by done. by apply (IH xs).
Qed.

Lemma info_of_fits Γ ρ o i v :
  all_have Γ ρ → info_of Γ o = Some i → eval ρ o = Some v → fits i v.
Proof.
  intros Ho Hi Hv. destruct o as [x|z]; cbn in *.
  - destruct (Γ !! x) as [t|] eqn:E; [|done]. injection Hi as <-.
    destruct (Ho x v Hv) as (t'&Ht'&Hh). simplify_eq. split; [done|]. done.
  - simplify_eq. split; [done|]. cbn. by intros ? [= ->].
Qed.

Lemma infos_fit Γ ρ xs is vs :
  all_have Γ ρ → mapM (info_of Γ) xs = Some is → mapM (eval ρ) xs = Some vs → Forall2 fits is vs.
Proof.
  intros Ho Hi Hv. apply mapM_Some in Hi, Hv. revert vs Hv.
  induction Hi as [|x i xs is Hx _ IH]; intros vs Hv; inversion Hv; subst; constructor.
  - by eapply info_of_fits.
  - by apply IH.
Qed.

Lemma tys_have Γ ρ xs ts vs :
  all_have Γ ρ → mapM (ty_of Γ) xs = Some ts → mapM (eval ρ) xs = Some vs → Forall2 has ts vs.
Proof.
  intros Ho Hi Hv. apply mapM_Some in Hi, Hv. revert vs Hv.
  induction Hi as [|x t xs ts Hx _ IH]; intros vs Hv; inversion Hv; subst; constructor.
  - unfold ty_of in Hx. apply fmap_Some in Hx as (i&Hi&->).
    by eapply info_of_fits.
  - by apply IH.
Qed.

Lemma info_of_mono Γ Γ' xs is :
  Γ ⊆ Γ' → mapM (info_of Γ) xs = Some is → mapM (info_of Γ') xs = Some is.
Proof.
  intros Hs Hi. apply mapM_Some in Hi. apply mapM_Some. eapply Forall2_impl; [done|].
  intros [x|z] i Hx; cbn in *; [|done].
  destruct (Γ !! x) as [t|] eqn:E; [|done]. by rewrite (lookup_weaken _ _ _ _ E Hs).
Qed.

(** * The fix-point search *)

Definition weaker (a b : ty) : Prop := ∀ v, has a v → has b v.

Lemma common_weaker a b t : common a b = Some t → weaker a t ∧ weaker b t.
Proof.
  intros Hc. split; intros v Hv; destruct a, b, v; try done; cbn in Hc; injection Hc as <-;
    cbn in Hv |- *; unfold common_dim; repeat case_decide; subst; naive_solver.
Qed.

Lemma commons_weaker l1 l2 ts :
  length l1 = length l2 → mapM (λ p, common p.1 p.2) (zip l1 l2) = Some ts →
  Forall2 weaker l1 ts ∧ Forall2 weaker l2 ts.
Proof.
  revert l2 ts. induction l1 as [|a l1 IH]; intros [|b l2] ts Hl Hm; try done.
  - cbn in Hm. injection Hm as <-. split; constructor.
  - cbn in Hm. destruct (common a b) as [t|] eqn:Ec; [|done]. cbn in Hm.
    destruct (mapM _ (zip l1 l2)) as [ts'|] eqn:Em; [|done]. cbn in Hm. injection Hm as <-.
    destruct (IH l2 ts') as [H1 H2]; [by injection Hl|done|].
    destruct (common_weaker _ _ _ Ec). split; by constructor.
Qed.

Lemma weaker_has l1 l2 vs : Forall2 weaker l1 l2 → Forall2 has l1 vs → Forall2 has l2 vs.
Proof.
  intros Hw. revert vs. induction Hw as [|a b l1 l2 Hab _ IH]; intros vs Hh; inversion Hh; subst; constructor.
  - by apply Hab.
  - by apply IH.
Qed.
Lemma weaker_refl l : Forall2 weaker l l.
Proof. induction l; constructor; [by intros v|done]. Qed.
Lemma weaker_trans l1 l2 l3 : Forall2 weaker l1 l2 → Forall2 weaker l2 l3 → Forall2 weaker l1 l3.
Proof.
  intros Hw. revert l3. induction Hw as [|a b l1 l2 Hab _ IH]; intros l3 Hh; inversion Hh as [|? ? ? ? Hbc]; subst; constructor.
  - intros v Hv. by apply Hbc, Hab.
  - by apply IH.
Qed.

Lemma fix_point_Ok f n ts0 Γ ts :
  fix_point f n ts0 = Some (Ok (Γ, ts)) → f ts = Some (Ok (Γ, ts)) ∧ Forall2 weaker ts0 ts.
Proof.
  revert ts0. induction n as [|n IH]; intros ts0 H; [done|]. cbn [fix_point] in H.
  destruct (f ts0) as [[[Γ' ys]| |]|] eqn:Ef; try done.
  destruct (decide (ys = ts0)) as [->|].
  - injection H as -> ->. split; [done|]. apply weaker_refl.
  - destruct (decide (length ys = length ts0)) as [Hl|]; [|done].
    destruct (mapM _ _) as [ts'|] eqn:Em; [|done].
    destruct (IH ts' H) as [H1 H2]. split; [done|].
    eapply weaker_trans; [|done]. by apply (commons_weaker ys ts0).
Qed.

(** * Inversion of the pass *)

Lemma walk1_Op n rs k xs Γ Γ' :
  walk1 n (Op rs k xs) Γ = Some (Ok Γ') →
  ∃ is ts, mapM (info_of Γ) xs = Some is ∧ result_types k is = Ok ts ∧
           length rs = length ts ∧ Γ' = set_all rs ts Γ.
Proof.
  cbn [walk1]. destruct (mapM (info_of Γ) xs) as [is|] eqn:Ei; [|done]. intros H.
  destruct (result_types k is) as [ts| |] eqn:Et; cbn in H; try done.
  injection H as H. apply set_tys_Ok in H as [? ->]. by exists is, ts.
Qed.

Lemma walk1_For n iv args rs ini b ys Γ Γ' :
  walk1 n (For iv args rs ini b ys) Γ = Some (Ok Γ') →
  ∃ ts0 ts Γb, mapM (ty_of Γ) ini = Some ts0 ∧ Forall2 weaker ts0 ts ∧
    length args = length ts ∧
    walk n b (set_all (iv :: args) (TSca :: ts) Γ) = Some (Ok Γb) ∧
    mapM (ty_of Γb) ys = Some ts ∧ length rs = length ts ∧ Γ' = set_all rs ts Γb.
Proof.
  cbn [walk1]. destruct (mapM (ty_of Γ) ini) as [ts0|] eqn:Ei; [|done]. intros H.
  match type of H with context [fix_point ?f n ts0] => set (F := f) in * end.
  destruct (fix_point F n ts0) as [[[Γb ts]| |]|] eqn:Ef; try done.
  apply fix_point_Ok in Ef as [Ef Hw]. subst F. cbn beta in Ef.
  injection H as H. apply set_tys_Ok in H as [Hl ->].
  destruct (set_tys (iv :: args) (TSca :: ts) Γ) as [Γ0| |] eqn:E0; try done.
  apply set_tys_Ok in E0 as [Hl' ->].
  destruct (walk n b _) as [[Γ1| |]|] eqn:Eb; try done.
  destruct (mapM (ty_of Γ1) ys) as [yt|] eqn:Ey; [|done]. injection Ef as -> ->.
  exists ts0, ts, Γb. split_and!; try done. by injection Hl'.
Qed.

Lemma walk1_While n bargs ini b c ps aargs rs a ys Γ Γ' :
  walk1 n (While bargs ini b c ps aargs rs a ys) Γ = Some (Ok Γ') →
  ∃ ts0 ts Γb pt, mapM (ty_of Γ) ini = Some ts0 ∧ Forall2 weaker ts0 ts ∧
    length bargs = length ts ∧
    walk n b (set_all bargs ts Γ) = Some (Ok Γb) ∧
    mapM (ty_of Γb) ps = Some pt ∧ length rs = length pt ∧ length aargs = length pt ∧
    walk n a (set_all aargs pt (set_all rs pt Γb)) = Some (Ok Γ') ∧
    mapM (ty_of Γ') ys = Some ts.
Proof.
  cbn [walk1]. destruct (mapM (ty_of Γ) ini) as [ts0|] eqn:Ei; [|done]. intros H.
  match type of H with context [fix_point ?f n ts0] => set (F := f) in * end.
  destruct (fix_point F n ts0) as [[[Γa ts]| |]|] eqn:Ef; try done.
  apply fix_point_Ok in Ef as [Ef Hw]. subst F. cbn beta in Ef. injection H as ->.
  destruct (set_tys bargs ts Γ) as [Γ0| |] eqn:E0; try done.
  apply set_tys_Ok in E0 as [Hl' ->].
  destruct (walk n b _) as [[Γ1| |]|] eqn:Eb; try done.
  destruct (mapM (ty_of Γ1) ps) as [pt|] eqn:Ep; [|done].
  destruct (set_tys rs pt Γ1) as [Γr| |] eqn:Er; cbn [obind] in Ef; try done.
  apply set_tys_Ok in Er as [Hlr ->].
  destruct (set_tys aargs pt _) as [Γ2| |] eqn:E2; try done.
  apply set_tys_Ok in E2 as [Hla ->].
  destruct (walk n a _) as [[Γ3| |]|] eqn:E3; try done.
  destruct (mapM (ty_of Γ3) ys) as [yt|] eqn:Ey; [|done]. injection Ef as -> ->.
  by exists ts0, ts, Γ1, pt.
Qed.

Lemma walk1_If n rs c t ty e ey Γ Γ' :
  walk1 n (If rs c t ty e ey) Γ = Some (Ok Γ') →
  ∃ Γt Γe t1 t2 ts, walk n t Γ = Some (Ok Γt) ∧ walk n e Γt = Some (Ok Γe) ∧
    mapM (ty_of Γe) ty = Some t1 ∧ mapM (ty_of Γe) ey = Some t2 ∧
    Forall2 weaker t1 ts ∧ Forall2 weaker t2 ts ∧ length rs = length ts ∧ Γ' = set_all rs ts Γe.
Proof.
  cbn [walk1]. intros H.
  destruct (walk n t Γ) as [[Γt| |]|] eqn:Et; try done.
  destruct (walk n e Γt) as [[Γe| |]|] eqn:Ee; try done.
  destruct (mapM (ty_of Γe) ty) as [t1|] eqn:E1; [|done].
  destruct (mapM (ty_of Γe) ey) as [t2|] eqn:E2; [|done].
  destruct (mapM _ (zip t1 t2)) as [ts|] eqn:Ec; [|done].
  case_decide; [|done]. injection H as H. apply set_tys_Ok in H as [? ->].
  apply commons_weaker in Ec as [??]; [|done]. by exists Γt, Γe, t1, t2, ts.
Qed.

Lemma walk_cons n s l Γ Γ' :
  walk n (s :: l) Γ = Some (Ok Γ') → ∃ Γ1, walk1 n s Γ = Some (Ok Γ1) ∧ walk n l Γ1 = Some (Ok Γ').
Proof. cbn [in_order]. destruct (walk1 n s Γ) as [[Γ1| |]|]; try done. by exists Γ1. Qed.

(** * Types of other values are not touched *)

Lemma walk_frame_list n l :
  Forall (λ s, ∀ Γ Γ', walk1 n s Γ = Some (Ok Γ') → ∀ x, x ∉ defs1 s → Γ' !! x = Γ !! x) l →
  ∀ Γ Γ', walk n l Γ = Some (Ok Γ') → ∀ x, x ∉ defs l → Γ' !! x = Γ !! x.
Proof.
  intros Hl. induction Hl as [|s l Hs _ IH]; intros Γ Γ' H x Hx.
  - cbn in H. by injection H as ->.
  - apply walk_cons in H as (Γ1&H1&H2). cbn [flat_map] in Hx. apply not_elem_of_app in Hx as [Hx1 Hx2].
    etrans; [by eapply IH|]. by eapply Hs.
Qed.

Lemma walk1_frame n s :
  ∀ Γ Γ', walk1 n s Γ = Some (Ok Γ') → ∀ x, x ∉ defs1 s → Γ' !! x = Γ !! x.
Proof.
  induction s as [rs k xs|iv args rs ini b ys IHb|bargs ini b c ps aargs rs a ys IHb IHa|rs c t ty e ey IHt IHe]
    using stmt_ind'; intros Γ Γ' H x Hx.
  - apply walk1_Op in H as (is&ts&_&_&_&->). by apply lookup_set_all_ne.
  - apply walk1_For in H as (ts0&ts&Γb&_&_&_&Hb&_&_&->). cbn [defs1] in Hx.
    apply not_elem_of_app in Hx as [Hx1 Hx]. apply not_elem_of_app in Hx as [Hx2 Hx3].
    rewrite lookup_set_all_ne by done. etrans; [by eapply walk_frame_list|].
    by apply lookup_set_all_ne.
  - apply walk1_While in H as (ts0&ts&Γb&pt&_&_&_&Hb&_&_&_&Ha&_). cbn [defs1] in Hx.
    rewrite !not_elem_of_app in Hx. destruct Hx as (Hx1&Hx2&Hx3&Hx4&Hx5).
    etrans; [by eapply (walk_frame_list n a IHa)|].
    rewrite !lookup_set_all_ne by done. etrans; [by eapply (walk_frame_list n b IHb)|].
    by apply lookup_set_all_ne.
  - apply walk1_If in H as (Γt&Γe&t1&t2&ts&Ht&He&_&_&_&_&_&->). cbn [defs1] in Hx.
    rewrite !not_elem_of_app in Hx. destruct Hx as (Hx1&Hx2&Hx3).
    rewrite lookup_set_all_ne by done.
    etrans; [by eapply (walk_frame_list n e IHe)|]. by eapply (walk_frame_list n t IHt).
Qed.
Lemma walk_frame n l Γ Γ' : walk n l Γ = Some (Ok Γ') → ∀ x, x ∉ defs l → Γ' !! x = Γ !! x.
Proof. apply walk_frame_list. apply Forall_true. intros s. apply walk1_frame. Qed.

(** Names which have no type yet. *)
Definition fresh (xs : list nat) (Γ : tenv) : Prop := ∀ x, x ∈ xs → Γ !! x = None.

Lemma frame_sub (xs : list nat) (Γ Γ' : tenv) : (∀ x, x ∉ xs → Γ' !! x = Γ !! x) → fresh xs Γ → Γ ⊆ Γ'.
Proof.
  intros Hf Hx. apply map_subseteq_spec. intros x t Ht. rewrite Hf; [done|].
  intros Hin. specialize (Hx x Hin). congruence.
Qed.
Lemma fresh_frame (xs ys : list nat) (Γ Γ' : tenv) :
  (∀ x, x ∉ xs → Γ' !! x = Γ !! x) → (∀ x, x ∈ ys → x ∉ xs) → fresh ys Γ → fresh ys Γ'.
Proof. intros Hf Hd Hx y Hy. rewrite Hf by auto. auto. Qed.
Lemma fresh_app xs ys Γ : fresh (xs ++ ys) Γ ↔ fresh xs Γ ∧ fresh ys Γ.
Proof. unfold fresh. setoid_rewrite elem_of_app. naive_solver. Qed.
Lemma set_all_sub xs (ts : list ty) Γ : fresh xs Γ → Γ ⊆ set_all xs ts Γ.
Proof. apply frame_sub. intros x Hx. by apply lookup_set_all_ne. Qed.
Lemma fresh_set_all (xs ys : list nat) (ts : list ty) Γ :
  (∀ x, x ∈ ys → x ∉ xs) → fresh ys Γ → fresh ys (set_all xs ts Γ).
Proof. apply fresh_frame. intros x Hx. by apply lookup_set_all_ne. Qed.

Lemma walk_sub n l Γ Γ' : walk n l Γ = Some (Ok Γ') → fresh (defs l) Γ → Γ ⊆ Γ'.
Proof. intros H. apply frame_sub. by eapply walk_frame. Qed.
Lemma walk1_sub n s Γ Γ' : walk1 n s Γ = Some (Ok Γ') → fresh (defs1 s) Γ → Γ ⊆ Γ'.
Proof. intros H. apply frame_sub. by eapply walk1_frame. Qed.

(** * Soundness *)

Definition fine_in (Γ : tenv) (k : opk) (xs : list opd) : Prop :=
  ∀ is, mapM (info_of Γ) xs = Some is → fine k is.

Definition sound1 (n : nat) (s : stmt) : Prop :=
  ∀ Γ Γ' Γf ρ, walk1 n s Γ = Some (Ok Γ') → NoDup (defs1 s) → fresh (defs1 s) Γ →
    Γ' ⊆ Γf → every1 (fine_in Γf) s → all_have Γ ρ →
    (∀ ρ', run1 s ρ ρ' → all_have Γ' ρ') ∧ (∀ ρ', reach1 s ρ ρ' → all_have Γ' ρ').
Definition sound_l (n : nat) (l : list stmt) : Prop :=
  ∀ Γ Γ' Γf ρ, walk n l Γ = Some (Ok Γ') → NoDup (defs l) → fresh (defs l) Γ →
    Γ' ⊆ Γf → every (fine_in Γf) l → all_have Γ ρ →
    (∀ ρ', run l ρ ρ' → all_have Γ' ρ') ∧ (∀ ρ', reach l ρ ρ' → all_have Γ' ρ').

Lemma sound_list n l : Forall (sound1 n) l → sound_l n l.
Proof.
  intros Hl. induction Hl as [|s l Hs _ IH]; intros Γ Γ' Γf ρ Hw Hnd Hfr Hsub Hev Hok.
  - cbn in Hw. injection Hw as <-. split; intros ρ' Hr; inversion Hr; by subst.
  - assert (Γ ⊆ Γ') as HΓ by (by eapply walk_sub).
    apply walk_cons in Hw as (Γ1&H1&H2). cbn [flat_map] in Hnd, Hfr.
    apply NoDup_app in Hnd as (Hn1&Hd&Hn2). apply fresh_app in Hfr as [Hf1 Hf2].
    apply Forall_cons in Hev as [He1 He2].
    assert (fresh (defs l) Γ1) as Hf2'.
    { eapply fresh_frame; [by eapply walk1_frame| |done]. intros x Hx Hx'. by apply (Hd x). }
    assert (Γ1 ⊆ Γ') as HΓ1 by (by eapply walk_sub).
    destruct (Hs Γ Γ1 Γf ρ) as [Hrun Hreach]; [done..|by etrans|done|done|].
    split; intros ρ' Hr.
    + inversion Hr as [|? ? ? ρ1 ? Hr1 Hr2]; subst.
      destruct (IH Γ1 Γ' Γf ρ1) as [H _]; [done..|by apply Hrun|]. by apply H.
    + inversion Hr as [|? ? ? ? Hr1|? ? ? ρ1 ? Hr1 Hr2]; subst.
      * by apply (all_have_mono Γ).
      * eapply all_have_mono; [|by apply Hreach]. done.
      * destruct (IH Γ1 Γ' Γf ρ1) as [_ H]; [done..|by apply Hrun|]. by apply H.
Qed.

Lemma loop_for_inv iv args b ys ρ vs ws (I : list val → Prop) :
  loop_for iv args b ys ρ vs ws → I vs →
  (∀ us z ρ' us', I us → run b (set_all (iv :: args) (VSca z :: us) ρ) ρ' →
     mapM (eval ρ') ys = Some us' → I us') → I ws.
Proof. intros Hl Hi Hs. induction Hl; [done|]. eapply Hs; [|done..]. by apply IHHl. Qed.

Lemma loop_while_inv bargs b c ps aargs a ys ρ vs ws (I : list val → Prop) :
  loop_while bargs b c ps aargs a ys ρ vs ws → I vs →
  (∀ us ρb z pv ρa us', I us → run b (set_all bargs us ρ) ρb → eval ρb c = Some (VSca z) → z ≠ 0%Z →
     mapM (eval ρb) ps = Some pv → run a (set_all aargs pv ρb) ρa →
     mapM (eval ρa) ys = Some us' → I us') → I ws.
Proof. intros Hl Hi Hs. induction Hl; [done|]. eapply Hs; [|done..]. by apply IHHl. Qed.

Lemma walk1_sound n s : sound1 n s.
Proof.
  induction s as [rs k xs|iv args rs ini b ys IHb|bargs ini b c ps aargs rs a ys IHb IHa|rs c t ty e ey IHt IHe]
    using stmt_ind'; intros Γ Γ' Γf ρ Hw Hnd Hfr Hsub Hev Hok.
  - pose proof (walk1_sub _ _ _ _ Hw Hfr) as HΓ.
    apply walk1_Op in Hw as (is&ts&Hi&Ht&Hl&->). inversion Hev as [? ? ? Hfine| | |]; subst.
    split; intros ρ' Hr; inversion Hr as [? ? ? ? vs ws Hv Hk Hlw| | | |]; subst.
    apply all_have_set; [done|].
    destruct (op_sound k is vs ws) as (ts'&Ht'&Hh); [by eapply infos_fit|done|].
    assert (ts' = ts) as -> by congruence. apply Hh, Hfine.
    eapply info_of_mono; [|done]. by etrans.
  - apply walk1_For in Hw as (ts0&ts&Γb&Hi&Hwk&Hla&Hb&Hy&Hlr&->).
    inversion Hev as [|? ? ? ? ? ? Heb| |]; subst. cbn [defs1] in Hnd, Hfr.
    apply NoDup_app in Hnd as (Hn1&Hd1&Hnd). apply NoDup_app in Hnd as (Hn2&Hd2&Hn3).
    apply fresh_app in Hfr as [Hf1 Hfr]. apply fresh_app in Hfr as [Hf2 Hf3].
    set (Γ0 := set_all (iv :: args) (TSca :: ts) Γ) in *.
    assert (fresh (defs b) Γ0) as Hf2'.
    { apply fresh_set_all; [|done]. intros x Hx Hx'. apply (Hd1 x Hx'). set_solver. }
    assert (fresh rs Γ0) as Hf3'.
    { apply fresh_set_all; [|done]. intros x Hx Hx'. apply (Hd1 x Hx'). set_solver. }
    assert (fresh rs Γb) as Hf3b.
    { eapply fresh_frame; [by eapply walk_frame| |done]. intros x Hx Hx'. by apply (Hd2 x Hx'). }
    assert (Γ ⊆ Γ0) as H0 by (by apply set_all_sub).
    assert (Γ0 ⊆ Γb) as H0b by (by eapply walk_sub).
    assert (Γb ⊆ set_all rs ts Γb) as Hbr by (by apply set_all_sub).
    assert (∀ us z, Forall2 has ts us → all_have Γ0 (set_all (iv :: args) (VSca z :: us) ρ)) as Hin.
    { intros us z Hus. apply all_have_set; [done|]. by constructor. }
    assert (∀ us z, Forall2 has ts us →
      (∀ ρ', run b (set_all (iv :: args) (VSca z :: us) ρ) ρ' → all_have Γb ρ') ∧
      (∀ ρ', reach b (set_all (iv :: args) (VSca z :: us) ρ) ρ' → all_have Γb ρ')) as Hbody.
    { intros us z Hus. eapply (sound_list n b IHb Γ0 Γb Γf); try done; [by etrans|by apply Hin]. }
    assert (∀ vs ws, mapM (eval ρ) ini = Some vs → loop_for iv args b ys ρ vs ws → Forall2 has ts ws) as Hinv.
    { intros vs ws Hv Hl. eapply (loop_for_inv _ _ _ _ _ _ _ (Forall2 has ts)); [done| |].
      - eapply weaker_has; [done|]. by eapply tys_have.
      - intros us z ρ' us' Hus Hrun Hus'. eapply tys_have; [|done..].
        by apply (proj1 (Hbody us z Hus)). }
    split; intros ρ' Hr.
    + inversion Hr as [|? ? ? ? ? ? ? vs ws Hv Hl| | |]; subst.
      apply all_have_set; [|by eapply Hinv].
      eapply all_have_mono; [|done]. by etrans.
    + inversion Hr as [? ? ? ? ? ? ? vs ws z ? Hv Hl Hre| | | |]; subst.
      eapply all_have_mono; [done|]. apply (proj2 (Hbody ws z (Hinv vs ws Hv Hl))). done.
  - apply walk1_While in Hw as (ts0&ts&Γb&pt&Hi&Hwk&Hlb&Hb&Hp&Hlr&Hla&Ha&Hy).
    inversion Hev as [| |? ? ? ? ? ? ? ? ? Heb Hea|]; subst. cbn [defs1] in Hnd, Hfr.
    apply NoDup_app in Hnd as (Hn1&Hd1&Hnd). apply NoDup_app in Hnd as (Hn2&Hd2&Hnd).
    apply NoDup_app in Hnd as (Hn3&Hd3&Hnd). apply NoDup_app in Hnd as (Hn4&Hd4&Hn5).
    apply fresh_app in Hfr as [Hf1 Hfr]. apply fresh_app in Hfr as [Hf2 Hfr].
    assert (fresh (rs ++ aargs ++ defs a) Γb) as Hfb.
    { eapply fresh_frame; [by eapply walk_frame| |].
      - intros x Hx Hx'. by apply (Hd2 x Hx').
      - apply fresh_set_all; [|done]. intros x Hx Hx'. apply (Hd1 x Hx'). set_solver. }
    apply fresh_app in Hfb as [Hfb1 Hfb].
    set (Γ0 := set_all bargs ts Γ) in *. set (Γr := set_all rs pt Γb) in *.
    assert (fresh (aargs ++ defs a) Γr) as Hfr'.
    { apply fresh_set_all; [|done]. intros x Hx Hx'. apply (Hd3 x Hx'). set_solver. }
    apply fresh_app in Hfr' as [Hfr1 Hfr2].
    set (Γ1 := set_all aargs pt Γr) in *.
    assert (fresh (defs a) Γ1) as Hf1'.
    { apply fresh_set_all; [|done]. intros x Hx Hx'. by apply (Hd4 x Hx'). }
    assert (fresh (defs b) Γ0) as Hf0.
    { apply fresh_set_all; [|done]. intros x Hx Hx'. apply (Hd1 x Hx'). set_solver. }
    assert (Γ ⊆ Γ0) as H0 by (by apply set_all_sub).
    assert (Γ0 ⊆ Γb) as H0b by (by eapply walk_sub).
    assert (Γb ⊆ Γr) as Hbr by (by apply set_all_sub).
    assert (Γr ⊆ Γ1) as Hr1 by (by apply set_all_sub).
    assert (Γ1 ⊆ Γ') as H1a by (by eapply walk_sub).
    assert (Γb ⊆ Γ') as Hba by (etrans; [done|]; by etrans).
    assert (∀ us, Forall2 has ts us →
      (∀ ρ', run b (set_all bargs us ρ) ρ' → all_have Γb ρ') ∧
      (∀ ρ', reach b (set_all bargs us ρ) ρ' → all_have Γb ρ')) as Hbody.
    { intros us Hus. eapply (sound_list n b IHb Γ0 Γb Γf); try done; [by etrans|by apply all_have_set]. }
    assert (∀ ρb pv, all_have Γb ρb → mapM (eval ρb) ps = Some pv →
      (∀ ρ', run a (set_all aargs pv ρb) ρ' → all_have Γ' ρ') ∧
      (∀ ρ', reach a (set_all aargs pv ρb) ρ' → all_have Γ' ρ')) as Hafter.
    { intros ρb pv Hρb Hpv. eapply (sound_list n a IHa Γ1 Γ' Γf); try done.
      apply all_have_set; [by eapply all_have_mono|]. by eapply tys_have. }
    assert (∀ vs ws, mapM (eval ρ) ini = Some vs → loop_while bargs b c ps aargs a ys ρ vs ws → Forall2 has ts ws) as Hinv.
    { intros vs ws Hv Hl. eapply (loop_while_inv _ _ _ _ _ _ _ _ _ _ (Forall2 has ts)); [done| |].
      - eapply weaker_has; [done|]. by eapply tys_have.
      - intros us ρb z pv ρa us' Hus Hrb _ _ Hpv Hra Hus'. eapply tys_have; [|done..].
        apply (proj1 (Hafter ρb pv (proj1 (Hbody us Hus) ρb Hrb) Hpv)). done. }
    split; intros ρ' Hr.
    + inversion Hr as [| |? ? ? ? ? ? ? ? ? ? vs ws ρb us Hv Hl Hrb Hc Hps| |]; subst.
      assert (all_have Γb ρb) as Hρb by (by apply (proj1 (Hbody ws (Hinv vs ws Hv Hl)))).
      apply (all_have_mono Γr); [by etrans|].
      apply all_have_set; [|by eapply tys_have].
      eapply all_have_mono; [|done]. by etrans.
    + inversion Hr as [|? ? ? ? ? ? ? ? ? ? vs ws ? Hv Hl Hre|? ? ? ? ? ? ? ? ? ? vs ws ρb z pv ? Hv Hl Hrb Hc Hz Hpv Hre| |]; subst.
      * eapply all_have_mono; [done|]. by apply (proj2 (Hbody ws (Hinv vs ws Hv Hl))).
      * by apply (proj2 (Hafter ρb pv (proj1 (Hbody ws (Hinv vs ws Hv Hl)) ρb Hrb) Hpv)).
  - apply walk1_If in Hw as (Γt&Γe&t1&t2&ts&Ht&He&H1&H2&Hw1&Hw2&Hl&->).
    inversion Hev as [| | |? ? ? ? ? ? Het Hee]; subst. cbn [defs1] in Hnd, Hfr.
    apply NoDup_app in Hnd as (Hn1&Hd1&Hnd). apply NoDup_app in Hnd as (Hn2&Hd2&Hn3).
    apply fresh_app in Hfr as [Hf1 Hfr].
    assert (fresh (defs e ++ rs) Γt) as Hft.
    { eapply fresh_frame; [by eapply walk_frame| |done]. intros x Hx Hx'. by apply (Hd1 x Hx'). }
    apply fresh_app in Hft as [Hft1 Hft2].
    assert (fresh rs Γe) as Hfe.
    { eapply fresh_frame; [by eapply walk_frame| |done]. intros x Hx Hx'. by apply (Hd2 x Hx'). }
    assert (Γ ⊆ Γt) as HΓt by (by eapply walk_sub).
    assert (Γt ⊆ Γe) as Hte by (by eapply walk_sub).
    assert (Γe ⊆ set_all rs ts Γe) as Her by (by apply set_all_sub).
    destruct (sound_list n t IHt Γ Γt Γf ρ) as [Hrt Hct]; [done..|etrans; [done|by etrans]|done|done|].
    destruct (sound_list n e IHe Γt Γe Γf ρ) as [Hre Hce];
      [done..|by etrans|done|by eapply all_have_mono|].
    split; intros ρ' Hr.
    + inversion Hr as [| | |? ? ? ? ? ? ? z ρ1 ws Hc Hz Hrun Hws|? ? ? ? ? ? ? ρ1 ws Hc Hrun Hws]; subst.
      * apply all_have_set; [eapply all_have_mono; [|done]; by etrans|].
        apply (weaker_has t1); [done|]. eapply tys_have; [|done..].
        apply (all_have_mono Γt); [done|]. by apply Hrt.
      * apply all_have_set; [eapply all_have_mono; [|done]; by etrans|].
        apply (weaker_has t2); [done|]. eapply tys_have; [|done..]. by apply Hre.
    + inversion Hr; subst.
      * apply (all_have_mono Γt); [by etrans|by apply Hct].
      * apply (all_have_mono Γe); [done|by apply Hce].
Qed.

Lemma walk_sound n l : sound_l n l.
Proof. apply sound_list, Forall_true. intros s. apply walk1_sound. Qed.
