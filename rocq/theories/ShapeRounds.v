(** C59: how many rounds the search for a fix point takes. *)
From stdpp Require Import base numbers list gmap.
From Verif Require Import CppBase ShapeModel ShapeSpec ShapeProofs ShapePass.

(** The number of known dimensions. *)
Definition known_dim (d : Z) : nat := if decide (d = -1)%Z then 0 else 1.
Definition known (t : ty) : nat :=
  match t with TSca => 0 | t => known_dim (shape t).1 + known_dim (shape t).2 end.
Definition knowns (ts : list ty) : nat := foldr (λ t, Nat.add (known t)) 0 ts.

Lemma knowns_le ts : knowns ts ≤ 2 * length ts.
Proof.
  induction ts as [|t ts IH]; cbn [knowns foldr length]; [lia|].
  assert (known t ≤ 2) by (unfold known, known_dim; destruct t; repeat case_decide; lia).
  unfold knowns in IH. lia.
Qed.

Lemma common_dim_known a b : common_dim a b = b ∨ known_dim (common_dim a b) < known_dim b.
Proof. unfold common_dim, known_dim. repeat case_decide; subst; auto; lia. Qed.

Lemma common_known a b t : common a b = Some t → t = b ∨ known t < known b.
Proof.
  intros H. destruct a as [r c|r c|], b as [r' c'|r' c'|]; try done; cbn in H; injection H as <-; auto;
    destruct (common_dim_known r r') as [E1|L1], (common_dim_known c c') as [E2|L2];
    rewrite ?E1, ?E2; auto; right; cbn; rewrite ?E1, ?E2; lia.
Qed.

Lemma commons_known l1 l2 ts :
  length l1 = length l2 → mapM (λ p, common p.1 p.2) (zip l1 l2) = Some ts →
  length ts = length l2 ∧ (ts = l2 ∨ knowns ts < knowns l2).
Proof.
  revert l2 ts. induction l1 as [|a l1 IH]; intros [|b l2] ts Hl Hm; try done.
  - cbn in Hm. injection Hm as <-. auto.
  - cbn in Hm. destruct (common a b) as [t|] eqn:Ec; [|done]. cbn in Hm.
    destruct (mapM _ (zip l1 l2)) as [ts'|] eqn:Em; [|done]. cbn in Hm. injection Hm as <-.
    destruct (IH l2 ts') as [H1 H2]; [by injection Hl|done|].
    split; [cbn; lia|]. cbn [knowns foldr]. unfold knowns in H2.
    destruct (common_known _ _ _ Ec) as [->|Ht]; destruct H2 as [->|H2]; auto; right; lia.
Qed.

(** Stuck: the types stay the same, but the yielded ones differ. *)
Definition stuck (f : list ty → option (outcome (tenv * list ty))) (ts : list ty) : Prop :=
  ∃ Γ ys, f ts = Some (Ok (Γ, ys)) ∧ ys ≠ ts ∧ length ys = length ts ∧
          mapM (λ p, common p.1 p.2) (zip ys ts) = Some ts.

Lemma stuck_None f ts n : stuck f ts → fix_point f n ts = None.
Proof.
  intros (Γ&ys&Hf&Hn&Hl&Hm). induction n as [|n IH]; [done|]. cbn [fix_point].
  by rewrite Hf, decide_False, decide_True, Hm by done.
Qed.

Lemma fix_rounds f m ts r :
  fix_point f m ts = Some r → ∀ N, knowns ts < N → fix_point f N ts = Some r.
Proof.
  revert ts. induction m as [|m IH]; intros ts H N HN; [done|].
  pose proof H as H'. cbn [fix_point] in H.
  destruct N as [|N]; [lia|]. cbn [fix_point].
  destruct (f ts) as [[[Γ ys]| |]|] eqn:Ef; try done.
  destruct (decide (ys = ts)) as [|Hn]; [done|].
  destruct (decide (length ys = length ts)) as [Hl|]; [|done].
  destruct (mapM _ _) as [ts'|] eqn:Em; [|done].
  destruct (commons_known ys ts ts' Hl Em) as [_ [->|Hk]].
  - rewrite (stuck_None f ts) in H'; [done|]. by exists Γ, ys.
  - apply IH; [done|]. lia.
Qed.

Lemma fix_point_mono f g m ts r :
  (∀ ts r, f ts = Some r → g ts = Some r) → fix_point f m ts = Some r → fix_point g m ts = Some r.
Proof.
  intros Hfg. revert ts. induction m as [|m IH]; intros ts H; [done|]. cbn [fix_point] in *.
  destruct (f ts) as [o|] eqn:Ef; [|done]. rewrite (Hfg _ _ Ef).
  destruct o as [[Γ ys]| |]; try done.
  destruct (decide (ys = ts)); [done|]. destruct (decide _); [|done].
  destruct (mapM _ _); [by apply IH|done].
Qed.

(** Without a stuck point, the search ends. *)
Lemma fix_ends f ts :
  (∀ ts, f ts ≠ None) → (∀ ts, ¬ stuck f ts) → fix_point f (2 * length ts + 1) ts ≠ None.
Proof.
  intros Ht Hs. assert (∀ n ts, knowns ts < n → fix_point f n ts ≠ None) as H.
  { intros n. induction n as [|n IH]; intros ts' Hn; [lia|]. cbn [fix_point].
    destruct (f ts') as [[[Γ ys]| |]|] eqn:Ef; try done; [|by destruct (Ht ts')].
    destruct (decide (ys = ts')) as [|Hne]; [done|].
    destruct (decide (length ys = length ts')) as [Hl|]; [|done].
    destruct (mapM _ _) as [ts''|] eqn:Em; [|done].
    destruct (commons_known ys ts' ts'' Hl Em) as [_ [->|Hk]].
    - destruct (Hs ts'). by exists Γ, ys.
    - apply IH. lia. }
  apply H. pose proof (knowns_le ts). lia.
Qed.

Notation settles N s := (∀ m Γ r, walk1 m s Γ = Some r → walk1 N s Γ = Some r).

Lemma walk_settles N l :
  Forall (λ s, settles N s) l → ∀ m Γ r, walk m l Γ = Some r → walk N l Γ = Some r.
Proof.
  intros Hl m. induction Hl as [|s l Hs _ IH]; intros Γ r H; [done|]. cbn [in_order] in *.
  destruct (walk1 m s Γ) as [o|] eqn:E; [|done]. rewrite (Hs _ _ _ E).
  destruct o; try done. by apply IH.
Qed.

Lemma width_Forall (P : nat → stmt → Prop) N l :
  Forall (λ s, ∀ N, 2 * width1 s < N → P N s) l →
  2 * foldr (λ s, Nat.max (width1 s)) 0 l < N → Forall (P N) l.
Proof.
  intros Hl HN. induction Hl as [|s l Hs _ IH]; cbn [foldr] in *; constructor.
  - apply Hs. lia.
  - apply IH. lia.
Qed.

Lemma walk1_rounds s : ∀ N, 2 * width1 s < N → settles N s.
Proof.
  induction s as [rs k xs|iv args rs ini b ys IHb|bargs ini b c ps aargs rs a ys IHb IHa|rs c t ty e ey IHt IHe]
    using stmt_ind'; intros N HN m Γ r H; cbn [width1] in HN.
  - done.
  - assert (Forall (λ s, settles N s) b) as Hb by (apply (width_Forall (λ N s, settles N s)); [done|lia]).
    cbn [walk1] in *. destruct (mapM (ty_of Γ) ini) as [ts0|] eqn:Ei; [|done].
    match type of H with context [fix_point ?f m ts0] => set (F := f) in * end.
    match goal with |- context [fix_point ?f N ts0] => set (G := f) in * end.
    destruct (fix_point F m ts0) as [o|] eqn:Ef; [|done].
    apply (fix_point_mono F G) in Ef.
    + apply fix_rounds with (N := N) in Ef; [by rewrite Ef|].
      pose proof (knowns_le ts0). apply mapM_length in Ei. lia.
    + intros ts' r' HF. subst F G. cbn beta in *.
      destruct (set_tys _ _ Γ) as [Γ0| |]; try done.
      destruct (walk m b Γ0) as [o'|] eqn:E; [|done]. by rewrite (walk_settles N b Hb _ _ _ E).
  - assert (Forall (λ s, settles N s) b) as Hb by (apply (width_Forall (λ N s, settles N s)); [done|lia]).
    assert (Forall (λ s, settles N s) a) as Ha by (apply (width_Forall (λ N s, settles N s)); [done|lia]).
    cbn [walk1] in *. destruct (mapM (ty_of Γ) ini) as [ts0|] eqn:Ei; [|done].
    match type of H with context [fix_point ?f m ts0] => set (F := f) in * end.
    match goal with |- context [fix_point ?f N ts0] => set (G := f) in * end.
    destruct (fix_point F m ts0) as [o|] eqn:Ef; [|done].
    apply (fix_point_mono F G) in Ef.
    + apply fix_rounds with (N := N) in Ef; [by rewrite Ef|].
      pose proof (knowns_le ts0). apply mapM_length in Ei. lia.
    + intros ts' r' HF. subst F G. cbn beta in *.
      destruct (set_tys bargs ts' Γ) as [Γ0| |]; try done.
      destruct (walk m b Γ0) as [o'|] eqn:E; [|done]. rewrite (walk_settles N b Hb _ _ _ E).
      destruct o' as [Γb| |]; try done.
      destruct (mapM (ty_of Γb) ps) as [pt|]; [|done].
      destruct (obind _ _) as [Γ1| |]; try done.
      destruct (walk m a Γ1) as [o'|] eqn:E'; [|done]. by rewrite (walk_settles N a Ha _ _ _ E').
  - assert (Forall (λ s, settles N s) t) as Ht by (apply (width_Forall (λ N s, settles N s)); [done|lia]).
    assert (Forall (λ s, settles N s) e) as He by (apply (width_Forall (λ N s, settles N s)); [done|lia]).
    cbn [walk1] in *.
    destruct (walk m t Γ) as [o|] eqn:E; [|done]. rewrite (walk_settles N t Ht _ _ _ E).
    destruct o as [Γt| |]; try done.
    destruct (walk m e Γt) as [o|] eqn:E'; [|done]. by rewrite (walk_settles N e He _ _ _ E').
Qed.

Lemma walk_rounds p m Γ r N : walk m p Γ = Some r → 2 * width p < N → walk N p Γ = Some r.
Proof.
  intros H HN. revert H. apply walk_settles. apply (width_Forall (λ N s, settles N s)); [|done].
  apply Forall_true. intros s. apply walk1_rounds.
Qed.
