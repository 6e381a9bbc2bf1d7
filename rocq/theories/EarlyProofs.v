(** * Early returns: proofs *)

From Coq Require Import Arith Lia.
From stdpp Require Import base numbers list list_numbers.
From Verif Require Import CppBase EarlyModel EarlySpec.

(** ** Induction over operations and their blocks *)

Section op_ind.
  Variable P : op → Prop.
  Hypothesis HOp : ∀ rs f xs ns, P (Op rs f xs ns).
  Hypothesis HIf : ∀ rs c t e, Forall P t → Forall P e → P (If rs c t e).
  Hypothesis HYield : ∀ xs, P (Yield xs).
  Hypothesis HRet : ∀ xs, P (Ret xs).

  Fixpoint op_rect' (o : op) : P o :=
    let blk := fix blk (l : list op) : Forall P l :=
      match l with
      | [] => List.Forall_nil _
      | o :: l' => List.Forall_cons _ _ _ (op_rect' o) (blk l')
      end in
    match o with
    | Op rs f xs ns => HOp rs f xs ns
    | If rs c t e => HIf rs c t e (blk t) (blk e)
    | Yield xs => HYield xs
    | Ret xs => HRet xs
    end.

  Lemma ops_ind l : Forall P l.
  Proof. induction l; constructor; [apply op_rect'|done]. Qed.
End op_ind.

(** ** Names *)

Lemma defs_cons o l : defs (o :: l) = odefs o ++ defs l.
Proof. done. Qed.
Lemma defs_app l1 l2 : defs (l1 ++ l2) = defs l1 ++ defs l2.
Proof. unfold defs. by rewrite map_app, concat_app. Qed.
Lemma uses_cons o l : uses (o :: l) = ouses o ++ uses l.
Proof. done. Qed.
Lemma uses_app l1 l2 : uses (l1 ++ l2) = uses l1 ++ uses l2.
Proof. unfold uses. by rewrite map_app, concat_app. Qed.
Lemma odefs_If rs c t e : odefs (If rs c t e) = rs ++ defs t ++ defs e.
Proof. done. Qed.
Lemma ouses_If rs c t e : ouses (If rs c t e) = c :: uses t ++ uses e.
Proof. done. Qed.

Lemma odefs_clone K o : odefs (clone K o) = map (Nat.add K) (odefs o).
Proof.
  assert (H : ∀ u o, odefs (ren (Nat.add K) u o) = map (Nat.add K) (odefs o)).
  { intros u o'. induction o' as [rs f xs ns|rs c t e Ht He|xs|xs] using op_rect'; cbn [odefs ren]; try done.
    rewrite !map_app, !concat_map. f_equal. f_equal.
    - induction Ht as [|o2 l Ho _ IH]; cbn [map concat]; [done|]. by rewrite Ho, IH.
    - induction He as [|o2 l Ho _ IH]; cbn [map concat]; [done|]. by rewrite Ho, IH. }
  destruct o as [rs f xs ns|rs c t e|xs|xs]; cbn [clone odefs]; try done.
  rewrite !map_app, !concat_map, !map_map. f_equal. f_equal; f_equal; apply map_ext; intros o; apply H.
Qed.

Lemma odefs_sub s o : odefs (sub s o) = odefs o.
Proof. by destruct o. Qed.

(** ** The meaning, operation by operation *)

Section run.
  Context {V S : Type}.
  Context (sem : nat → list V → list V → S → (nat → V) * S).
  Context (truth : V → bool).

  Notation exec := (exec sem truth).
  Notation block := (block sem truth).

  Lemma exec_If rs c t e r s :
    exec (If rs c t e) r s =
    match r c with
    | None => Stuck
    | Some v => branch_end rs (block (if truth v then t else e) r s)
    end.
  Proof.
    cbn [EarlySpec.exec].
    destruct (r c) as [v|]; [|done].
    by destruct (truth v).
  Qed.

  Lemma block_app l1 l2 r s :
    block (l1 ++ l2) r s =
    match block l1 r s with Done End r' s' => block l2 r' s' | a => a end.
  Proof.
    revert r s. induction l1 as [|o l1 IH]; intros r s; [done|].
    cbn [app EarlySpec.block]. destruct (exec o r s) as [|[| |] r' s']; try done.
  Qed.

  Lemma bind_frame r xs (ws : list (option V)) r' y :
    bind r xs ws = Some r' → y ∉ xs → r' y = r y.
  Proof.
    revert r ws. induction xs as [|x xs IH]; intros r [|w ws] Hb Hy; cbn [bind] in Hb; try done.
    - by injection Hb as <-.
    - apply not_elem_of_cons in Hy as [Hne Hy].
      rewrite (IH _ _ Hb Hy). unfold upd. by rewrite decide_False.
  Qed.

  Lemma binds_Done r rs (ws : list (option V)) (s : S) x r' s' :
    binds r rs ws s = Done x r' s' → x = End ∧ s' = s ∧ bind r rs ws = Some r'.
  Proof. unfold binds. destruct (bind r rs ws); [|done]. by intros [= <- <- <-]. Qed.

  Lemma exec_frame o : ∀ r s x r' s', exec o r s = Done x r' s' →
    ∀ y, y ∉ odefs o → r' y = r y.
  Proof.
    assert (Hblk : ∀ l, Forall (λ o, ∀ r s x r' s', exec o r s = Done x r' s' →
              ∀ y, y ∉ odefs o → r' y = r y) l →
            ∀ r s x r' s', block l r s = Done x r' s' → ∀ y, y ∉ defs l → r' y = r y).
    { induction 1 as [|o' l Ho _ IH]; intros r s x r' s' E y Hy; cbn [EarlySpec.block] in E.
      - by injection E as <- <- <-.
      - rewrite defs_cons, not_elem_of_app in Hy. destruct Hy as [Hy1 Hy2].
        destruct (exec o' r s) as [|x1 r1 s1] eqn:E1; [done|].
        specialize (Ho _ _ _ _ _ E1 y Hy1).
        destruct x1; [rewrite (IH _ _ _ _ _ E y Hy2); done| |]; (injection E as <- <- <-; done). }
    induction o as [rs f xs ns|rs c t e Ht He|xs|xs] using op_rect';
      intros r s x r' s' E y Hy.
    - cbn [EarlySpec.exec] in E.
      destruct (mapM r xs); [|done]. destruct (mapM r ns); [|done].
      destruct (sem f _ _ s). apply binds_Done in E as (_ & _ & E).
      by eapply bind_frame.
    - rewrite exec_If in E. rewrite odefs_If, !not_elem_of_app in Hy.
      destruct Hy as (Hy1 & Hy2 & Hy3).
      destruct (r c) as [v|]; [|done].
      assert (Hb : ∀ x r' s', block (if truth v then t else e) r s = Done x r' s' → r' y = r y).
      { intros x0 r0 s0 E0. destruct (truth v); [exact (Hblk _ Ht _ _ _ _ _ E0 y Hy2)|exact (Hblk _ He _ _ _ _ _ E0 y Hy3)]. }
      destruct (block (if truth v then t else e) r s) as [|x1 r1 s1]; [done|].
      rewrite <- (Hb x1 r1 s1 eq_refl).
      destruct x1; cbn [branch_end] in E.
      + apply binds_Done in E as (_ & _ & E). by eapply bind_frame.
      + apply binds_Done in E as (_ & _ & E). by eapply bind_frame.
      + by injection E as <- <- <-.
    - cbn [EarlySpec.exec] in E. by injection E as <- <- <-.
    - cbn [EarlySpec.exec] in E. destruct (mapM r xs); [|done]. by injection E as <- <- <-.
  Qed.

  Lemma block_frame l r s x r' s' y :
    block l r s = Done x r' s' → y ∉ defs l → r' y = r y.
  Proof.
    revert r s. induction l as [|o l IH]; intros r s E Hy; cbn [EarlySpec.block] in E.
    - by injection E as <- <- <-.
    - rewrite defs_cons, not_elem_of_app in Hy. destruct Hy as [Hy1 Hy2].
      destruct (exec o r s) as [|x1 r1 s1] eqn:E1; [done|].
      rewrite <- (exec_frame _ _ _ _ _ _ E1 y Hy1).
      destruct x1; [by apply (IH _ _ E)| |]; injection E as <- <- <-; done.
  Qed.

  (** ** Simulation: the same code with other names *)

  Definition le_opt (a b : option V) : Prop := ∀ v, a = Some v → b = Some v.

  Definition exit_le (x2 x1 : exit V) : Prop :=
    match x2, x1 with
    | End, End => True
    | YieldE w2, YieldE w1 => Forall2 le_opt w2 w1
    | RetE w2, RetE w1 => w2 = w1
    | _, _ => False
    end.

  (** the value of [x] in [r1] is that of [u x] in [r2], or the latter has none *)
  Definition rel (K : nat) (u : nat → nat) (r2 r1 : nat → option V) : Prop :=
    ∀ x, x < K → le_opt (r2 (u x)) (r1 x).

  Lemma rel_mapM K u r2 r1 xs vs :
    rel K u r2 r1 → (∀ x, x ∈ xs → x < K) → mapM r2 (map u xs) = Some vs → mapM r1 xs = Some vs.
  Proof.
    intros Hr. revert vs. induction xs as [|x xs IH]; intros vs Hx E; [done|].
    cbn [map] in E. apply mapM_Some_1 in E.
    apply Forall2_cons_inv_l in E as (v & vs' & E1 & E2 & ->).
    apply mapM_Some_2. constructor.
    - apply Hr; [apply Hx; left|done].
    - apply mapM_Some_1. apply IH; [intros y Hy; apply Hx; by right|by apply mapM_Some_2].
  Qed.

  Lemma rel_map K u r2 r1 xs :
    rel K u r2 r1 → (∀ x, x ∈ xs → x < K) → Forall2 le_opt (map r2 (map u xs)) (map r1 xs).
  Proof.
    intros Hr Hx. induction xs as [|x xs IH]; cbn [map]; constructor.
    - apply Hr, Hx. left.
    - apply IH. intros y Hy. apply Hx. by right.
  Qed.

  Lemma rel_bind K (d u : nat → nat) (D : list nat) r2 r1 rs w2 w1 r2' :
    (∀ y, y ∈ D → u y = d y) →
    (∀ x y, x < K → y ∈ D → u x = d y → x = y) →
    rel K u r2 r1 → (∀ y, y ∈ rs → y ∈ D) → Forall2 le_opt w2 w1 →
    bind r2 (map d rs) w2 = Some r2' →
    ∃ r1', bind r1 rs w1 = Some r1' ∧ rel K u r2' r1'.
  Proof.
    intros Hud Hinj. revert r2 r1 w2 w1.
    induction rs as [|y rs IH]; intros r2 r1 w2 w1 Hr HD Hw E.
    - destruct Hw as [|a b w2 w1 Hab Hw]; cbn [map bind] in E; [|done].
      injection E as <-. by exists r1.
    - destruct Hw as [|a b w2 w1 Hab Hw]; cbn [map bind] in E; [done|].
      cbn [bind]. eapply IH; [|intros z Hz; apply HD; by right|done|done].
      intros x Hx v Hv. unfold upd in *.
      assert (HyD : y ∈ D) by (apply HD; left).
      destruct (decide (u x = d y)) as [Heq|Hne].
      + assert (x = y) as -> by (by apply Hinj). rewrite decide_True by done. by apply Hab.
      + rewrite decide_False; [by apply Hr|]. intros ->. by rewrite Hud in Hne.
  Qed.

  Lemma le_opt_refl w : Forall2 le_opt w w.
  Proof. induction w; constructor; [intros v; done|done]. Qed.

  Lemma sim_ren K d u (D : list nat) o :
    (∀ y, y ∈ D → u y = d y) →
    (∀ x y, x < K → y ∈ D → u x = d y → x = y) →
    ∀ r2 r1 s x r2' s',
      (∀ y, y ∈ ouses o → y < K) → (∀ y, y ∈ odefs o → y ∈ D) → rel K u r2 r1 →
      exec (ren d u o) r2 s = Done x r2' s' →
      ∃ x1 r1', exec o r1 s = Done x1 r1' s' ∧ exit_le x x1 ∧ rel K u r2' r1'.
  Proof.
    intros Hud Hinj.
    assert (Hblk : ∀ l, Forall (λ o, ∀ r2 r1 s x r2' s',
        (∀ y, y ∈ ouses o → y < K) → (∀ y, y ∈ odefs o → y ∈ D) → rel K u r2 r1 →
        exec (ren d u o) r2 s = Done x r2' s' →
        ∃ x1 r1', exec o r1 s = Done x1 r1' s' ∧ exit_le x x1 ∧ rel K u r2' r1') l →
      ∀ r2 r1 s x r2' s',
        (∀ y, y ∈ uses l → y < K) → (∀ y, y ∈ defs l → y ∈ D) → rel K u r2 r1 →
        block (map (ren d u) l) r2 s = Done x r2' s' →
        ∃ x1 r1', block l r1 s = Done x1 r1' s' ∧ exit_le x x1 ∧ rel K u r2' r1').
    { induction 1 as [|o' l Ho _ IH]; intros r2 r1 s x r2' s' Hu Hd Hr E;
        cbn [map EarlySpec.block] in E |- *.
      - injection E as <- <- <-. by exists End, r1.
      - destruct (exec (ren d u o') r2 s) as [|x2 rr2 s2] eqn:E2; [done|].
        destruct (Ho _ r1 _ _ _ _ (λ y Hy, Hu y ltac:(rewrite uses_cons; apply elem_of_app; by left))
                     (λ y Hy, Hd y ltac:(rewrite defs_cons; apply elem_of_app; by left)) Hr E2)
          as (x1 & rr1 & E1 & Hx & Hr').
        rewrite E1. destruct x2, x1; try done.
        + eapply IH; [| |done|done].
          * intros y Hy. apply Hu. rewrite uses_cons. apply elem_of_app. by right.
          * intros y Hy. apply Hd. rewrite defs_cons. apply elem_of_app. by right.
        + injection E as <- <- <-. eauto.
        + injection E as <- <- <-. eauto. }
    induction o as [rs f xs ns|rs c t e Ht He|xs|xs] using op_rect';
      intros r2 r1 s x r2' s' Hu Hd Hr E.
    - cbn [EarlySpec.exec ren] in E |- *. cbn [ouses odefs] in Hu, Hd.
      destruct (mapM r2 (map u xs)) as [vs|] eqn:Exs; [|done].
      destruct (mapM r2 (map u ns)) as [us|] eqn:Ens; [|done].
      rewrite (rel_mapM _ _ _ _ _ _ Hr (λ y Hy, Hu y ltac:(apply elem_of_app; by left)) Exs).
      rewrite (rel_mapM _ _ _ _ _ _ Hr (λ y Hy, Hu y ltac:(apply elem_of_app; by right)) Ens).
      destruct (sem f vs us s) as [w s0]. rewrite map_length in E.
      apply binds_Done in E as (-> & -> & E).
      destruct (rel_bind K d u D r2 r1 rs _ _ _ Hud Hinj Hr Hd (le_opt_refl _) E) as (r1' & E1 & Hr1).
      unfold binds. rewrite E1. by exists End, r1'.
    - cbn [ren] in E. rewrite exec_If in E |- *. rewrite ouses_If in Hu. rewrite odefs_If in Hd.
      destruct (r2 (u c)) as [v|] eqn:Ec; [|done].
      rewrite (Hr c (Hu c ltac:(left)) v Ec).
      assert (Hb : ∀ x r2' s', block (if truth v then map (ren d u) t else map (ren d u) e) r2 s = Done x r2' s' →
        ∃ x1 r1', block (if truth v then t else e) r1 s = Done x1 r1' s' ∧ exit_le x x1 ∧ rel K u r2' r1').
      { intros x0 r0 s0 E0. destruct (truth v).
        - eapply (Hblk t Ht); [| |done|done].
          + intros y Hy. apply Hu. right. apply elem_of_app. by left.
          + intros y Hy. apply Hd. rewrite !elem_of_app. auto.
        - eapply (Hblk e He); [| |done|done].
          + intros y Hy. apply Hu. right. apply elem_of_app. by right.
          + intros y Hy. apply Hd. rewrite !elem_of_app. auto. }
      destruct (block (if truth v then map (ren d u) t else map (ren d u) e) r2 s) as [|x2 rr2 s2]; [done|].
      destruct (Hb _ _ _ eq_refl) as (x1 & rr1 & E1 & Hx & Hr'). rewrite E1.
      assert (Hrs : ∀ y, y ∈ rs → y ∈ D) by (intros y Hy; apply Hd; rewrite !elem_of_app; auto).
      destruct x2, x1; try done; cbn [branch_end exit_le] in *.
      + apply binds_Done in E as (-> & -> & E).
        destruct (rel_bind K d u D _ _ rs _ _ _ Hud Hinj Hr' Hrs (le_opt_refl _) E) as (r1' & Eb & Hr1).
        unfold binds. rewrite Eb. by exists End, r1'.
      + apply binds_Done in E as (-> & -> & E).
        destruct (rel_bind K d u D _ _ rs _ _ _ Hud Hinj Hr' Hrs Hx E) as (r1' & Eb & Hr1).
        unfold binds. rewrite Eb. by exists End, r1'.
      + injection E as <- <- <-. subst. by eexists _, _.
    - cbn [EarlySpec.exec ren] in E |- *. injection E as <- <- <-.
      eexists _, _. split; [done|]. split; [|done]. cbn [exit_le].
      by apply (rel_map K).
    - cbn [EarlySpec.exec ren] in E |- *. cbn [ouses] in Hu.
      destruct (mapM r2 (map u xs)) as [ws|] eqn:Ex; [|done].
      rewrite (rel_mapM _ _ _ _ _ _ Hr Hu Ex). injection E as <- <- <-. by eexists _, _.
  Qed.

  Lemma sim_rens K d u (D : list nat) l :
    (∀ y, y ∈ D → u y = d y) →
    (∀ x y, x < K → y ∈ D → u x = d y → x = y) →
    ∀ r2 r1 s x r2' s',
      (∀ y, y ∈ uses l → y < K) → (∀ y, y ∈ defs l → y ∈ D) → rel K u r2 r1 →
      block (map (ren d u) l) r2 s = Done x r2' s' →
      ∃ x1 r1', block l r1 s = Done x1 r1' s' ∧ exit_le x x1 ∧ rel K u r2' r1'.
  Proof.
    intros Hud Hinj. induction l as [|o l IH]; intros r2 r1 s x r2' s' Hu Hd Hr E;
      cbn [map EarlySpec.block] in E |- *.
    - injection E as <- <- <-. by exists End, r1.
    - destruct (exec (ren d u o) r2 s) as [|x2 rr2 s2] eqn:E2; [done|].
      destruct (sim_ren K d u D o Hud Hinj _ r1 _ _ _ _
                   (λ y Hy, Hu y ltac:(rewrite uses_cons; apply elem_of_app; by left))
                   (λ y Hy, Hd y ltac:(rewrite defs_cons; apply elem_of_app; by left)) Hr E2)
        as (x1 & rr1 & E1 & Hx & Hr').
      rewrite E1. destruct x2, x1; try done.
      + eapply IH; [| |done|done].
        * intros y Hy. apply Hu. rewrite uses_cons. apply elem_of_app. by right.
        * intros y Hy. apply Hd. rewrite defs_cons. apply elem_of_app. by right.
      + injection E as <- <- <-. eauto.
      + injection E as <- <- <-. eauto.
  Qed.

  Lemma ren_id o : ren (λ x, x) (λ x, x) o = o.
  Proof.
    induction o as [rs f xs ns|rs c t e Ht He|xs|xs] using op_rect'; cbn [ren]; rewrite ?map_id; try done.
    f_equal.
    - induction Ht as [|o l Ho _ IH]; cbn [map]; [done|]. by rewrite Ho, IH.
    - induction He as [|o l Ho _ IH]; cbn [map]; [done|]. by rewrite Ho, IH.
  Qed.

  (** ** What is after the ifs around a block *)

  Fixpoint plug (a : res V S) (ks : ctx) : res V S :=
    match ks with
    | [] => a
    | (rs, post) :: ks' =>
        match branch_end rs a with
        | Done End r s => plug (block post r s) ks'
        | a' => a'
        end
    end.

  Lemma plug_ret ws r s ks : plug (Done (RetE ws) r s) ks = Done (RetE ws) r s.
  Proof. by destruct ks as [|[rs post] ks]. Qed.
  Lemma plug_stuck ks : plug Stuck ks = Stuck.
  Proof. by destruct ks as [|[rs post] ks]. Qed.

  Lemma plug_If rs c t e post r s v ks :
    r c = Some v →
    plug (block (If rs c t e :: post) r s) ks
    = plug (block (if truth v then t else e) r s) ((rs, post) :: ks).
  Proof.
    intros Hc. cbn [EarlySpec.block]. rewrite exec_If, Hc. cbn [plug].
    destruct (block (if truth v then t else e) r s) as [|x r' s']; [by apply plug_stuck|].
    destruct x; cbn [branch_end].
    - unfold binds. destruct (bind r' rs []); [done|by apply plug_stuck].
    - unfold binds. destruct (bind r' rs ws); [done|by apply plug_stuck].
    - by apply plug_ret.
  Qed.

  (** ** An operation which is moved *)

  Lemma exit_le_End x : exit_le End x → x = End.
  Proof. by destruct x. Qed.

  Lemma moved_sim K g o r2 r1 s x r2' s' :
    rel K (λ x, x) r2 r1 → rel K g r2 r1 →
    (∀ y, y ∈ ouses o → y < K) →
    (∀ y, y < K → g y ≠ y → g y ∉ odefs o ∧ y ∉ odefs o) →
    is_yield o = false →
    exec (sub g o) r2 s = Done x r2' s' →
    ∃ r1', exec o r1 s = Done x r1' s' ∧ rel K (λ x, x) r2' r1' ∧ rel K g r2' r1'.
  Proof.
    intros Hid Hg Hu Hf Hy E.
    assert (H : ∃ r1', exec o r1 s = Done x r1' s' ∧ rel K (λ x, x) r2' r1').
    { destruct o as [rs f xs ns|rs c t e|xs|xs]; [| |done|].
      - cbn [sub EarlySpec.exec] in E |- *. cbn [ouses] in Hu.
        destruct (mapM r2 (map g xs)) as [vs|] eqn:Exs; [|done].
        destruct (mapM r2 ns) as [us|] eqn:Ens; [|done].
        rewrite (rel_mapM _ _ _ _ _ _ Hg (λ y Hy, Hu y ltac:(apply elem_of_app; by left)) Exs).
        rewrite (rel_mapM _ (λ x, x) _ _ ns us Hid (λ y Hy, Hu y ltac:(apply elem_of_app; by right)))
          by (by rewrite map_id).
        destruct (sem f vs us s) as [w s0].
        apply binds_Done in E as (-> & -> & E).
        destruct (rel_bind K (λ x, x) (λ x, x) rs r2 r1 rs _ _ r2' ltac:(done) ltac:(done) Hid ltac:(done)
                    (le_opt_refl _) ltac:(rewrite map_id; exact E)) as (r1' & E1 & Hr1).
        unfold binds. rewrite E1. by exists r1'.
      - cbn [sub] in E. rewrite exec_If in E |- *. rewrite ouses_If in Hu.
        destruct (r2 (g c)) as [v|] eqn:Ec; [|done].
        rewrite (Hg c (Hu c ltac:(left)) v Ec).
        assert (Hub : ∀ y, y ∈ uses (if truth v then t else e) → y < K).
        { intros y Hyb. apply Hu. right. apply elem_of_app. destruct (truth v); auto. }
        set (b := if truth v then t else e) in *. clearbody b.
        destruct (block b r2 s) as [|x2 rr2 s2] eqn:E2; [done|].
        destruct (sim_rens K (λ x, x) (λ x, x) (defs b) b ltac:(done) ltac:(done) r2 r1 s x2 rr2 s2 Hub ltac:(done) Hid)
          as (x1 & rr1 & E1 & Hx & Hr').
        { rewrite (map_ext _ (λ o, o) ren_id), map_id. done. }
        rewrite E1. destruct x2, x1; try done; cbn [branch_end exit_le] in *.
        + apply binds_Done in E as (-> & -> & E).
          destruct (rel_bind K (λ x, x) (λ x, x) rs rr2 rr1 rs _ _ r2' ltac:(done) ltac:(done) Hr' ltac:(done)
                    (le_opt_refl _) ltac:(rewrite map_id; exact E)) as (r1' & Eb & Hr1).
          unfold binds. rewrite Eb. by exists r1'.
        + apply binds_Done in E as (-> & -> & E).
          destruct (rel_bind K (λ x, x) (λ x, x) rs rr2 rr1 rs _ _ r2' ltac:(done) ltac:(done) Hr' ltac:(done)
                    Hx ltac:(rewrite map_id; exact E)) as (r1' & Eb & Hr1).
          unfold binds. rewrite Eb. by exists r1'.
        + injection E as <- <- <-. subst. by eexists _.
      - cbn [sub EarlySpec.exec] in E |- *. cbn [ouses] in Hu.
        destruct (mapM r2 (map g xs)) as [vs|] eqn:Exs; [|done].
        rewrite (rel_mapM _ _ _ _ _ _ Hg Hu Exs). injection E as <- <- <-. by exists r1. }
    destruct H as (r1' & E1 & Hr'). exists r1'. split; [done|]. split; [done|].
    intros y HyK v Hv. destruct (decide (g y = y)) as [Heq|Hne].
    - rewrite Heq in Hv. by apply (Hr' y HyK).
    - destruct (Hf y HyK Hne) as [H1 H2].
      rewrite (exec_frame _ _ _ _ _ _ E1 y H2).
      rewrite (exec_frame _ _ _ _ _ _ E (g y)) in Hv by (by rewrite odefs_sub).
      by apply Hg.
  Qed.

  Lemma moves_sim K g p : ∀ r2 r1 s x r2' s',
    rel K (λ x, x) r2 r1 → rel K g r2 r1 →
    (∀ y, y ∈ uses p → y < K) →
    (∀ y, y < K → g y ≠ y → g y ∉ defs p ∧ y ∉ defs p) →
    has_yield p = false →
    block (map (sub g) p) r2 s = Done x r2' s' →
    ∃ r1', block p r1 s = Done x r1' s' ∧ rel K (λ x, x) r2' r1' ∧ rel K g r2' r1'.
  Proof.
    induction p as [|o p IH]; intros r2 r1 s x r2' s' Hid Hg Hu Hf Hy E;
      cbn [map EarlySpec.block] in E |- *.
    - injection E as <- <- <-. by exists r1.
    - cbn [has_yield existsb] in Hy. apply orb_false_iff in Hy as [Hy1 Hy2].
      destruct (exec (sub g o) r2 s) as [|x2 rr2 s2] eqn:E2; [done|].
      destruct (moved_sim K g o r2 r1 s x2 rr2 s2 Hid Hg) as (rr1 & E1 & Hid' & Hg'); try done.
      { intros y Hin. apply Hu. rewrite uses_cons. apply elem_of_app. by left. }
      { intros y HyK Hne. destruct (Hf y HyK Hne) as [H1 H2].
        rewrite defs_cons, not_elem_of_app in H1, H2. tauto. }
      rewrite E1. destruct x2.
      + eapply IH; try done.
        * intros y Hin. apply Hu. rewrite uses_cons. apply elem_of_app. by right.
        * intros y HyK Hne. destruct (Hf y HyK Hne) as [H1 H2].
          rewrite defs_cons, not_elem_of_app in H1, H2. tauto.
      + injection E as <- <- <-. eauto.
      + injection E as <- <- <-. eauto.
  Qed.

  (** ** An operation which is cloned *)

  Lemma bind_len r xs (ws : list (option V)) r' : bind r xs ws = Some r' → length xs = length ws.
  Proof.
    revert r ws. induction xs as [|x xs IH]; intros r [|w ws] E; cbn [bind] in E; try done.
    cbn [length]. f_equal. by eapply IH.
  Qed.
  Lemma bind_is r xs (ws : list (option V)) : length xs = length ws → ∃ r', bind r xs ws = Some r'.
  Proof.
    revert r ws. induction xs as [|x xs IH]; intros r [|w ws] E; cbn [bind length] in *; try done; [eauto|].
    apply IH. lia.
  Qed.

  Lemma bind_some r xs (ws : list (option V)) r' r0 ys :
    bind r xs ws = Some r' → length ys = length xs → ∃ r0', bind r0 ys ws = Some r0'.
  Proof.
    revert r r0 ys ws. induction xs as [|x xs IH]; intros r r0 [|y ys] [|w ws] E Hl; cbn [bind] in *; try done.
    - eauto.
    - eapply IH; [done|]. cbn [length] in Hl. lia.
  Qed.

  Lemma clone_sim K g o r2 r1 s x r2' s' :
    rel K (λ x, x) r2 r1 → rel K g r2 r1 →
    (∀ y, y ∈ ouses o → y < K) →
    (∀ y, y ∈ odefs o → y < K ∧ r2 y = None ∧ r2 (K + y) = None ∧ g y = y) →
    (∀ y, y < K → g y < K) →
    is_yield o = false →
    exec (sub g (clone K o)) r2 s = Done x r2' s' →
    ∃ r1', exec o r1 s = Done x r1' s' ∧ rel K (λ x, x) r2' r1' ∧ rel K g r2' r1'
      ∧ (∀ y, y < K → r2' y = r2 y) ∧ (∀ y, y ∉ odefs o → r2' (K + y) = r2 (K + y)).
  Proof.
    intros Hid Hg Hu Hf HgK Hy E.
    assert (Hfr : ∀ y, y ∉ map (Nat.add K) (odefs o) → r2' y = r2 y).
    { intros y Hny. eapply exec_frame; [done|]. by rewrite odefs_sub, odefs_clone. }
    assert (H : ∃ r1', exec o r1 s = Done x r1' s').
    { destruct o as [rs f xs ns|rs c t e|xs|xs]; [| |done|].
      - cbn [clone sub EarlySpec.exec] in E |- *. cbn [ouses] in Hu.
        destruct (mapM r2 (map g xs)) as [vs|] eqn:Exs; [|done].
        destruct (mapM r2 ns) as [us|] eqn:Ens; [|done].
        rewrite (rel_mapM _ _ _ _ _ _ Hg (λ y Hy, Hu y ltac:(apply elem_of_app; by left)) Exs).
        rewrite (rel_mapM _ (λ x, x) _ _ ns us Hid (λ y Hy, Hu y ltac:(apply elem_of_app; by right)))
          by (by rewrite map_id).
        destruct (sem f vs us s) as [w s0]. rewrite map_length in E.
        apply binds_Done in E as (-> & -> & E).
        destruct (bind_some _ _ _ _ r1 rs E) as (r1' & E1); [by rewrite map_length|].
        unfold binds. rewrite E1. by exists r1'.
      - cbn [clone sub] in E. rewrite exec_If in E |- *. rewrite ouses_If in Hu. rewrite odefs_If in Hf.
        destruct (r2 (g c)) as [v|] eqn:Ec; [|done].
        rewrite (Hg c (Hu c ltac:(left)) v Ec).
        set (D := defs t ++ defs e) in *.
        assert (Hub : ∀ y, y ∈ uses (if truth v then t else e) → y < K).
        { intros y Hyb. apply Hu. right. apply elem_of_app. destruct (truth v); auto. }
        assert (HbD : ∀ y, y ∈ defs (if truth v then t else e) → y ∈ D).
        { intros y Hyb. unfold D. apply elem_of_app. destruct (truth v); auto. }
        assert (HD : ∀ y, y ∈ D → y < K ∧ r2 (K + y) = None).
        { intros y HyD. destruct (Hf y) as (? & ? & ? & ?); [|done]. apply elem_of_app. by right. }
        assert (Eb : (if truth v then map (ren (Nat.add K) (inner K D)) t else map (ren (Nat.add K) (inner K D)) e)
                     = map (ren (Nat.add K) (inner K D)) (if truth v then t else e)) by (by destruct (truth v)).
        rewrite Eb in E. clear Eb.
        set (b := if truth v then t else e) in *. clearbody b. clearbody D.
        destruct (block (map (ren (Nat.add K) (inner K D)) b) r2 s) as [|x2 rr2 s2] eqn:E2; [done|].
        destruct (sim_rens K (Nat.add K) (inner K D) D b) with (r2 := r2) (r1 := r1) (s := s) (x := x2) (r2' := rr2) (s' := s2)
          as (x1 & rr1 & E1 & Hx & Hr'); try done.
        { intros y HyD. unfold inner. by rewrite decide_True. }
        { intros z y HzK HyD. unfold inner. destruct (decide (z ∈ D)); lia. }
        { intros y HyK. unfold inner. destruct (decide (y ∈ D)) as [HyD|_]; [|by apply Hid].
          destruct (HD y HyD) as [_ ->]. by intros w Hw. }
        rewrite E1. destruct x2, x1; try done; cbn [branch_end exit_le] in *.
        + apply binds_Done in E as (-> & -> & E).
          destruct (bind_some _ _ _ _ rr1 rs E) as (r1' & Eb); [by rewrite map_length|].
          unfold binds. rewrite Eb. by exists r1'.
        + apply binds_Done in E as (-> & -> & E).
          assert (Hl : length ws = length ws0) by (by eapply Forall2_length).
          assert (Hb : ∃ r1', bind rr1 rs ws0 = Some r1').
          { apply bind_is. rewrite <- Hl. apply bind_len in E. by rewrite map_length in E. }
          destruct Hb as [r1' Eb]. unfold binds. rewrite Eb. by exists r1'.
        + injection E as <- <- <-. subst. by eexists _.
      - cbn [clone sub EarlySpec.exec] in E |- *. cbn [ouses] in Hu.
        destruct (mapM r2 (map g xs)) as [vs|] eqn:Exs; [|done].
        rewrite (rel_mapM _ _ _ _ _ _ Hg Hu Exs). injection E as <- <- <-. by exists r1. }
    destruct H as (r1' & E1).
    assert (Hlow : ∀ y, y < K → r2' y = r2 y).
    { intros y HyK. apply Hfr. intros (z & -> & _)%elem_of_list_fmap. lia. }
    assert (Hfr1 : ∀ y, y ∉ odefs o → r1' y = r1 y) by (intros y Hny; by eapply exec_frame).
    exists r1'. split; [done|]. repeat split.
    - intros y HyK v Hv. rewrite Hlow in Hv by done.
      destruct (decide (y ∈ odefs o)) as [Hin|Hnin].
      + destruct (Hf y Hin) as (_ & Hn & _). by rewrite Hn in Hv.
      + rewrite Hfr1 by done. by apply (Hid y HyK).
    - intros y HyK v Hv. rewrite Hlow in Hv by (by apply HgK).
      destruct (decide (y ∈ odefs o)) as [Hin|Hnin].
      + destruct (Hf y Hin) as (_ & Hn & _ & He). by rewrite He, Hn in Hv.
      + rewrite Hfr1 by done. by apply (Hg y HyK).
    - done.
    - intros y Hny. apply Hfr. intros (z & Hz & Hin)%elem_of_list_fmap.
      assert (z = y) as -> by lia. done.
  Qed.

  Lemma clones_sim K g p : ∀ r2 r1 s x r2' s',
    rel K (λ x, x) r2 r1 → rel K g r2 r1 →
    (∀ y, y ∈ uses p → y < K) → NoDup (defs p) →
    (∀ y, y ∈ defs p → y < K ∧ r2 y = None ∧ r2 (K + y) = None ∧ g y = y) →
    (∀ y, y < K → g y < K) →
    has_yield p = false →
    block (map (sub g) (map (clone K) p)) r2 s = Done x r2' s' →
    ∃ r1', block p r1 s = Done x r1' s' ∧ rel K (λ x, x) r2' r1' ∧ rel K g r2' r1'
      ∧ (∀ y, y < K → r2' y = r2 y) ∧ (∀ y, y ∉ defs p → r2' (K + y) = r2 (K + y)).
  Proof.
    induction p as [|o p IH]; intros r2 r1 s x r2' s' Hid Hg Hu Hnd Hf HgK Hy E;
      cbn [map EarlySpec.block] in E |- *.
    - injection E as <- <- <-. by exists r1.
    - cbn [has_yield existsb] in Hy. apply orb_false_iff in Hy as [Hy1 Hy2].
      rewrite defs_cons in Hnd, Hf |- *. rewrite uses_cons in Hu.
      apply NoDup_app in Hnd as (Hnd1 & Hdj & Hnd2).
      destruct (exec (sub g (clone K o)) r2 s) as [|x2 rr2 s2] eqn:E2; [done|].
      destruct (clone_sim K g o r2 r1 s x2 rr2 s2 Hid Hg) as (rr1 & E1 & Hid' & Hg' & Hlow & Hfr); try done.
      { intros y Hin. apply Hu. apply elem_of_app. by left. }
      { intros y Hin. apply Hf. apply elem_of_app. by left. }
      rewrite E1. destruct x2.
      + destruct (IH rr2 rr1 s2 x r2' s') as (r1' & E3 & Hid3 & Hg3 & Hlow3 & Hfr3); try done.
        * intros y Hin. apply Hu. apply elem_of_app. by right.
        * intros y Hin. destruct (Hf y) as (? & ? & ? & ?); [apply elem_of_app; by right|].
          split; [done|]. rewrite Hlow, Hfr by (try done; intros ?; by apply (Hdj y)). done.
        * exists r1'. repeat split; try done.
          -- intros y HyK. rewrite Hlow3, Hlow; done.
          -- intros y Hny. apply not_elem_of_app in Hny as [? ?]. rewrite Hfr3, Hfr; done.
      + injection E as <- <- <-. exists rr1. repeat split; try done.
        intros y Hny. apply not_elem_of_app in Hny as [? ?]. by apply Hfr.
      + injection E as <- <- <-. exists rr1. repeat split; try done.
        intros y Hny. apply not_elem_of_app in Hny as [? ?]. by apply Hfr.
  Qed.
End run.
